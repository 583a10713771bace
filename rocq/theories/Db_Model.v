(** Model of src/database/type.h and statement.h.  double is an abstract type F; the time zone functions are those of Clock_Model. *)
From Verif Require Import Common Clock_Model Ipv4_Model Db_Spec.
Local Open Scope Z_scope.

Section db.
Context {F : Type} (mktime : tm -> Z) (localtime : Z -> tm).
(** type.h:62-128; a shared_ptr may also be null *)
Inductive sql := Sbool (b : bool) | Sstring (s : list Z) | Sint32 (n : Z) | Sint64 (n : Z) | Sfloat (d : F) | Stimestamp (c : clock) | Sunknown (s : list Z).
Definition ptr := option sql.
(** type.h:130-168 *)
Definition to_sql (v : val F) : ptr :=
  Some match v with
       | B b => Sbool b | S_ s => Sstring s | I32 n => Sint32 n | I64 n => Sint64 n | D d => Sfloat d | T_ c => Stimestamp c
       | C_ c => Stimestamp (clock_of mktime c)
       end.
(** type.h:140-143: from a char pointer *)
Definition to_sql_cstr (p : list Z) : ptr := Some (Sstring (c_str p)).
(** type.h:173-250 *)
Definition from_sql (t : ty) (p : ptr) : outcome (val F) :=
  match t with
  | TB => match p with Some (Sbool b) => Ok (B b) | _ => Throw end
  | TS => match p with Some (Sstring s) => Ok (S_ s) | _ => Ok (S_ []) end
  | T32 => match p with
           | Some (Sint32 n) => Ok (I32 n)
           | Some (Sint64 n) => if (- 2147483648 <=? n) && (n <=? 2147483647) then Ok (I32 n) else Throw
           | _ => Throw
           end
  | T64 => match p with Some (Sint64 n) => Ok (I64 n) | Some (Sint32 n) => Ok (I64 n) | _ => Throw end
  | TD => match p with Some (Sfloat d) => Ok (D d) | _ => Throw end
  | TT => match p with Some (Stimestamp c) => Ok (T_ c) | _ => Throw end
  | TC => match p with Some (Stimestamp c) => Ok (C_ (calendar_of localtime c)) | _ => Throw end
  end.

(** vectors of shared_ptr: access outside is undefined *)
Definition put (v : list ptr) (i : nat) (x : ptr) : outcome (list ptr) :=
  if Nat.ltb i (length v) then Ok (firstn i v ++ x :: skipn (S i) v) else UB.
Definition get (v : list ptr) (i : nat) : outcome ptr := match nth_error v i with Some p => Ok p | None => UB end.
(** statement.h:51-169: the size of args in execute with k arguments; that with 10 makes 9 *)
Definition exec_size (k : nat) : nat := if Nat.eqb k 10 then 9 else k.
Fixpoint fill (i : nat) (vs : list (val F)) (args : list ptr) : outcome (list ptr) :=
  match vs with [] => Ok args | v :: vs => let* args := put args i (to_sql v) in fill (S i) vs args end.
(** what the virtual execute(args) gets *)
Definition execute (vs : list (val F)) : outcome (list ptr) := fill 0 vs (repeat None (exec_size (length vs))).
(** statement.h:171-304: the number of columns that fetch_row with k targets wants *)
Definition fetch_size (k : nat) : nat := (match k with 8 => 7 | 9 => 8 | 10 => 9 | _ => k end)%nat.
(** r_i = from_sql<T_i>(ret[i-1]); statement.h:284: r9 is converted as T8 *)
Fixpoint take (i : nat) (ts : list ty) (all : list ty) (ret : list ptr) : outcome (list (val F)) :=
  match ts with
  | [] => Ok []
  | t :: ts => let* p := get ret i in
               let* v := from_sql (if Nat.eqb (length all) 9 && Nat.eqb i 8 then nth 7 all t else t) p in
               let* vs := take (S i) ts all ret in Ok (v :: vs)
  end.
(** ret: what the virtual fetch_row gives, None for false.  Some: the targets *)
Definition fetch_row (ts : list ty) (ret : option (list ptr)) : outcome (option (list (val F))) :=
  match ret with
  | None => Ok None
  | Some r => if Nat.eqb (length r) (fetch_size (length ts)) then let* vs := take 0 ts ts r in Ok (Some vs) else Throw
  end.
End db.
Arguments sql : clear implicits.
Arguments ptr : clear implicits.
