(** Model of src/database/mysql/{value,statement}.cpp.  A buffer holds an object; reading it as another type is undefined.  What the client
    library makes of a MYSQL_BIND is as in its manual: see [sent] and [deliver].  &v[0] of an empty vector is taken for a null pointer that
    nobody follows.  Sizes are those of a 64-bit system. *)
From Verif Require Import Common Clock_Model Db_Model Mysql_Spec.
Local Open Scope Z_scope.

Section mysql.
Context {F : Type} (mktime : tm -> Z) (localtime : Z -> tm).
Inductive obj := Ochar (n : Z) | Oshort (n : Z) | Oint (n : Z) | Oll (n : Z) | Oflt (f : F) | Odbl (f : F) | Otime (y mo d h mi s us : Z) | Obytes (l : list Z).
(** MYSQL_BIND: buffer_type, the object in buffer, buffer_length, *length, is_null (None: the null pointer) *)
Record bind := mkBind { btype : Z; bobj : obj; bcap : Z; blen : Z; bnull : option bool }.

(** value.cpp:98-120 *)
Definition bind_length (p : ptr F) : outcome Z :=
  match p with
  | None => Ok 0
  | Some (Sbool _) => Ok 4
  | Some (Sstring s) => Ok (Z.of_nat (length s))
  | Some (Sint32 _) => Ok 4
  | Some (Sint64 _) => Ok 8
  | Some (Sfloat _) => Ok 8
  | Some (Stimestamp _) => Ok 40
  | Some (Sunknown _) => Throw
  end.
(** writing n bytes at bind.buffer, *length and buffer_type *)
Definition store (b : bind) (n : Z) (o : obj) (t : Z) : outcome bind := if n <=? bcap b then Ok (mkBind t o (bcap b) n (bnull b)) else UB.
(** value.cpp:122-181 *)
Definition to_bind (p : ptr F) (b : bind) : outcome bind :=
  match p with
  | None => Ok (mkBind (btype b) (bobj b) (bcap b) (blen b) None)
  | Some (Sbool x) => store b 4 (Oint (if x then 1 else 0)) 3
  | Some (Sstring s) => store b (Z.of_nat (length s)) (Obytes s) 254
  | Some (Sint32 n) => store b 4 (Oint n) 3
  | Some (Sint64 n) => store b 8 (Oll n) 8
  | Some (Sfloat f) => store b 8 (Odbl f) 5
  | Some (Stimestamp c) => let t := calendar_of localtime c in store b 40 (Otime (year t) (mon t) (mday t) (hour t) (min t) (sec t) (usec t)) 7
  | Some (Sunknown _) => Throw
  end.
(** statement.cpp:115-123 *)
Definition bind_arg (p : ptr F) : outcome bind := let* n := bind_length p in to_bind p (mkBind 0 (Obytes []) n 0 (Some false)).
Fixpoint mapM {A B} (f : A -> outcome B) (l : list A) : outcome (list B) :=
  match l with [] => Ok [] | a :: l => let* b := f a in let* bs := mapM f l in Ok (b :: bs) end.
(** mysql_stmt_bind_param and mysql_stmt_execute: the type MYSQL_TYPE_NULL or a true *is_null stands for NULL, no is_null for never NULL;
    the decimal types (0, 246) are given as text *)
Definition sent (b : bind) : outcome (datum F) :=
  if btype b =? 6 then Ok Nul else match bnull b with Some true => Ok Nul | _ =>
    if btype b =? 3 then match bobj b with Oint n => Ok (Int n) | _ => UB end
    else if btype b =? 8 then match bobj b with Oll n => Ok (Int n) | _ => UB end
    else if btype b =? 5 then match bobj b with Odbl f => Ok (Flt f) | _ => UB end
    else if btype b =? 7 then match bobj b with Otime y mo d h mi s us => Ok (Time y mo d h mi s us) | _ => UB end
    else if (btype b =? 254) || (btype b =? 0) || (btype b =? 246) then
      match bobj b with Obytes l => if blen b <=? Z.of_nat (length l) then Ok (Str (firstn (Z.to_nat (blen b)) l)) else UB | _ => UB end
    else Throw end.
(** statement.cpp:100-146 up to the answer of the server *)
Definition execute (param_count : Z) (args : list (ptr F)) : outcome (list (datum F)) :=
  if param_count =? Z.of_nat (length args) then let* bs := mapM bind_arg args in mapM sent bs else Throw.

(** mysql_stmt_fetch for one column bound with the type of the column: the object written, *length, and whether the value did not fit
    (type and sign conversions do not happen: is_unsigned is 0) *)
Definition wrap (k n : Z) : Z := (n + 2 ^ (k - 1)) mod 2 ^ k - 2 ^ (k - 1).
Definition deliver (t : Z) (d : datum F) (b : bind) : bind * bool :=
  match d with
  | Nul => (mkBind (btype b) (bobj b) (bcap b) (blen b) (Some true), false)
  | Int n => if t =? 1 then (mkBind (btype b) (Ochar (wrap 8 n)) (bcap b) 1 (Some false), negb (wrap 8 n =? n))
             else if (t =? 2) || (t =? 13) then (mkBind (btype b) (Oshort (wrap 16 n)) (bcap b) 2 (Some false), negb (wrap 16 n =? n))
             else if t =? 8 then (mkBind (btype b) (Oll (wrap 64 n)) (bcap b) 8 (Some false), negb (wrap 64 n =? n))
             else (mkBind (btype b) (Oint (wrap 32 n)) (bcap b) 4 (Some false), negb (wrap 32 n =? n))
  | Flt f => if t =? 4 then (mkBind (btype b) (Oflt f) (bcap b) 4 (Some false), false) else (mkBind (btype b) (Odbl f) (bcap b) 8 (Some false), false)
  | Time y mo d h mi s us => (mkBind (btype b) (Otime y mo d h mi s us) (bcap b) 40 (Some false), false)
  | Str s => (mkBind (btype b) (Obytes (firstn (Z.to_nat (bcap b)) s)) (bcap b) (Z.of_nat (length s)) (Some false), bcap b <? Z.of_nat (length s))
  end.
(** value.cpp:44-96; junk: see calendar_make *)
Definition from_bind (junk : bool) (b : bind) : outcome (ptr F) :=
  match bnull b with
  | None | Some true => Ok None
  | Some false =>
    let t := btype b in
    if t =? 1 then match bobj b with Ochar n => Ok (Some (Sint32 n)) | _ => UB end
    else if t =? 2 then match bobj b with Oshort n => Ok (Some (Sint32 n)) | _ => UB end
    else if t =? 3 then match bobj b with Oint n => Ok (Some (Sint32 n)) | _ => UB end
    else if t =? 8 then match bobj b with Oll n => Ok (Some (Sint64 n)) | _ => UB end
    else if t =? 4 then match bobj b with Oflt f => Ok (Some (Sfloat f)) | _ => UB end
    else if t =? 5 then match bobj b with Odbl f => Ok (Some (Sfloat f)) | _ => UB end
    else if (t =? 11) || (t =? 10) || (t =? 12) || (t =? 7) then
      match bobj b with
      | Otime y mo d h mi s us => Ok (Some (Stimestamp (clock_of mktime (calendar_make mktime localtime junk y mo d h mi s us))))
      | _ => UB
      end
    else if (t =? 254) || (t =? 252) then
      match bobj b with Obytes l => if blen b <=? Z.of_nat (length l) then Ok (Some (Sstring (firstn (Z.to_nat (blen b)) l))) else UB | _ => UB end
    else if t =? 6 then Ok None
    else Throw
  end.
(** statement.cpp:150-172 *)
Definition INIT_BUF_SIZE : Z := 16384.
Definition fresh (c : column) : bind := mkBind c (Obytes []) INIT_BUF_SIZE 0 (Some false).
(** statement.cpp:177-191: mysql_stmt_fetch_column delivers again into the larger buffer *)
Definition refetch (c : column) (d : datum F) (b : bind) : bind :=
  if bcap b <? blen b then fst (deliver c d (mkBind (btype b) (bobj b) (blen b + 1) (blen b) (bnull b))) else b.
(** what mysql_stmt_fetch finds *)
Inductive event := Row (ds : list (datum F)) | NoData | Error.
Fixpoint deliver_all (cs : list column) (ds : list (datum F)) (bs : list bind) : list bind * bool :=
  match cs, ds, bs with
  | c :: cs, d :: ds, b :: bs => let '(b, x) := deliver c d b in let '(bs, y) := deliver_all cs ds bs in (b :: bs, x || y)
  | _, _, _ => ([], false)
  end.
Fixpoint refetch_all (cs : list column) (ds : list (datum F)) (bs : list bind) : list bind :=
  match cs, ds, bs with
  | c :: cs, d :: ds, b :: bs => refetch c d b :: refetch_all cs ds bs
  | _, _, _ => []
  end.
(** statement.cpp:148-205; the state is binds with the buffers, empty after execute *)
Definition fetch_row (junk : bool) (cs : list column) (st : list bind) (e : event) : outcome (list bind * option (list (ptr F))) :=
  let bs := match st with [] => map fresh cs | _ => st end in
  match e with
  | NoData => Ok (bs, None)
  | Error => Throw
  | Row ds => let '(bs, truncated) := deliver_all cs ds bs in
              let bs := if truncated then refetch_all cs ds bs else bs in
              let* row := mapM (from_bind junk) bs in Ok (bs, Some row)
  end.
(** fetching until there is no more *)
Fixpoint fetch_all (junk : bool) (cs : list column) (st : list bind) (rows : list (list (datum F))) : outcome (list (list (ptr F))) :=
  match rows with
  | [] => let* r := fetch_row junk cs st NoData in match snd r with None => Ok [] | Some _ => Throw end
  | ds :: rows => let* r := fetch_row junk cs st (Row ds) in
                  match snd r with None => Throw | Some vs => let* vss := fetch_all junk cs (fst r) rows in Ok (vs :: vss) end
  end.
End mysql.
