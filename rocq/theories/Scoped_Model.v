(** Model of src/lang/scoped_ptr.h:41-72 and of src/lang/safe_bool.h:50-77 for it: any number of scoped_ptrs, used
    by one thread.  Simplification: the destructor of T does nothing but end the object. *)
From Verif Require Import Common Scoped_Spec.

(** The address that is handed over: null; that of a new object; some other *)
Inductive raw := Null | New | Raw (k : nat).
Inductive op := Make (i : nat) (p : raw) | Reset (i : nat) (p : raw) | Swap (i j : nat) | Destroy (i : nat) | Deref (i : nat) | Fresh.
(** ptrs: p_ of the scoped_ptrs there are; alive: the objects that exist; next: the next address *)
Record heap := mk { ptrs : nat -> option (option nat); alive : list nat; next : nat; log : list event }.
Definition empty : heap := mk (fun _ => None) [] 0 [].

Definition put (f : nat -> option (option nat)) (i : nat) (x : option (option nat)) : nat -> option (option nat) := fun j => if Nat.eqb j i then x else f j.
Definition given (h : heap) (p : option nat) : heap := match p with Some k => mk (ptrs h) (alive h) (next h) (log h ++ [Given k]) | None => h end.
Definition value (h : heap) (p : raw) : heap * option nat :=
  match p with
  | Null => (h, None)
  | New => (mk (ptrs h) (next h :: alive h) (S (next h)) (log h), Some (next h))
  | Raw k => (h, Some k)
  end.
Definition set (h : heap) (i : nat) (x : option (option nat)) : heap := mk (put (ptrs h) i x) (alive h) (next h) (log h).
(** delete of null does nothing; of an object that is not there it is undefined *)
Definition delete (h : heap) (p : option nat) : outcome heap :=
  match p with
  | None => Ok h
  | Some k => if existsb (Nat.eqb k) (alive h) then Ok (mk (ptrs h) (filter (fun j => negb (Nat.eqb j k)) (alive h)) (next h) (log h ++ [Deleted k])) else UB
  end.

(** Operations on scoped_ptrs that are not there do nothing (no C++ program has them). *)
Definition step (h : heap) (o : op) : outcome heap :=
  match o with
  | Make i p => match ptrs h i with   (* :44 *)
                | Some _ => Ok h
                | None => let '(h, v) := value h p in Ok (given (set h i (Some v)) v)
                end
  | Reset i p => match ptrs h i with   (* :53-56, the destructor of tmp :45 *)
                 | None => Ok h
                 | Some old => let '(h, v) := value h p in
                               let tmp := v in let '(mine, tmp) := (tmp, old) in
                               delete (given (set h i (Some mine)) v) tmp
                 end
  | Swap i j => match ptrs h i, ptrs h j with   (* :57-59, 68-72 *)
                | Some a, Some b => Ok (set (set h i (Some b)) j (Some a))
                | _, _ => Ok h
                end
  | Destroy i => match ptrs h i with None => Ok h | Some p => delete (set h i None) p end   (* :45 *)
  | Deref i => match ptrs h i with   (* :49-50 *)
               | None => Ok h
               | Some None => UB
               | Some (Some k) => if existsb (Nat.eqb k) (alive h) then Ok h else UB
               end
  | Fresh => Ok (fst (value h New))   (* new T outside *)
  end.
Fixpoint run (h : heap) (os : list op) : outcome heap := match os with [] => Ok h | o :: r => let* h := step h o in run h r end.

(** :47; safe_bool.h:53-56, 61-77 *)
Definition bool_test (p : option nat) : bool := match p with Some _ => true | None => false end.
Definition equal_bool (p : option nat) (b : bool) : bool := if bool_test p then b else negb b.

(** No address is handed over twice, and only those of objects. *)
Definition fair (h : heap) (o : op) : Prop := match o with Make _ (Raw k) | Reset _ (Raw k) => (k < next h)%nat /\ ~ In (Given k) (log h) | _ => True end.
Fixpoint all_fair (h : heap) (os : list op) : Prop := match os with [] => True | o :: r => fair h o /\ match step h o with Ok h => all_fair h r | _ => True end end.
