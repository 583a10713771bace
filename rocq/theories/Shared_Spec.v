(** What shared_ptrs should do with the objects they are given. *)
From Verif Require Import Common.

(** Object [k] is given to a first shared_ptr; it is deleted. *)
Inductive event := Given (k : nat) | Deleted (k : nat).
Definition about (k : nat) (e : event) : bool := match e with Given j | Deleted j => Nat.eqb j k end.
(** The life of each object: given once, then deleted once *)
Definition proper (l : list event) : Prop := forall k, let e := filter (about k) l in e = [] \/ e = [Given k] \/ e = [Given k; Deleted k].
Definition released (l : list event) : Prop := forall k, In (Given k) l -> In (Deleted k) l.
Definition live (l : list event) (k : nat) : Prop := In (Given k) l /\ ~ In (Deleted k) l.
(** How many of the pointers there are point to object [k] *)
Fixpoint owners (k : nat) (l : list (option nat)) : nat :=
  match l with [] => 0 | Some j :: r => if Nat.eqb j k then S (owners k r) else owners k r | None :: r => owners k r end.
