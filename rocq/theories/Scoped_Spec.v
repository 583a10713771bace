(** What a scoped_ptr should do with the objects it is given. *)
From Verif Require Import Common.

(** Object [k] is given to a scoped_ptr; it is deleted. *)
Inductive event := Given (k : nat) | Deleted (k : nat).
Definition about (k : nat) (e : event) : bool := match e with Given j | Deleted j => Nat.eqb j k end.
(** The life of each object: given once, then deleted once *)
Definition proper (l : list event) : Prop := forall k, let e := filter (about k) l in e = [] \/ e = [Given k] \/ e = [Given k; Deleted k].
(** All that was given is deleted. *)
Definition released (l : list event) : Prop := forall k, In (Given k) l -> In (Deleted k) l.
