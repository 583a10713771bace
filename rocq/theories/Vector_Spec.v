(** Vectors as finite sequences: sums over the components and the dictionary order. *)
From Verif Require Import Common.
Local Open Scope nat_scope.

Section spec.
Context {T : Type} (d : T).
(** r has the n components f 0, f 1, ... *)
Definition components (n : nat) (r : list T) (f : nat -> T) : Prop := length r = n /\ forall i, i < n -> nth i r d = f i.
(** a is before b in the dictionary: the first component that differs decides *)
Definition before (lt : T -> T -> Prop) (n : nat) (a b : list T) : Prop := exists i, i < n /\ lt (nth i a d) (nth i b d) /\ forall j, j < i -> nth j a d = nth j b d.
End spec.
(** f 0 + ... + f (n - 1) *)
Fixpoint total {T} (zero : T) (add : T -> T -> T) (n : nat) (f : nat -> T) : T := match n with O => zero | S n => add (total zero add n f) (f n) end.
