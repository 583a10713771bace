(** Clock times as doubles. *)
From Verif Require Import Common Double_Model Double_Spec RandReal_Spec Clock_Spec.
Local Open Scope Z_scope.

(** The error of a double for a number of microseconds, in units of 2^-1074 microseconds *)
Definition error (d : double) (t : Z) : Z := Z.abs (million * value d - t * 2 ^ 1074).
(** t is the only whole number of microseconds nearest to d. *)
Definition stands_for (d : double) (t : Z) : Prop := 2 * error d t < 2 ^ 1074 /\ forall t', t' <> t -> error d t < error d t'.
