(** What the helpers promise. *)
From Verif Require Import Common.
Local Open Scope Z_scope.

Definition below (n x : Z) : Prop := 0 <= x < n.
Definition uint32 (x : Z) : Prop := 0 <= x < 2 ^ 32.
(** a source of numbers below its argument, for 32-bit arguments greater than 0 *)
Definition in_range {G : Type} (r : Z -> G -> Z * G) : Prop := forall a g, 0 < a < 2 ^ 32 -> below a (fst (r a g)).
(** rounding to the nearest number with 53 significant bits: [y] is such a number, and no other is nearer *)
Definition significand53 (y : Z) : Prop := exists m e, 0 <= e /\ 0 <= m < 2 ^ 53 /\ y = m * 2 ^ e.
Definition nearest53 (x y : Z) : Prop := significand53 y /\ forall z, significand53 z -> Z.abs (x - y) <= Z.abs (x - z).
