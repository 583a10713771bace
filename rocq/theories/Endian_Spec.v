(** The bytes of a number. *)
From Verif Require Import Common.
Local Open Scope Z_scope.

Definition byte (v : Z) (i : nat) : Z := (v / 2 ^ (8 * Z.of_nat i)) mod 256.
(** Least significant first, most significant first; two's complement for negative v. *)
Definition little_order (n : nat) (v : Z) : list Z := map (byte v) (seq 0 n).
Definition big_order (n : nat) (v : Z) : list Z := rev (little_order n v).
(** The values of an n-byte type. *)
Definition in_type (sgn : bool) (n : nat) (v : Z) : Prop :=
  if sgn then - 2 ^ (8 * Z.of_nat n - 1) <= v < 2 ^ (8 * Z.of_nat n - 1) else 0 <= v < 2 ^ (8 * Z.of_nat n).
