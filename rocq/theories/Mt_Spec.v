(** MT19937: Matsumoto and Nishimura's recurrence over 32-bit words. *)
From Verif Require Import Common.
Local Open Scope Z_scope.

(** The sequence of a seed: 624 words from the seed, then x_(k+624) = x_(k+397) + (the upper bit of x_k, the lower 31 bits of x_(k+1)) A. *)
Definition times_A (y : Z) : Z := if Z.odd y then Z.lxor (y / 2) 2567483615 else y / 2.
Record mt19937 (seed : Z) (x : nat -> Z) : Prop := {
  mt_first : x 0%nat = seed;
  mt_seeded : forall i, (1 <= i < 624)%nat -> x i = (1812433253 * Z.lxor (x (i - 1)%nat) (x (i - 1)%nat / 2 ^ 30) + Z.of_nat i) mod 2 ^ 32;
  mt_step : forall k, x (k + 624)%nat = Z.lxor (x (k + 397)%nat) (times_A (x k / 2 ^ 31 * 2 ^ 31 + x (k + 1)%nat mod 2 ^ 31)) }.
(** y := x + (x >> 11); y := y + ((y << 7) & b); y := y + ((y << 15) & c); z := y + (y >> 18) *)
Definition temper (x : Z) : Z :=
  let y := Z.lxor x (x / 2 ^ 11) in
  let y := Z.lxor y (Z.land (y * 2 ^ 7) 2636928640) in
  let y := Z.lxor y (Z.land (y * 2 ^ 15) 4022730752) in
  Z.lxor y (y / 2 ^ 18).
