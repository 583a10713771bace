(** Single precision numbers, as IEEE 754 defines them. *)
From Verif Require Import Common Single_Model.
Local Open Scope Z_scope.
(* From Single_Model only the data type [single] is used. *)

(** A finite IEEE binary32 number in canonical form: 24 bits, or the smallest exponent. *)
Definition is_single (f : single) : Prop :=
  0 <= fman f < 2 ^ 24 /\ -149 <= fexp f <= 104 /\ (2 ^ 23 <= fman f \/ fexp f = -149).
(** Its absolute value in units of 2^-149, an integer *)
Definition smag (f : single) : Z := fman f * 2 ^ (fexp f + 149).
(** | p/q - |f| | in units of 2^-149 / q *)
Definition sdist (p q : Z) (f : single) : Z := Z.abs (p * 2 ^ 149 - q * smag f).
(** f is (-1)^neg * p/q rounded to nearest, ties to even; fractions from 2^128 - 2^103 on overflow *)
Definition nearest_single (neg : bool) (p q : Z) (f : single) : Prop :=
  is_single f /\ fneg f = neg /\ p < q * (2 ^ 128 - 2 ^ 103) /\
  (forall g, is_single g -> sdist p q f <= sdist p q g) /\
  (forall g, is_single g -> sdist p q g = sdist p q f -> smag g <> smag f -> Z.even (fman f) = true).
