(** What it means for a double to be the correctly rounded value of a fraction. *)
From Verif Require Import Common Double_Model.
Local Open Scope Z_scope.
(* From Double_Model only the data type [double] is used. *)

(** A finite IEEE binary64 number in canonical form: 53 bits, or the smallest exponent. *)
Definition is_double (d : double) : Prop :=
  0 <= dman d < 2 ^ 53 /\ -1074 <= dexp d <= 971 /\ (2 ^ 52 <= dman d \/ dexp d = -1074).

(** Its absolute value in units of 2^-1074, an integer. *)
Definition mag (d : double) : Z := dman d * 2 ^ (dexp d + 1074).

(** | p/q - |d| | in units of 2^-1074 / q. *)
Definition dist (p q : Z) (d : double) : Z := Z.abs (p * 2 ^ 1074 - q * mag d).

(** [d] is (-1)^neg * p/q rounded to nearest, ties to even; fractions from 2^1024 - 2^970 on overflow. *)
Definition nearest (neg : bool) (p q : Z) (d : double) : Prop :=
  is_double d /\ dneg d = neg /\ p < q * (2 ^ 1024 - 2 ^ 970) /\
  (forall d', is_double d' -> dist p q d <= dist p q d') /\
  (forall d', is_double d' -> dist p q d' = dist p q d -> mag d' <> mag d -> Z.even (dman d) = true).

(** Underflow is an error unless the result is exact: the fraction must be exact or at least
    2^-1022 - 2^-1076, what rounds to a normal number. *)
Definition no_underflow (p q : Z) (d : double) : Prop := dist p q d = 0 \/ q * (2 ^ 54 - 1) <= p * 2 ^ 1076.

(** D * 10^k *)
Definition dec_value (neg : bool) (D k : Z) (d : double) : Prop :=
  let p := D * 10 ^ Z.max 0 k in let q := 10 ^ Z.max 0 (- k) in nearest neg p q d /\ no_underflow p q d.
