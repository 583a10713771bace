(** Single precision numbers as text. *)
From Verif Require Import Common Single_Model Single_Spec Json_Spec JsonFloat_Spec LexFloat_Spec.
Local Open Scope Z_scope.
(* From Single_Model only the data type [single] is used. *)

(** The float f is (-1)^neg * D * 10^j, rounded to nearest *)
Definition near_single (neg : bool) (D j : Z) (f : single) : Prop := nearest_single neg (D * up j) (down j) f.
(** D * 10^j is beyond the largest float *)
Definition too_large_single (D j : Z) : Prop := down j * (2 ^ 128 - 2 ^ 103) <= D * up j.
(** |f| rounded to 6 digits is n * 10^k: 10^(k+5) <= |f| < 10^(k+6), and no other multiple of 10^k is nearer to |f|. *)
Definition srounds6 (f : single) (n k : Z) : Prop :=
  10 ^ 5 * up k * 2 ^ 149 <= down k * smag f < 10 ^ 6 * up k * 2 ^ 149 /\ 10 ^ 5 <= n <= 10 ^ 6 /\
  2 * sdist (n * up k) (down k) f <= up k * 2 ^ 149.
(** f is the float nearest to a number of at most six digits *)
Definition six_single (f : single) : Prop := exists D j, 0 <= D < 10 ^ 6 /\ near_single (fneg f) D j f.
