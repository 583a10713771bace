(** Floating numbers as text. *)
From Verif Require Import Common Double_Model Double_Spec Json_Spec JsonFloat_Spec.
Local Open Scope Z_scope.
(* From Double_Model only the data type [double] is used; from Json_Spec digit and num, from JsonFloat_Spec up, down and same_decimal. *)

Inductive sign : list Z -> bool -> Prop := sg_none : sign [] false | sg_plus : sign [43] false | sg_minus : sign [45] true.
(** e or E, a sign, digits *)
Inductive expo : list Z -> Z -> Prop :=
| xp_none : expo [] 0
| xp_some c s neg ds : c = 101 \/ c = 69 -> sign s neg -> ds <> [] -> Forall digit ds -> expo (c :: s ++ ds) (if neg then - num ds else num ds).
(** The text is a number, (-1)^neg * D * 10^j: a sign, digits with at most one point among them, an exponent *)
Inductive float_text : list Z -> bool -> Z -> Z -> Prop :=
| fx s neg ip pt f e x : sign s neg -> Forall digit ip -> Forall digit f -> ip ++ f <> [] -> pt = [46] \/ pt = [] /\ f = [] -> expo e x ->
    float_text (s ++ ip ++ pt ++ f ++ e) neg (num (ip ++ f)) (x - Z.of_nat (length f)).
(** Blanks, and what may follow a number: nothing, or a byte that cannot be part of one *)
Definition blank (c : Z) : Prop := 9 <= c <= 13 \/ c = 32.
Definition stops (r : list Z) : Prop := match r with [] => True | c :: _ => ~ digit c /\ c <> 46 /\ c <> 101 /\ c <> 69 /\ c <> 43 /\ c <> 45 end.

(** The double d is (-1)^neg * D * 10^j, rounded to nearest *)
Definition near (neg : bool) (D j : Z) (d : double) : Prop := nearest neg (D * up j) (down j) d.
(** D * 10^j is beyond the largest double *)
Definition too_large (D j : Z) : Prop := down j * (2 ^ 1024 - 2 ^ 970) <= D * up j.
(** |d| rounded to 6 digits is n * 10^k *)
Definition rounds6 (d : double) (n k : Z) : Prop :=
  10 ^ 5 * up k * 2 ^ 1074 <= down k * mag d < 10 ^ 6 * up k * 2 ^ 1074 /\ 10 ^ 5 <= n <= 10 ^ 6 /\
  2 * dist (n * up k) (down k) d <= up k * 2 ^ 1074.
(** d is the double nearest to a number of at most six digits *)
Definition six (d : double) : Prop := exists D j, 0 <= D < 10 ^ 6 /\ near (dneg d) D j d.
