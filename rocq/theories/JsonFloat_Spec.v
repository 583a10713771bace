(** Floating numbers with 12 digits. *)
From Verif Require Import Common Double_Model Double_Spec Json_Model Json_Spec.
Local Open Scope Z_scope.
(* From Double_Model and Json_Model only the data types [double] and [json] are used. *)

(** 10^k is [up k / down k]. *)
Definition up (k : Z) : Z := 10 ^ Z.max 0 k.
Definition down (k : Z) : Z := 10 ^ Z.max 0 (- k).
(** a * 10^j = b * 10^k *)
Definition same_decimal (a j b k : Z) : Prop := a * up j * down k = b * up k * down j.
(** |d| rounded to 12 digits is n * 10^k: 10^(k+11) <= |d| < 10^(k+12), and no other multiple of 10^k is nearer to |d|. *)
Definition rounds12 (d : double) (n k : Z) : Prop :=
  10 ^ 11 * up k * 2 ^ 1074 <= down k * mag d < 10 ^ 12 * up k * 2 ^ 1074 /\ 10 ^ 11 <= n <= 10 ^ 12 /\
  2 * dist (n * up k) (down k) d <= up k * 2 ^ 1074.
(** The text t is a JSON number that denotes (-1)^neg * n * 10^k *)
Inductive denotes (t : list Z) (neg : bool) (n k : Z) : Prop :=
| dn_int m : 0 <= m < 10 ^ 12 -> int_token t (if neg then - m else m) -> same_decimal m 0 n k -> denotes t neg n k
| dn_float D j : float_token t neg D j -> same_decimal D j n k -> denotes t neg n k.
(** At least the smallest normal number, 2^-1022 *)
Definition normal (d : double) : Prop := is_double d /\ 2 ^ 52 <= dman d.
(** The JSON number v is (-1)^neg * n * 10^k, correctly rounded if it is a floating one. *)
Definition number_is (v : json) (neg : bool) (n k : Z) : Prop :=
  match v with
  | JFloat d => dec_value neg n k d
  | JInt m => exists a, m = (if neg then - a else a) /\ same_decimal a 0 n k
  | _ => False
  end.
