(** Floating columns of PostgreSQL as its manual describes them (version 12 and later; before, with extra_float_digits = 3). *)
From Verif Require Import Common Double_Model Double_Spec JsonFloat_Spec LexFloat_Spec.
Local Open Scope Z_scope.
(* From Double_Model only the data type [double] is used. *)

(** A column float8 takes a number text for the nearest double, and shows a double as some number text that is read as this double. *)
Definition text_of (t : list Z) (d : double) : Prop := exists neg D j, float_text t neg D j /\ near neg D j d.
(** |d| rounded to ten decimals is n * 10^-10 *)
Definition decimals10 (d : double) (n : Z) : Prop := 0 <= n /\ 2 * dist n (10 ^ 10) d <= 2 ^ 1074.
