(** What becomes of a float that is written with six digits and read again. *)
From Verif Require Import Common Single_Model Single_Spec LexSingle_Spec.
Local Open Scope Z_scope.
(* From Single_Model only the data type [single] is used. *)

(** Zero stays; another number becomes the float nearest to its rounding to six digits. *)
Definition skept6 (f g : single) : Prop := (fman f = 0 -> g = f) /\ (fman f <> 0 -> exists n k, srounds6 f n k /\ near_single (fneg f) n k g).
