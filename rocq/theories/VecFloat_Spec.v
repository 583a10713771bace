(** What becomes of a double that is written with six digits and read again. *)
From Verif Require Import Common Double_Model Double_Spec LexFloat_Spec.
Local Open Scope Z_scope.

(** Zero stays; another number becomes the double nearest to its rounding to six digits. *)
Definition kept6 (d e : double) : Prop := (dman d = 0 -> e = d) /\ (dman d <> 0 -> exists n k, rounds6 d n k /\ near (dneg d) n k e).
