(** FILE:LINE:POSITION MESSAGE *)
From Verif Require Import Common.
From Verif Require Ratio_Spec.
Local Open Scope Z_scope.
(* From Ratio_Spec only numeral is used. *)
Definition located (t f : list Z) (l p : Z) (m : list Z) : Prop :=
  exists tl tp, Ratio_Spec.numeral tl l /\ Ratio_Spec.numeral tp p /\ t = f ++ [58] ++ tl ++ [58] ++ tp ++ [32] ++ m.
