(** The words of a text. *)
From Verif Require Import Common.
Local Open Scope Z_scope.

Definition blank (c : Z) : Prop := 9 <= c <= 13 \/ c = 32.
(** A text that does not go on with the word before it *)
Definition apart (r : list Z) : Prop := match r with [] => True | c :: _ => blank c end.
Inductive words_of : list Z -> list (list Z) -> Prop :=
| w_none b : Forall blank b -> words_of b []
| w_word b w r ws : Forall blank b -> w <> [] -> Forall (fun c => ~ blank c) w -> apart r -> words_of r ws -> words_of (b ++ w ++ r) (w :: ws).
