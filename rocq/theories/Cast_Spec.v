(** Integers in text. *)
From Verif Require Import Common.
Local Open Scope Z_scope.

Definition blank (c : Z) : Prop := In c [32; 9; 10; 11; 12; 13].
Definition digit (c : Z) : Prop := 48 <= c <= 57.
Definition decimal (ds : list Z) : Z := fold_left (fun a c => 10 * a + (c - 48)) ds 0.
(** [leading s neg m rest]: s starts with blanks, an optional sign ([neg]: minus) and the decimal m; no digit follows. *)
Definition leading (s : list Z) (neg : bool) (m : Z) (rest : list Z) : Prop :=
  exists ws sign ds, s = ws ++ sign ++ ds ++ rest /\ Forall blank ws /\ (if neg then sign = [45] else sign = [] \/ sign = [43]) /\
  ds <> [] /\ Forall digit ds /\ decimal ds = m /\ match rest with [] => True | c :: _ => ~ digit c end.
Definition value (neg : bool) (m : Z) : Z := if neg then - m else m.
