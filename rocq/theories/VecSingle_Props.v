(** C86, vectors of float. *)
From Verif Require Import Common Single_Model Single_Spec LexFloat_Spec LexSingle_Spec LexSingle_Model VecFloat_Model VecFloat_Proof VecSingle_Spec VecSingle_Model VecSingle_Proof.
Local Open Scope Z_scope.

(** A vector of finite floats is read back with each component rounded to six digits; it is the same vector exactly if six digits suffice for all. *)
Theorem C86_float_text : forall a rest, a <> [] -> Forall is_single a -> stops rest ->
  exists b i, fread (length a) {| left := fwrite (map SFin a) ++ rest; atend := false; bad := false |} = Ok (map SFin b, i) /\ left i = rest /\ (atend i = true <-> rest = []) /\ bad i = false /\
  Forall2 skept6 a b /\ (b = a <-> Forall six_single a).
Proof.
  intros a rest N F Hr. destruct (fget_all a rest [] N F Hr (Forall_nil _)) as (b & E & K & S). exists b, (after rest). split; [ | split; [ reflexivity | split; [ destruct rest; cbn; split; congruence | split; [ reflexivity | auto ] ] ] ].
  unfold fread. cbn [app] in E. rewrite E, fsettled_some. reflexivity.
Qed.
Definition shalf : single := mkF false (2 ^ 23) (-24).
Example C86_float_text_nonvacuous : is_single shalf /\ stops (str " x") /\ fwrite [SFin shalf; SFin shalf] = str "0.5 0.5" /\
  fread 2 {| left := str "0.5 0.5 x"; atend := false; bad := false |} = Ok ([SFin shalf; SFin shalf], {| left := str " x"; atend := false; bad := false |}).
Proof. split; [ unfold is_single, shalf; cbn; lia | ]. split; [ vm_compute; repeat split; congruence || (intros []; congruence) | ]. vm_compute. auto. Qed.
(** Six digits do not suffice for every float; *)
Theorem C86_float_text_refuted : exists f, is_single f /\ fwrite [SFin f] = str "1" /\ forall i, fread 1 {| left := str "1"; atend := false; bad := false |} <> Ok ([SFin f], i).
Proof. exists (mkF false (2 ^ 23 + 1) (-23)). split; [ unfold is_single; cbn [fman fexp]; lia | ]. split; [ vm_compute; reflexivity | ]. intros i. vm_compute. congruence. Qed.
(** an infinite or undefined component does not come back, and the components after it are read from variables that nobody has set. *)
Theorem C86_float_special_refuted : forall v a rest, (exists neg, v = SInf neg \/ v = SNaN neg) -> a <> [] ->
  fread (S (length a)) {| left := fwrite (v :: a) ++ rest; atend := false; bad := false |} = UB.
Proof. exact fspecial_lost. Qed.
(** The text of a double beyond the floats, read as a vector of float: the largest float of its sign, and the stream has failed. *)
Theorem C86_float_large : forall w t neg D j r, Forall blank w -> float_text t neg D j -> too_large_single D j -> stops r ->
  exists f i, fread 1 {| left := w ++ t ++ r; atend := false; bad := false |} = Ok ([SFin f], i) /\ fneg f = neg /\ is_single f /\ (forall g, is_single g -> smag g <= smag f) /\ left i = r /\ bad i = true.
Proof.
  intros w t neg D j r Hw Ht Hl Hr. eexists _, _. unfold fread. cbn [get_flts]. rewrite (fget_large w t neg D j r Hw Ht Hl Hr). cbn [fsettled obind]. split; [ reflexivity | ].
  split; [ reflexivity | ]. split; [ unfold is_single; cbn [fman fexp]; lia | ]. split; [ intros g Hg; exact (LexSingle_Proof.smag_le g Hg) | ]. split; reflexivity.
Qed.
Example C86_float_large_nonvacuous : fread 1 {| left := str "-1e39 x"; atend := false; bad := false |} = Ok ([SFin (mkF true (2 ^ 24 - 1) 104)], {| left := str " x"; atend := false; bad := true |}).
Proof. vm_compute. reflexivity. Qed.
(** A text with fewer numbers than components: the last variables are never set. *)
Theorem C86_float_short_refuted : forall a rest n, a <> [] -> Forall is_single a -> Forall blank rest -> (length a < n)%nat ->
  fread n {| left := fwrite (map SFin a) ++ rest; atend := false; bad := false |} = UB.
Proof. exact fwrite_short. Qed.

Print Assumptions C86_float_text.
Print Assumptions C86_float_text_refuted.
Print Assumptions C86_float_special_refuted.
Print Assumptions C86_float_large.
Print Assumptions C86_float_short_refuted.
