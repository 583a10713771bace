From Verif Require Import Common CommonLemmas Kana_Model Kana_Spec.
Local Open Scope Z_scope.

Definition codes (u : list Z) : Prop := Forall (fun c => 0 <= c <= 0x10ffff) u.
Definition not_half (c : Z) : Prop := ~ (0xff61 <= c <= 0xff9f).

Lemma kat_sweep (P : Z -> bool) :
  forallb (fun i => P (0x30a0 + i)) (range0 96) = true -> forall c, is_katakana c = true -> P c = true.
Proof.
  intros H c Hc. unfold is_katakana in Hc.
  replace c with (0x30a0 + (c - 0x30a0)) by lia. apply (sweep (fun i => P (0x30a0 + i)) 96 H). lia.
Qed.
Lemma han_sweep (P : Z -> bool) :
  forallb (fun i => P (0xff60 + i)) (range0 64) = true -> forall c, is_hankaku c = true -> P c = true.
Proof.
  intros H c Hc. unfold is_hankaku in Hc.
  replace c with (0xff60 + (c - 0xff60)) by lia. apply (sweep (fun i => P (0xff60 + i)) 64 H). lia.
Qed.

Lemma dakuten_tbl_ok c : is_katakana c = true -> exists t, tbl take_dakuten_tbl (c - 0x30a0) = Some t /\
  (if negb (t =? 0) then [if c =? 0x30a6 then 0x30f4 else if c =? 0x30f2 then 0x30fa else c + 1] else [c; 0x3099])
  = compose voiced 0x3099 c.
Proof.
  intros H.
  pose (P := fun c => match tbl take_dakuten_tbl (c - 0x30a0) with Some t =>
     if list_eq_dec Z.eq_dec (if negb (t =? 0) then [if c =? 0x30a6 then 0x30f4 else if c =? 0x30f2 then 0x30fa else c + 1] else [c; 0x3099]) (compose voiced 0x3099 c) then true else false | None => false end).
  assert (HP : P c = true) by (apply kat_sweep; [vm_compute; reflexivity|assumption]).
  unfold P in HP. destruct (tbl take_dakuten_tbl (c - 0x30a0)) as [t|]; [|discriminate]. exists t. split; [reflexivity|].
  destruct (list_eq_dec _ _ _) as [E|]; [exact E|discriminate].
Qed.

Lemma handakuten_tbl_ok c : is_katakana c = true -> exists t, tbl take_handakuten_tbl (c - 0x30a0) = Some t /\
  ((0x30ad <= c <= 0x30c8) \/
   (if negb (t =? 0) then [c + 2] else [c; 0x309a]) = compose semivoiced 0x309a c).
Proof.
  intros H.
  pose (P := fun c => match tbl take_handakuten_tbl (c - 0x30a0) with Some t =>
     ((0x30ad <=? c) && (c <=? 0x30c8)) || if list_eq_dec Z.eq_dec (if negb (t =? 0) then [c + 2] else [c; 0x309a]) (compose semivoiced 0x309a c) then true else false | None => false end).
  assert (HP : P c = true) by (apply kat_sweep; [vm_compute; reflexivity|assumption]).
  unfold P in HP. destruct (tbl take_handakuten_tbl (c - 0x30a0)) as [t|]; [|discriminate]. exists t. split; [reflexivity|].
  apply orb_true_iff in HP as [HP|HP]; [left; lia|right].
  destruct (list_eq_dec _ _ _) as [E|]; [exact E|discriminate].
Qed.

Lemma compose_nonkat_voiced c : is_katakana c = false -> compose voiced 0x3099 c = [c; 0x3099].
Proof.
  intros H. unfold compose. destruct (find _ _) as [[a b]|] eqn:E; [|reflexivity].
  apply find_some in E as [Hin He]. apply Z.eqb_eq in He. cbn in He. subst a. exfalso.
  cbn in Hin. repeat (destruct Hin as [Hin|Hin]; [injection Hin as <- _; discriminate H|]). exact Hin.
Qed.
Lemma compose_nonkat_semi c : is_katakana c = false -> compose semivoiced 0x309a c = [c; 0x309a].
Proof.
  intros H. unfold compose. destruct (find _ _) as [[a b]|] eqn:E; [|reflexivity].
  apply find_some in E as [Hin He]. apply Z.eqb_eq in He. cbn in He. subst a. exfalso.
  cbn in Hin. repeat (destruct Hin as [Hin|Hin]; [injection Hin as <- _; discriminate H|]). exact Hin.
Qed.

Lemma h2z_tbl_ok x : is_hankaku x = true -> exists v, tbl hankaku_zenkaku_tbl (x - 0xff60) = Some v /\ 0 <= v < 0x3100.
Proof.
  intros H.
  pose (P := fun x => match tbl hankaku_zenkaku_tbl (x - 0xff60) with Some v => (0 <=? v) && (v <? 0x3100) | None => false end).
  assert (HP : P x = true) by (apply han_sweep; [vm_compute; reflexivity|assumption]).
  unfold P in HP. destruct (tbl _ _) as [v|]; [|discriminate]. exists v. split; [reflexivity|lia].
Qed.

Definition good (c : Z) : Prop := 0 <= c <= 0x10ffff /\ ~ (0xff60 <= c <= 0xff9f).

Lemma step_ok res x : Forall good res -> 0 <= x <= 0x10ffff -> exists res', h2z_step res x = Ok res' /\ Forall good res'.
Proof.
  intros Hr Hx. unfold h2z_step. destruct (is_hankaku x) eqn:Eh.
  - destruct (x =? 0xff9e).
    + destruct res as [|c r]; [eexists; split; [reflexivity|repeat constructor; lia]|].
      inversion Hr as [|? ? Hc Hr']; subst.
      destruct (negb (c =? 0xFFFFFFFF) && is_katakana c) eqn:Ek.
      * apply andb_true_iff in Ek as [_ Ek]. destruct (dakuten_tbl_ok c Ek) as (t & -> & _).
        unfold is_katakana in Ek.
        destruct (negb (t =? 0)); eexists; (split; [reflexivity|]).
        -- constructor; [|assumption]. unfold good in *. destruct (c =? 0x30a6); [lia|]. destruct (c =? 0x30f2); lia.
        -- constructor; [unfold good; lia|assumption].
      * eexists; split; [reflexivity|]. constructor; [unfold good; lia|assumption].
    + destruct (x =? 0xff9f).
      * destruct res as [|c r]; [eexists; split; [reflexivity|repeat constructor; lia]|].
        inversion Hr as [|? ? Hc Hr']; subst.
        destruct (negb (c =? 0xFFFFFFFF) && is_katakana c) eqn:Ek.
        -- apply andb_true_iff in Ek as [_ Ek]. destruct (handakuten_tbl_ok c Ek) as (t & -> & _).
           unfold is_katakana in Ek.
           destruct (negb (t =? 0)); eexists; (split; [reflexivity|]); constructor; try assumption; unfold good in *; lia.
        -- eexists; split; [reflexivity|]. constructor; [unfold good; lia|assumption].
      * destruct (h2z_tbl_ok x Eh) as (v & -> & Hv). eexists; split; [reflexivity|].
        constructor; [unfold good; lia|assumption].
  - destruct (x =? 0x2d) eqn:Ex.
    + destruct res as [|c r]; [eexists; split; [reflexivity|]; constructor; [unfold good; lia|constructor]|].
      destruct (_ && _); eexists; (split; [reflexivity|]); constructor; try assumption; unfold good; lia.
    + eexists; split; [reflexivity|]. constructor; [|assumption]. unfold good, is_hankaku in *. lia.
Qed.

Lemma loop_ok u : forall res, Forall good res -> codes u -> exists out, h2z_loop res u = Ok out /\ Forall good out.
Proof.
  induction u as [|x u IH]; intros res Hr Hu; cbn [h2z_loop].
  - exists (rev res). split; [reflexivity|]. apply Forall_rev. assumption.
  - inversion Hu; subst. destruct (step_ok res x Hr) as (res' & -> & Hr'); [assumption|]. cbn [obind]. apply IH; assumption.
Qed.

Lemma h2z_total u : codes u -> exists out, hankaku_to_zenkaku u = Ok out /\ Forall good out.
Proof. apply loop_ok. constructor. Qed.

Lemma loop_snoc u x : forall res out, h2z_loop res u = Ok out -> h2z_loop res (u ++ [x]) = omap (@rev Z) (h2z_step (rev out) x).
Proof.
  induction u as [|y u IH]; intros res out; cbn [app h2z_loop].
  - intros E. injection E as <-. rewrite rev_involutive. destruct (h2z_step res x); reflexivity.
  - destruct (h2z_step res y) as [res'| | |]; cbn [obind]; try discriminate. apply IH.
Qed.

Lemma h2z_dakuten u out c : codes u -> hankaku_to_zenkaku u = Ok (out ++ [c]) ->
  hankaku_to_zenkaku (u ++ [0xff9e]) = Ok (out ++ compose voiced 0x3099 c).
Proof.
  intros Hu E. destruct (h2z_total u Hu) as (o & Ho & Hg). rewrite E in Ho. injection Ho as <-.
  apply Forall_app in Hg as [_ Hg]. inversion Hg as [|? ? Hc _]; subst.
  unfold hankaku_to_zenkaku in *. rewrite (loop_snoc u _ [] _ E). rewrite rev_app_distr. cbn [rev app].
  unfold h2z_step. change (is_hankaku 0xff9e) with true. change (0xff9e =? 0xff9e) with true. cbv iota.
  unfold good in Hc. replace (c =? 0xFFFFFFFF) with false by lia. cbn [negb andb].
  destruct (is_katakana c) eqn:Ek.
  - destruct (dakuten_tbl_ok c Ek) as (t & -> & <-). destruct (negb (t =? 0)); cbn [omap rev]; rewrite rev_involutive, <- ?app_assoc; reflexivity.
  - rewrite (compose_nonkat_voiced c Ek). cbn [omap rev]. rewrite rev_involutive, <- app_assoc. reflexivity.
Qed.

Lemma h2z_handakuten u out c : codes u -> hankaku_to_zenkaku u = Ok (out ++ [c]) -> ~ (0x30ad <= c <= 0x30c8) ->
  hankaku_to_zenkaku (u ++ [0xff9f]) = Ok (out ++ compose semivoiced 0x309a c).
Proof.
  intros Hu E Hn. destruct (h2z_total u Hu) as (o & Ho & Hg). rewrite E in Ho. injection Ho as <-.
  apply Forall_app in Hg as [_ Hg]. inversion Hg as [|? ? Hc _]; subst.
  unfold hankaku_to_zenkaku in *. rewrite (loop_snoc u _ [] _ E). rewrite rev_app_distr. cbn [rev app].
  unfold h2z_step. change (is_hankaku 0xff9f) with true. change (0xff9f =? 0xff9e) with false. change (0xff9f =? 0xff9f) with true. cbv iota.
  unfold good in Hc. replace (c =? 0xFFFFFFFF) with false by lia. cbn [negb andb].
  destruct (is_katakana c) eqn:Ek.
  - destruct (handakuten_tbl_ok c Ek) as (t & -> & [Hx|<-]); [contradiction|].
    destruct (negb (t =? 0)); cbn [omap rev]; rewrite rev_involutive, <- ?app_assoc; reflexivity.
  - rewrite (compose_nonkat_semi c Ek). cbn [omap rev]. rewrite rev_involutive, <- app_assoc. reflexivity.
Qed.

Lemma width_rt u : Forall (fun c => ~ (0xff01 <= c <= 0xff5e) /\ c <> 0x3000) u ->
  zenkaku_latin_to_basic_latin (basic_latin_to_zenkaku_latin u) = u.
Proof.
  induction 1 as [|c u Hc H IH]; [reflexivity|]. cbn. unfold zenkaku_latin_to_basic_latin, basic_latin_to_zenkaku_latin in IH. rewrite IH. f_equal.
  unfold b2z1. repeat match goal with |- context [if ?b then _ else _] => destruct b eqn:? end;
    unfold z2b1; repeat match goal with |- context [if ?b then _ else _] => destruct b eqn:? end; lia.
Qed.
Lemma width_rt2 u : Forall (fun c => ~ (0x20 <= c <= 0x7e)) u ->
  basic_latin_to_zenkaku_latin (zenkaku_latin_to_basic_latin u) = u.
Proof.
  induction 1 as [|c u Hc H IH]; [reflexivity|]. cbn. unfold zenkaku_latin_to_basic_latin, basic_latin_to_zenkaku_latin in IH. rewrite IH. f_equal.
  unfold z2b1. repeat match goal with |- context [if ?b then _ else _] => destruct b eqn:? end;
    unfold b2z1; repeat match goal with |- context [if ?b then _ else _] => destruct b eqn:? end; lia.
Qed.
