(** Proofs about single precision numbers. *)
From Verif Require Import Common CommonLemmas NumText_Model Double_Model Double_Spec Double_Proof Single_Model Single_Spec Json_Model Json_Spec JsonParse_Proof JsonFloat_Spec JsonFloat_Proof.
Local Open Scope Z_scope.

(** The sscaled fraction [a/b] that narrow rounds. *)
Section Round.
  Context (p q : Z) (Hp : 0 < p) (Hq : 0 < q).
  Let e := Z.max (-149) (flog2 p q - 23).
  Let J := 2 ^ (e + 149).
  Let N := p * 2 ^ 149.

  Lemma pow24 : 2 ^ 24 = 2 * 2 ^ 23. Proof. reflexivity. Qed.

  Lemma sscaled a b : scale 2 p q e = (a, b) ->
    0 < b /\ a * q * J = b * N /\ a < 2 ^ 24 * b /\ (e = -149 \/ 2 ^ 23 * b <= a) /\ 0 < a /\ 0 < J.
  Proof.
    intros Es. pose proof (scale2_spec p q e 149 Hq ltac:(lia) ltac:(lia)) as H. rewrite Es in H. destruct H as [Hb E].
    fold J in E. fold N in E.
    assert (HJ : 0 < J) by (apply Z.pow_pos_nonneg; lia).
    assert (HN : 0 < N) by (unfold N; pose proof (Z.pow_pos_nonneg 2 149); nia).
    assert (HqJ : 0 < q * J) by nia.
    assert (Ea : a * (q * J) = b * N) by lia.
    assert (HU : N < q * 2 ^ 24 * J).
    { destruct (Z.le_gt_cases (-149) (flog2 p q)) as [Hl|Hl].
      - destruct (flog2_spec p q 149 Hp Hq ltac:(lia) ltac:(lia)) as [_ H2]. fold N in H2.
        assert (2 ^ (flog2 p q + 149 + 1) <= 2 ^ 24 * J).
        { unfold J. rewrite <- Z.pow_add_r by lia. apply Z.pow_le_mono_r; lia. }
        nia.
      - destruct (flog2_spec p q (- flog2 p q) Hp Hq ltac:(lia) ltac:(lia)) as [_ H2].
        replace (flog2 p q + - flog2 p q + 1) with 1 in H2 by lia.
        assert (2 ^ 149 <= 2 ^ (- flog2 p q)) by (apply Z.pow_le_mono_r; lia).
        assert (N <= p * 2 ^ (- flog2 p q)) by (unfold N; nia).
        assert (2 <= 2 ^ 24 * J) by (assert (2 <= 2 ^ 24) by (now vm_compute); nia). nia. }
    assert (HLo : e = -149 \/ q * 2 ^ 23 * J <= N).
    { destruct (Z.eq_dec e (-149)) as [|Hne]; [now left|right].
      assert (Ee : e = flog2 p q - 23) by lia.
      destruct (flog2_spec p q 149 Hp Hq ltac:(lia) ltac:(lia)) as [H1 _]. fold N in H1.
      unfold J. rewrite <- Z.mul_assoc, <- Z.pow_add_r by lia. replace (23 + (e + 149)) with (flog2 p q + 149) by lia. exact H1. }
    assert (Ha : 0 < a) by nia.
    repeat split; auto.
    - apply Z.nle_gt. intros Hc. assert (2 ^ 24 * b * (q * J) <= a * (q * J)) by nia. nia.
    - destruct HLo as [|HLo]; [now left|right]. apply Z.nlt_ge. intros Hc.
      assert (a * (q * J) < 2 ^ 23 * b * (q * J)) by nia. nia.
  Qed.

  (** Doubles are multiples of [J], or below all candidates. *)
  Lemma single_grid d : is_single d -> (exists m, smag d = m * J) \/ (e <> -149 /\ smag d < 2 ^ 23 * J).
  Proof.
    intros ((Hm1 & Hm2) & (He1 & He2) & Hc). unfold smag, J. destruct (Z.le_gt_cases e (fexp d)) as [Hle|Hgt].
    - left. exists (fman d * 2 ^ (fexp d - e)). rewrite <- Z.mul_assoc, <- Z.pow_add_r by lia. do 2 f_equal. lia.
    - right. split; [lia|]. replace (e + 149) with ((e - fexp d - 1) + 1 + (fexp d + 149)) by lia.
      rewrite (Z.pow_add_r 2 (e - fexp d - 1 + 1) (fexp d + 149)), (Z.pow_add_r 2 (e - fexp d - 1) 1) by lia.
      pose proof (Z.pow_pos_nonneg 2 (fexp d + 149) ltac:(lia) ltac:(lia)) as H1.
      pose proof (Z.pow_pos_nonneg 2 (e - fexp d - 1) ltac:(lia) ltac:(lia)) as H2.
      set (X := 2 ^ (fexp d + 149)) in *. set (Y := 2 ^ (e - fexp d - 1)) in *. rewrite pow24 in Hm2.
      change (2 ^ 1) with 2. assert (fman d * X < 2 * 2 ^ 23 * X) by nia. nia.
  Qed.

  Context (a b : Z) (Es : scale 2 p q e = (a, b)).
  Let m := rhe a b.

  (** Distances measured on the grid. *)
  Lemma sdist_grid n : b * Z.abs (N - q * (n * J)) = q * J * Z.abs (a - n * b).
  Proof.
    destruct (sscaled a b Es) as (Hb & E & _ & _ & _ & HJ).
    rewrite <- (Z.abs_eq b) at 1 by lia. rewrite <- (Z.abs_eq (q * J)) by nia. rewrite <- !Z.abs_mul. f_equal. nia.
  Qed.

  Lemma snearest_grid d n : smag d = m * J -> b * sdist p q d <= q * J * Z.abs (a - n * b) /\
    (b * sdist p q d = q * J * Z.abs (a - n * b) -> n <> m -> Z.even m = true).
  Proof.
    intros Hd. destruct (sscaled a b Es) as (Hb & E & _ & _ & _ & HJ). destruct (rhe_spec a b Hb) as [H1 H2]. fold m in H1, H2.
    unfold sdist. rewrite Hd. fold N. rewrite sdist_grid.
    assert (HqJ : 0 < q * J) by nia. destruct (Z.eq_dec n m) as [->|Hn].
    - split; [lia|congruence].
    - assert (H3 : b <= 2 * Z.abs (a - n * b)).
      { assert (b <= Z.abs (m * b - n * b)) by (replace (m * b - n * b) with ((m - n) * b) by ring; rewrite Z.abs_mul, (Z.abs_eq b) by lia; nia). lia. }
      split; [nia|]. intros Heq _. apply H2. apply Z.mul_reg_l in Heq; lia.
  Qed.

  Lemma snearest_all d d' : smag d = m * J -> is_single d' -> sdist p q d <= sdist p q d' /\
    (sdist p q d' = sdist p q d -> smag d' <> smag d -> Z.even m = true).
  Proof.
    intros Hd Hd'. destruct (sscaled a b Es) as (Hb & E & _ & Hlo & _ & HJ).
    destruct (single_grid d' Hd') as [(n & En)|(Hne & Hlt)].
    - assert (Ed : b * sdist p q d' = q * J * Z.abs (a - n * b)) by (unfold sdist; rewrite En; fold N; apply sdist_grid).
      destruct (snearest_grid d n Hd) as [H1 H2]. rewrite <- Ed in H1, H2. split; [nia|].
      intros Heq Hmag. apply H2; [now rewrite Heq|]. intros ->. congruence.
    - destruct Hlo as [|Hlo]; [contradiction|].
      destruct (snearest_grid d (2 ^ 23) Hd) as [H1 _].
      assert (HqJ : 0 < q * J) by nia.
      assert (Hlt' : b * sdist p q d < b * sdist p q d').
      { eapply Z.le_lt_trans; [exact H1|]. rewrite Z.abs_eq by lia. unfold sdist. fold N.
        assert (Hm : q * smag d' < q * (2 ^ 23 * J)) by nia.
        assert (q * (2 ^ 23 * J) <= N).
        { apply (Z.mul_le_mono_pos_l _ _ b Hb). rewrite <- E. nia. }
        rewrite Z.abs_eq by lia. nia. }
      split; [nia|]. intros Heq. rewrite Heq in Hlt'. lia.
  Qed.
End Round.

Lemma narrow_sound neg p q d : 0 <= p -> 0 < q -> narrow neg p q = SFin d -> nearest_single neg p q d.
Proof.
  intros Hp Hq. unfold narrow. destruct (Z.eqb_spec p 0) as [->|Hpz].
  { intros E; injection E as <-. unfold nearest_single, is_single, sdist, smag. cbn [fman fexp fneg].
    replace (0 * 2 ^ 149 - q * (0 * 2 ^ (-149 + 149))) with 0 by ring.
    assert (0 < 2 ^ 128 - 2 ^ 103) by (now vm_compute). change (Z.abs 0) with 0.
    split; [repeat split; try lia; now vm_compute|]. split; [reflexivity|]. split; [nia|].
    split; [intros; lia|]. intros; reflexivity. }
  assert (Hpp : 0 < p) by lia. clear Hp Hpz.
  destruct (scale 2 p q (Z.max (-149) (flog2 p q - 23))) as [a b] eqn:Es.
  destruct (sscaled p q Hpp Hq a b Es) as (Hb & E & Hhi & Hlo & Ha & HJ).
  set (e := Z.max (-149) (flog2 p q - 23)) in *. set (J := 2 ^ (e + 149)) in *. set (m := rhe a b).
  assert (Hm0 : 0 <= m) by (apply rhe_ge; lia).
  assert (Hm53 : m <= 2 ^ 24) by (apply rhe_le; lia).
  assert (Hm52 : e = -149 \/ 2 ^ 23 <= m) by (destruct Hlo; [now left|right; apply rhe_ge; lia]).
  assert (HE : -149 <= e) by lia.
  assert (HqJ : 0 < q * J) by nia.
  assert (OV : forall n, 0 <= n -> 2 * a < n * b -> 2 * (p * 2 ^ 149) < n * (q * J)).
  { intros n Hn H. apply (Z.mul_lt_mono_pos_l b); [assumption|].
    replace (b * (2 * (p * 2 ^ 149))) with (2 * a * (q * J)) by (rewrite <- !Z.mul_assoc in *; nia). nia. }
  assert (FINAL : forall d0, is_single d0 -> fneg d0 = neg -> smag d0 = m * J -> (Z.even m = true -> Z.even (fman d0) = true) ->
    p < q * (2 ^ 128 - 2 ^ 103) -> nearest_single neg p q d0).
  { intros d0 Hv Hs Hmag Hev Hov. repeat split; try apply Hv; auto.
    + intros d' Hd'. now apply (snearest_all p q Hpp Hq a b Es d0 d' Hmag Hd').
    + intros d' Hd' H1 H2. apply Hev. now apply (snearest_all p q Hpp Hq a b Es d0 d' Hmag Hd'). }
  destruct (Z.eqb_spec m (2 ^ 24)) as [Em|Em].
  - destruct (Z.ltb_spec 104 (e + 1)) as [|Hle]; [discriminate|]. intros Eq; injection Eq as <-. apply FINAL; cbn [fneg fman fexp].
    + unfold is_single. cbn [fman fexp]. repeat split; try lia; try (now vm_compute).
    + reflexivity.
    + unfold smag. cbn [fman fexp]. rewrite Em, pow24. unfold J. replace (e + 1 + 149) with (1 + (e + 149)) by lia.
      rewrite Z.pow_add_r by lia.
      change (2 ^ 1) with 2. change (Z.pow_pos 2 23) with (2 ^ 23). ring.
    + intros _. reflexivity.
    + assert (H : 2 * (p * 2 ^ 149) < 2 ^ 25 * (q * J)) by (apply OV; [now vm_compute|]; change (2 ^ 25) with (2 * 2 ^ 24); lia).
      assert (HJ2 : J <= 2 ^ 252) by (apply Z.pow_le_mono_r; lia).
      assert (EK : 2 ^ 25 * 2 ^ 252 <= 2 * ((2 ^ 128 - 2 ^ 103) * 2 ^ 149)) by (now vm_compute).
      assert (2 ^ 25 * (q * J) <= 2 ^ 25 * (q * 2 ^ 252)) by (assert (0 < 2 ^ 25) by (now vm_compute); nia).
      assert (HU : 0 < 2 ^ 149) by (now vm_compute).
      set (U := 2 ^ 149) in *. set (V := 2 ^ 128 - 2 ^ 103) in *. set (W := 2 ^ 25 * 2 ^ 252) in *.
      replace (2 ^ 25 * (q * 2 ^ 252)) with (q * W) in H0 by (unfold W; ring).
      clearbody U V W. nia.
  - destruct (Z.ltb_spec 104 e) as [|Hle]; [discriminate|].
    intros Eq; injection Eq as <-.
    apply FINAL; cbn [fneg fman fexp]; auto.
    + unfold is_single. cbn [fman fexp]. repeat split; try lia.
    + assert (H : 2 * (p * 2 ^ 149) < (2 ^ 25 - 1) * (q * J)).
      { apply OV; [now vm_compute|]. apply Z.nle_gt. intros Hc. destruct (rhe_spec a b Hb) as [H1 H2]. fold m in H1, H2.
        change (2 ^ 25 - 1) with (2 * 2 ^ 24 - 1) in Hc.
        assert (Hm : m = 2 ^ 24 - 1) by nia.
        rewrite Hm in H2. assert (2 * Z.abs (a - (2 ^ 24 - 1) * b) = b) by (rewrite Hm in H1; nia).
        specialize (H2 H). vm_compute in H2. discriminate. }
      assert (HJ2 : J <= 2 ^ 253) by (apply Z.pow_le_mono_r; lia).
      assert (EK : (2 ^ 25 - 1) * 2 ^ 253 <= 2 * ((2 ^ 128 - 2 ^ 103) * 2 ^ 149)) by (now vm_compute).
      assert (H0 : (2 ^ 25 - 1) * (q * J) <= (2 ^ 25 - 1) * (q * 2 ^ 253)) by (assert (0 < 2 ^ 25 - 1) by (now vm_compute); nia).
      assert (HU : 0 < 2 ^ 149) by (now vm_compute).
      set (U := 2 ^ 149) in *. set (V := 2 ^ 128 - 2 ^ 103) in *. set (W := (2 ^ 25 - 1) * 2 ^ 253) in *.
      replace ((2 ^ 25 - 1) * (q * 2 ^ 253)) with (q * W) in H0 by (unfold W; ring).
      clearbody U V W. nia.
Qed.

Lemma narrow_range neg p q : 0 < p -> 0 < q -> p < q * (2 ^ 128 - 2 ^ 103) -> exists d, narrow neg p q = SFin d.
Proof.
  intros Hp Hq A. unfold narrow. replace (p =? 0) with false by lia.
  set (e := Z.max (-149) (flog2 p q - 23)).
  assert (He : e <= 104).
  { unfold e. destruct (Z.le_gt_cases (flog2 p q) 127); [ lia | exfalso ].
    destruct (flog2_spec p q 149 Hp Hq ltac:(lia) ltac:(lia)) as [ L _ ].
    assert (q * 2 ^ (128 + 149) <= q * 2 ^ (flog2 p q + 149)) by (apply Z.mul_le_mono_nonneg_l; [ lia | apply Z.pow_le_mono_r; lia ]).
    rewrite Z.pow_add_r in H0 by lia. set (H2 := 2 ^ 149) in *. assert (0 < H2) by (apply Z.pow_pos_nonneg; lia).
    assert (p * H2 < q * 2 ^ 128 * H2); [ apply Z.mul_lt_mono_pos_r; [ lia | ] | lia ].
    assert (0 < 2 ^ 103) by (apply Z.pow_pos_nonneg; lia). nia. }
  pose proof (scale2_spec p q e 149 Hq ltac:(unfold e; lia) ltac:(lia)) as S. destruct (scale 2 p q e) as [ a b ]. destruct S as [ Hb S ].
  destruct (rhe_spec a b Hb) as [ R _ ]. replace (104 <? e) with false by lia.
  destruct (Z.eqb_spec (rhe a b) (2 ^ 24)) as [ K | K ]; [ | eauto ].
  destruct (Z.ltb_spec 104 (e + 1)) as [ K2 | K2 ]; [ exfalso | eauto ].
  assert (e = 104) as Ee by lia. clearbody e. subst e. rewrite K in R.
  assert (G : 2 * a < (2 ^ 25 - 1) * b); [ | lia ].
  assert (P1 : 2 ^ (104 + 149) = 2 ^ 104 * 2 ^ 149) by (apply Z.pow_add_r; lia). rewrite P1 in S.
  set (H2 := 2 ^ 149) in *. set (H3 := 2 ^ 103) in *. assert (0 < H2) by (apply Z.pow_pos_nonneg; lia). assert (H3p : 0 < H3) by (apply Z.pow_pos_nonneg; lia).
  replace (2 ^ 104) with (2 * H3) in S by (unfold H3; rewrite <- Z.pow_succ_r by lia; reflexivity).
  replace (2 ^ 128 - H3) with ((2 ^ 25 - 1) * H3) in A by (unfold H3; rewrite Z.mul_sub_distr_r, <- Z.pow_add_r by lia; change (25 + 103) with 128; lia).
  assert (S2 : 2 * a * q * H3 = b * p). { apply (Z.mul_reg_r _ _ H2); [ lia | ]. rewrite <- (Z.mul_assoc b p H2), <- S. ring. }
  assert (S3 : 2 * a * (q * H3) < (2 ^ 25 - 1) * b * (q * H3)); [ | assert (0 < q * H3) by nia; nia ].
  replace (2 * a * (q * H3)) with (b * p) by (rewrite <- S2; ring). replace ((2 ^ 25 - 1) * b * (q * H3)) with (b * (q * ((2 ^ 25 - 1) * H3))) by ring. nia.
Qed.
Lemma smag_exp d1 d2 : is_single d1 -> is_single d2 -> smag d1 <= smag d2 -> 0 < fman d1 -> fexp d1 <= fexp d2.
Proof.
  intros ((H1 & H2) & (H3 & H4) & H5) ((K1 & K2) & (K3 & K4) & K5) H Hpos. unfold smag in H.
  apply Z.nlt_ge. intros Hlt. destruct H5 as [H5|H5]; [|lia].
  replace (fexp d1 + 149) with ((fexp d1 - fexp d2 - 1) + 1 + (fexp d2 + 149)) in H by lia.
  rewrite (Z.pow_add_r 2 (fexp d1 - fexp d2 - 1 + 1) (fexp d2 + 149)), (Z.pow_add_r 2 (fexp d1 - fexp d2 - 1) 1) in H by lia.
  pose proof (pow2_pos (fexp d2 + 149) ltac:(lia)). pose proof (pow2_pos (fexp d1 - fexp d2 - 1) ltac:(lia)).
  set (X := 2 ^ (fexp d2 + 149)) in *. set (Y := 2 ^ (fexp d1 - fexp d2 - 1)) in *. change (2 ^ 1) with 2 in H. rewrite pow24 in K2.
  set (C := 2 ^ 23) in *. clearbody X Y C. assert (HC : C <= fman d1 * Y) by nia.
  replace (fman d1 * (Y * 2 * X)) with (fman d1 * Y * (2 * X)) in H by ring.
  assert (C * (2 * X) <= fman d1 * Y * (2 * X)) by nia. nia.
Qed.

Lemma smag_inj d1 d2 : is_single d1 -> is_single d2 -> smag d1 = smag d2 -> fman d1 = fman d2 /\ fexp d1 = fexp d2.
Proof.
  intros H1 H2 E. assert (Z0 : fman d1 = 0 <-> fman d2 = 0).
  { unfold smag in E. destruct H1 as (_ & (? & _) & _), H2 as (_ & (? & _) & _).
    pose proof (pow2_pos (fexp d1 + 149) ltac:(lia)). pose proof (pow2_pos (fexp d2 + 149) ltac:(lia)). nia. }
  destruct (Z.eq_dec (fman d1) 0) as [Ez|Ez].
  - destruct H1 as (_ & _ & H1), H2 as (_ & _ & H2). assert (0 < 2 ^ 23) by (now vm_compute). lia.
  - assert (Ee : fexp d1 = fexp d2).
    { apply Z.le_antisymm; apply smag_exp; auto; try lia; [destruct H1 as ((? & _) & _)|destruct H2 as ((? & _) & _)]; lia. }
    split; [|exact Ee]. unfold smag in E. rewrite Ee in E. destruct H2 as (_ & (? & _) & _).
    pose proof (pow2_pos (fexp d2 + 149) ltac:(lia)). nia.
Qed.

(** No two neighbours with even significands. *)
Lemma seven_gap p q d1 d2 : 0 < q -> is_single d1 -> is_single d2 -> smag d1 < smag d2 -> Z.even (fman d1) = true -> Z.even (fman d2) = true ->
  sdist p q d1 = sdist p q d2 -> (forall d, is_single d -> sdist p q d1 <= sdist p q d) -> False.
Proof.
  intros Hq H1 H2 Hlt E1 E2 Hd Hmin.
  assert (Hs : exists d3, is_single d3 /\ smag d1 < smag d3 < smag d2).
  { destruct H1 as ((A1 & A2) & (A3 & A4) & A5).
    set (d3 := mkF (fneg d1) (fman d1 + 1) (fexp d1)).
    assert (Hodd : Z.even (fman d1 + 1) = false) by (rewrite Z.even_add, E1; reflexivity).
    assert (V3 : is_single d3).
    { unfold is_single, d3. cbn [fman fexp].
      assert (fman d1 + 1 <> 2 ^ 24) by (intros C; rewrite C in Hodd; vm_compute in Hodd; discriminate). lia. }
    pose proof (pow2_pos (fexp d1 + 149) ltac:(lia)) as HX.
    assert (M3 : smag d3 = smag d1 + 2 ^ (fexp d1 + 149)) by (unfold smag, d3; cbn [fman fexp]; ring).
    assert (Hne : smag d3 <> smag d2).
    { intros C. destruct (smag_inj d3 d2 V3 H2 C) as [Em _]. unfold d3 in Em; cbn [fman] in Em. rewrite <- Em, Hodd in E2. discriminate. }
    exists d3. split; [assumption|]. split; [lia|].
    apply Z.nle_gt. intros Hc.
    (* smag d1 < smag d2 < smag d3 is impossible: smag d2 is a multiple of the step *)
    assert (Hexp : fexp d1 <= fexp d2).
    { destruct (Z.eq_dec (fman d1) 0) as [Ez|Ez].
      - assert (fexp d1 = -149) by (assert (0 < 2 ^ 23) by (now vm_compute); lia). destruct H2 as (_ & (? & _) & _). lia.
      - apply smag_exp; auto; try lia. repeat split; auto. }
    unfold smag in *. replace (fexp d2 + 149) with ((fexp d2 - fexp d1) + (fexp d1 + 149)) in * by lia.
    rewrite (Z.pow_add_r 2 (fexp d2 - fexp d1) (fexp d1 + 149)) in * by lia.
    set (X := 2 ^ (fexp d1 + 149)) in *. unfold d3 in *; cbn [fman fexp] in *. fold X in Hc, Hne.
    set (n := fman d2 * 2 ^ (fexp d2 - fexp d1)) in *. rewrite Z.mul_assoc in *. fold n in Hlt, Hc, Hne.
    apply Z.mul_lt_mono_pos_r in Hlt; [|assumption]. apply Z.mul_le_mono_pos_r in Hc; [|assumption].
    apply Hne. f_equal. lia. }
  destruct Hs as (d3 & V3 & L & R). specialize (Hmin d3 V3). unfold sdist in *.
  assert (q * smag d1 < q * smag d3) by nia. assert (q * smag d3 < q * smag d2) by nia. lia.
Qed.

Lemma snearest_unique neg p q d1 d2 : 0 < q -> nearest_single neg p q d1 -> nearest_single neg p q d2 -> d1 = d2.
Proof.
  intros Hq (V1 & S1 & O1 & N1 & T1) (V2 & S2 & O2 & N2 & T2).
  pose proof (N1 d2 V2) as L1. pose proof (N2 d1 V1) as L2. assert (Hd : sdist p q d1 = sdist p q d2) by lia.
  assert (Em : smag d1 = smag d2).
  { destruct (Z.eq_dec (smag d1) (smag d2)) as [|Hne]; [assumption|exfalso].
    pose proof (T1 d2 V2 (eq_sym Hd) ltac:(congruence)) as E1. pose proof (T2 d1 V1 Hd Hne) as E2.
    destruct (Z.lt_trichotomy (smag d1) (smag d2)) as [H|[H|H]]; [|congruence|].
    - exact (seven_gap p q d1 d2 Hq V1 V2 H E1 E2 Hd N1).
    - exact (seven_gap p q d2 d1 Hq V2 V1 H E2 E1 (eq_sym Hd) N2). }
  destruct (smag_inj d1 d2 V1 V2 Em) as [A B]. destruct d1 as [n1 m1 e1], d2 as [n2 m2 e2]. cbn [fneg fman fexp] in A, B, S1, S2. congruence.
Qed.

Lemma narrow_spec neg p q f : 0 <= p -> 0 < q -> (narrow neg p q = SFin f <-> nearest_single neg p q f).
Proof.
  intros Hp Hq. split; [ now apply narrow_sound | ]. intros Hn.
  assert (E : exists g, narrow neg p q = SFin g).
  { destruct (Z.eq_dec p 0) as [ -> | N ]; [ unfold narrow; cbn; eauto | ]. apply narrow_range; [ lia | exact Hq | ]. destruct Hn as (_ & _ & O & _). exact O. }
  destruct E as (g & E). rewrite E. f_equal. apply (snearest_unique neg p q g f Hq); [ now apply narrow_sound | exact Hn ].
Qed.
Lemma narrow_inf neg p q : 0 <= p -> 0 < q -> (narrow neg p q = SInf neg <-> q * (2 ^ 128 - 2 ^ 103) <= p).
Proof.
  intros Hp Hq. split; intros H.
  - apply Z.nlt_ge. intros C. destruct (Z.eq_dec p 0) as [ -> | N ]; [ unfold narrow in H; cbn in H; discriminate | ].
    destruct (narrow_range neg p q) as (f & E); try lia. congruence.
  - assert (K : narrow neg p q = SInf neg \/ exists f, narrow neg p q = SFin f).
    { unfold narrow. destruct (p =? 0); [ right; eauto | ]. cbv zeta. destruct (scale 2 p q (Z.max (-149) (flog2 p q - 23))) as [ a b ].
      destruct (rhe a b =? 2 ^ 24); [ destruct (104 <? _); eauto | destruct (104 <? _); eauto ]. }
    destruct K as [ K | (f & K) ]; [ exact K | ]. apply narrow_sound in K; [ | lia | lia ]. destruct K as (_ & _ & O & _). lia.
Qed.

(** Single numbers do not lie closer than half a unit *)
Lemma apart f g : is_single f -> is_single g -> 2 * Z.abs (smag f - smag g) < 2 ^ (fexp f + 149) -> smag g = smag f.
Proof.
  intros Hf Hg H. unfold smag in *. destruct Hf as (Mf & Ef & Cf), Hg as (Mg & Eg & Cg).
  destruct (Z.le_gt_cases (fexp f) (fexp g)) as [ L | L ].
  - assert (PE : 2 ^ (fexp g + 149) = 2 ^ (fexp g - fexp f) * 2 ^ (fexp f + 149)) by (rewrite <- Z.pow_add_r by lia; f_equal; lia). rewrite PE in *. clear PE.
    pose proof (Z.pow_pos_nonneg 2 (fexp f + 149) ltac:(lia) ltac:(lia)) as P. set (X := 2 ^ (fexp f + 149)) in *. set (Y := fman g * 2 ^ (fexp g - fexp f)).
    replace (fman g * (2 ^ (fexp g - fexp f) * X)) with (Y * X) in * by (unfold Y; ring). clearbody Y.
    rewrite <- Z.mul_sub_distr_r, Z.abs_mul, (Z.abs_eq X) in H by lia. assert (Z.abs (fman f - Y) = 0) by nia. f_equal. lia.
  - destruct Cf as [ Cf | Cf ]; [ | lia ].
    destruct (Z.eq_dec (fexp g) (fexp f - 1)) as [ K | K ].
    + rewrite K in *. assert (PE : 2 ^ (fexp f + 149) = 2 ^ 1 * 2 ^ (fexp f - 1 + 149)) by (rewrite <- Z.pow_add_r by lia; f_equal; lia). rewrite PE in *. clear PE.
      pose proof (Z.pow_pos_nonneg 2 (fexp f - 1 + 149) ltac:(lia) ltac:(lia)) as P. set (X := 2 ^ (fexp f - 1 + 149)) in *. change (2 ^ 1) with 2 in *.
      replace (fman f * (2 * X)) with (2 * fman f * X) in * by ring.
      rewrite <- Z.mul_sub_distr_r, Z.abs_mul, (Z.abs_eq X) in H by lia. assert (Z.abs (2 * fman f - fman g) = 0) by nia. f_equal. lia.
    + exfalso. assert (PE : 2 ^ (fexp f + 149) = 2 ^ (fexp f - 2 - fexp g) * 2 ^ 2 * 2 ^ (fexp g + 149)) by (rewrite <- !Z.pow_add_r by lia; f_equal; lia). rewrite PE in *. clear PE.
      pose proof (Z.pow_pos_nonneg 2 (fexp g + 149) ltac:(lia) ltac:(lia)) as P. set (X := 2 ^ (fexp g + 149)) in *.
      pose proof (Z.pow_pos_nonneg 2 (fexp f - 2 - fexp g) ltac:(lia) ltac:(lia)) as PY. set (Y := 2 ^ (fexp f - 2 - fexp g)) in *. change (2 ^ 2) with 4 in *.
      clearbody X Y. assert (A : fman g * X < 2 ^ 24 * X) by nia. assert (B : 2 ^ 23 * (Y * X) <= fman f * (Y * X)) by nia.
      assert (C : X <= Y * X) by nia. set (W := Y * X) in *. replace (fman f * (Y * 4 * X)) with (4 * (fman f * W)) in H by (unfold W; ring).
      replace (Y * 4 * X) with (4 * W) in H by (unfold W; ring). clearbody W. change (2 ^ 24) with 16777216 in *. change (2 ^ 23) with 8388608 in *.
      assert (33554432 * W - 16777216 * X <= Z.abs (4 * (fman f * W) - fman g * X)) by lia. lia.
Qed.
Lemma close neg p q f g : 0 < q -> is_single f -> 4 * sdist p q f < q * 2 ^ (fexp f + 149) -> nearest_single neg p q g -> smag g = smag f.
Proof.
  intros Hq Hf H (Hg & _ & _ & N & _). apply apart; [ exact Hf | exact Hg | ]. specialize (N f Hf). unfold sdist in *.
  set (P := p * 2 ^ 149) in *. assert (q * Z.abs (smag f - smag g) <= Z.abs (P - q * smag f) + Z.abs (P - q * smag g)).
  { rewrite <- (Z.abs_eq q) at 1 by lia. rewrite <- Z.abs_mul. lia. }
  set (X := 2 ^ (fexp f + 149)) in *. clearbody X. nia.
Qed.

(** ** Widening *)
Lemma widen_spec f : is_single f -> fman f <> 0 -> normal (widen f) /\ dneg (widen f) = fneg f /\ mag (widen f) = smag f * 2 ^ 925.
Proof.
  intros (Mf & Ef & Cf) N. unfold widen. replace (fman f =? 0) with false by lia. cbv zeta. set (s := 52 - Z.log2 (fman f)).
  pose proof (Z.log2_spec (fman f) ltac:(lia)) as (L1 & L2). assert (Z.log2 (fman f) < 24) by (apply Z.log2_lt_pow2; lia).
  pose proof (Z.log2_nonneg (fman f)). assert (Hs : 29 <= s <= 52) by (unfold s; lia).
  assert (A : 2 ^ 52 <= fman f * 2 ^ s). { replace 52 with (Z.log2 (fman f) + s) at 1 by (unfold s; lia). rewrite Z.pow_add_r by lia. pose proof (Z.pow_pos_nonneg 2 s ltac:(lia) ltac:(lia)). nia. }
  assert (B : fman f * 2 ^ s < 2 ^ 53). { replace 53 with (Z.succ (Z.log2 (fman f)) + s) by (unfold s; lia). rewrite Z.pow_add_r by lia. pose proof (Z.pow_pos_nonneg 2 s ltac:(lia) ltac:(lia)). nia. }
  split; [ | split; [ reflexivity | ] ].
  - unfold normal, is_double. cbn [dman dexp]. repeat split; try lia.
  - unfold mag, smag. cbn [dman dexp]. rewrite <- !Z.mul_assoc, <- !Z.pow_add_r by lia. f_equal. f_equal. lia.
Qed.

(** ** Reading *)
Lemma cast_fraction d : is_double d -> exists p q, 0 <= p /\ 0 < q /\ p * 2 ^ 1074 = q * mag d /\ cast_float (JFloat d) = Ok (narrow (dneg d) p q).
Proof.
  intros (M & E & _). unfold cast_float. destruct (Z.leb_spec 0 (dexp d)).
  - exists (dman d * 2 ^ dexp d), 1. pose proof (Z.pow_pos_nonneg 2 (dexp d) ltac:(lia) ltac:(lia)). repeat split; try nia.
    unfold mag. rewrite Z.pow_add_r by lia. ring.
  - exists (dman d), (2 ^ (- dexp d)). pose proof (Z.pow_pos_nonneg 2 (- dexp d) ltac:(lia) ltac:(lia)). repeat split; try nia.
    unfold mag. replace 1074 with (- dexp d + (dexp d + 1074)) at 1 by lia. rewrite Z.pow_add_r by lia. ring.
Qed.
Lemma small_error f p q D : is_single f -> 0 < q -> 0 <= p -> fman f <> 0 ->
  p * 2 ^ 1074 = q * D -> 10 ^ 11 * Z.abs (D - smag f * 2 ^ 925) <= smag f * 2 ^ 925 -> narrow (fneg f) p q = SFin f.
Proof.
  intros Hf Hq Hp Nz E H.
  assert (P74 : 2 ^ 1074 = 2 ^ 149 * 2 ^ 925) by (rewrite <- Z.pow_add_r by lia; reflexivity). rewrite P74 in E.
  assert (PU : 0 < 2 ^ 925) by (apply Z.pow_pos_nonneg; lia). revert E H PU. generalize (2 ^ 925). clear P74. intros U E H PU.
  assert (S : sdist p q f * U = q * Z.abs (D - smag f * U)).
  { unfold sdist. transitivity (Z.abs ((p * 2 ^ 149 - q * smag f) * U)); [ rewrite Z.abs_mul, (Z.abs_eq U) by lia; reflexivity | ].
    transitivity (Z.abs (q * (D - smag f * U))); [ f_equal; nia | rewrite Z.abs_mul, (Z.abs_eq q) by lia; reflexivity ]. }
  assert (T : 10 ^ 11 * sdist p q f <= q * smag f).
  { apply (Z.mul_le_mono_pos_r _ _ U PU). rewrite <- Z.mul_assoc, S. nia. }
  assert (PX : 0 < 2 ^ (fexp f + 149)) by (apply Z.pow_pos_nonneg; destruct Hf; lia).
  assert (C : 4 * sdist p q f < q * 2 ^ (fexp f + 149)).
  { unfold smag in T. set (X := 2 ^ (fexp f + 149)) in *. destruct Hf as (Mf & _). change (10 ^ 11) with 100000000000 in T. change (2 ^ 24) with 16777216 in Mf.
    assert (fman f * (q * X) < 16777216 * (q * X)) by (apply Z.mul_lt_mono_pos_r; nia). replace (q * (fman f * X)) with (fman f * (q * X)) in T by ring. nia. }
  assert (R : p < q * (2 ^ 128 - 2 ^ 103)).
  { apply Z.nle_gt. intros C2. unfold sdist, smag in C. destruct Hf as (Mf & Ef & _).
    set (X := 2 ^ (fexp f + 149)) in *. assert (X <= 2 ^ 253) by (apply Z.pow_le_mono_r; lia).
    assert (q * (fman f * X) <= q * ((2 ^ 24 - 1) * X)) by (apply Z.mul_le_mono_nonneg_l; [ lia | apply Z.mul_le_mono_nonneg_r; lia ]).
    assert (q * (2 ^ 128 - 2 ^ 103) * 2 ^ 149 <= p * 2 ^ 149) by (apply Z.mul_le_mono_nonneg_r; [ now vm_compute | exact C2 ]).
    assert (F : (2 ^ 128 - 2 ^ 103) * 2 ^ 149 = (2 ^ 25 - 1) * 2 ^ 252) by (now vm_compute). rewrite <- Z.mul_assoc, F in H2.
    assert (G : 2 ^ 253 = 2 * 2 ^ 252) by (now vm_compute). rewrite G in H0. revert C H0 H1 H2. clearbody X. generalize (2 ^ 252), (p * 2 ^ 149). intros V P C H0 H1 H2.
    change (2 ^ 25 - 1) with 33554431 in H2. change (2 ^ 24 - 1) with 16777215 in H1.
    assert (q * X <= q * (2 * V)) by nia. nia. }
  destruct (Z.eq_dec p 0) as [ -> | Np ].
  { exfalso. unfold sdist, smag in C, T. rewrite Z.mul_0_l, Z.sub_0_l, Z.abs_opp in T. set (X := 2 ^ (fexp f + 149)) in *. assert (0 < q * (fman f * X)) by (destruct Hf; nia). rewrite Z.abs_eq in T by lia. lia. }
  destruct (narrow_range (fneg f) p q ltac:(lia) Hq R) as (g & Eg). rewrite Eg. f_equal. pose proof (narrow_sound _ _ _ _ Hp Hq Eg) as Ng.
  pose proof (close _ _ _ _ _ Hq Hf C Ng) as Em. destruct Ng as (Hg & Sg & _). destruct (smag_inj _ _ Hg Hf Em) as [ A B ].
  destruct f as [n1 m1 e1], g as [n2 m2 e2]. cbn [fneg fman fexp] in *. congruence.
Qed.
Theorem single_kept fbk esc f w r : is_single f -> fman f <> 0 -> ws w -> ends_value r ->
  exists j v st, to_json_float (SFin f) = Ok j /\ parse fbk (start (w ++ print esc j ++ r)) = JOk (v, st) /\ cast_float v = Ok (SFin f).
Proof.
  intros Hf Nz Hw Hr. destruct (widen_spec f Hf Nz) as (W1 & W2 & W3).
  destruct (float_read fbk esc (widen f) w r W1 Hw Hr) as (n & k & v & st & R & V & P & _).
  exists (JFloat (widen f)), v, st. split; [ reflexivity | ]. split; [ exact P | ]. rewrite W2 in V.
  destruct R as ((R1 & R2) & R3 & R4). rewrite W3 in R1. unfold dist in R4. pose proof (up_pos k) as Hu. pose proof (down_pos k) as Hd.
  destruct v as [ | | m | d | | | ]; try contradiction V.
  - destruct V as (a & -> & Sa). unfold same_decimal in Sa. change (up 0) with 1 in Sa. change (down 0) with 1 in Sa. rewrite !Z.mul_1_r in Sa.
    assert (Ha : 0 < a) by (change (10 ^ 11) with 100000000000 in *; nia).
    assert (K : narrow (fneg f) a 1 = SFin f).
    { apply (small_error f a 1 (a * 2 ^ 1074)); try lia; [ exact Hf | ]. rewrite W3 in R4. rewrite <- Sa in R4.
      set (F := smag f * 2 ^ 925) in *. clearbody F. revert R1 R4. generalize (2 ^ 1074). intros U R1 R4.
      replace (a * down k * U - down k * F) with (down k * (a * U - F)) in R4 by ring. rewrite Z.abs_mul, (Z.abs_eq (down k)) in R4 by lia.
      set (z := Z.abs (a * U - F)) in *. assert (0 <= z) by (unfold z; lia). clearbody z. set (dk := down k) in *. set (uU := up k * U) in *.
      replace (10 ^ 11 * up k * U) with (10 ^ 11 * uU) in R1 by (unfold uU; ring). clearbody uU. change (10 ^ 11) with 100000000000 in *.
      apply (Z.mul_le_mono_pos_l _ _ dk Hd). nia. }
    unfold cast_float. destruct (fneg f); [ replace (- a <? 0) with true by lia; rewrite Z.abs_opp | replace (a <? 0) with false by lia ]; rewrite Z.abs_eq by lia; now rewrite K.
  - destruct V as ((Hd2 & Sd & _ & N & _) & _). fold (up k) (down k) in N. specialize (N (widen f) (proj1 W1)). unfold dist in N. rewrite W3 in N, R4.
    destruct (cast_fraction d Hd2) as (p & q & Hp & Hq & E & C). rewrite C, Sd. f_equal.
    apply (small_error f p q (mag d)); try assumption.
    set (F := smag f * 2 ^ 925) in *. clearbody F. revert R1 R4 N. generalize (2 ^ 1074). intros U R1 R4 N.
    assert (G : down k * Z.abs (mag d - F) <= up k * U).
    { rewrite <- (Z.abs_eq (down k)) at 1 by lia. rewrite <- Z.abs_mul, Z.mul_sub_distr_l. lia. }
    set (z := Z.abs (mag d - F)) in *. assert (0 <= z) by (unfold z; lia). clearbody z. set (dk := down k) in *. set (uU := up k * U) in *.
    replace (10 ^ 11 * up k * U) with (10 ^ 11 * uU) in R1 by (unfold uU; ring). clearbody uU. change (10 ^ 11) with 100000000000 in *.
    apply (Z.mul_le_mono_pos_l _ _ dk Hd). nia.
Qed.
Lemma nearest_scale neg p q p' q' f : 0 < q -> 0 < q' -> p * q' = p' * q -> nearest_single neg p q f -> nearest_single neg p' q' f.
Proof.
  intros Hq Hq' E (A & B & C & D & G).
  assert (S : forall g, sdist p q g * q' = sdist p' q' g * q).
  { intros g. unfold sdist. transitivity (Z.abs ((p * 2 ^ 149 - q * smag g) * q')); [ rewrite Z.abs_mul, (Z.abs_eq q') by lia; reflexivity | ].
    transitivity (Z.abs ((p' * 2 ^ 149 - q' * smag g) * q)); [ f_equal | rewrite Z.abs_mul, (Z.abs_eq q) by lia; reflexivity ].
    rewrite !Z.mul_sub_distr_r. replace (p * 2 ^ 149 * q') with (p * q' * 2 ^ 149) by ring. rewrite E. ring. }
  split; [ exact A | ]. split; [ exact B | ]. split; [ | split ].
  - revert C. generalize (2 ^ 128 - 2 ^ 103). intros V C. nia.
  - intros g Hg. specialize (D g Hg). pose proof (S f). pose proof (S g). nia.
  - intros g Hg Eq Ne. apply (G g Hg); [ | exact Ne ]. pose proof (S f) as S1. pose proof (S g) as S2. rewrite Eq in S2. nia.
Qed.
Lemma cast_nearest d f : is_double d -> (cast_float (JFloat d) = Ok (SFin f) <-> nearest_single (dneg d) (mag d) (2 ^ 1074) f).
Proof.
  intros Hd. destruct (cast_fraction d Hd) as (p & q & Hp & Hq & E & ->). assert (PU : 0 < 2 ^ 1074) by (apply Z.pow_pos_nonneg; lia).
  transitivity (narrow (dneg d) p q = SFin f); [ split; [ intros K; injection K; auto | intros ->; reflexivity ] | ].
  rewrite (narrow_spec _ _ _ _ Hp Hq). split; apply nearest_scale; lia.
Qed.
Lemma cast_infinite d : is_double d -> (cast_float (JFloat d) = Ok (SInf (dneg d)) <-> 2 ^ 1074 * (2 ^ 128 - 2 ^ 103) <= mag d).
Proof.
  intros Hd. destruct (cast_fraction d Hd) as (p & q & Hp & Hq & E & ->). assert (PU : 0 < 2 ^ 1074) by (apply Z.pow_pos_nonneg; lia).
  transitivity (narrow (dneg d) p q = SInf (dneg d)); [ split; [ intros K; injection K; auto | intros ->; reflexivity ] | ].
  rewrite (narrow_inf _ _ _ Hp Hq). revert PU E. generalize (2 ^ 1074), (2 ^ 128 - 2 ^ 103). intros U V PU E. split; nia.
Qed.
