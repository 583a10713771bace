From Verif Require Import Common CommonLemmas Double_Model Double_Spec.
Local Open Scope Z_scope.

Lemma rhe_spec a b : 0 < b -> 2 * Z.abs (a - rhe a b * b) <= b /\ (2 * Z.abs (a - rhe a b * b) = b -> Z.even (rhe a b) = true).
Proof.
  intros Hb. unfold rhe. pose proof (Z.div_mod a b ltac:(lia)) as E. pose proof (Z.mod_pos_bound a b Hb) as Hr.
  set (d := a / b) in *. set (r := a mod b) in *.
  destruct (Z.ltb_spec (2 * r) b).
  - replace (a - d * b) with r by lia. split; lia.
  - destruct (Z.ltb_spec b (2 * r)).
    + replace (a - (d + 1) * b) with (r - b) by lia. split; lia.
    + destruct (Z.even d) eqn:Ee.
      * replace (a - d * b) with r by lia. split; [lia|auto].
      * replace (a - (d + 1) * b) with (r - b) by lia. split; [lia|]. intros _. rewrite Z.even_add, Ee. reflexivity.
Qed.

Lemma rhe_le a b n : 0 < b -> a <= n * b -> rhe a b <= n.
Proof.
  intros Hb H. destruct (rhe_spec a b Hb) as [H1 _]. apply Z.lt_succ_r. apply Z.nle_gt. intros Hc.
  assert (Z.succ n * b <= rhe a b * b) by nia. lia.
Qed.
Lemma rhe_ge a b n : 0 < b -> n * b <= a -> n <= rhe a b.
Proof.
  intros Hb H. destruct (rhe_spec a b Hb) as [H1 _]. apply Z.nlt_ge. intros Hc.
  assert (rhe a b * b <= (n - 1) * b) by nia. lia.
Qed.

Lemma scale2_spec p q e T : 0 < q -> 0 <= e + T -> 0 <= T ->
  let '(a, b) := scale 2 p q e in 0 < b /\ a * q * 2 ^ (e + T) = b * (p * 2 ^ T).
Proof.
  intros Hq He HT. unfold scale. destruct (Z.leb_spec 0 e).
  - split; [pose proof (Z.pow_pos_nonneg 2 e); nia|]. rewrite Z.pow_add_r by lia. ring.
  - split; [lia|]. replace T with (- e + (e + T)) at 2 by lia. rewrite (Z.pow_add_r 2 (- e) (e + T)) by lia. ring.
Qed.

Lemma flog2_spec p q T : 0 < p -> 0 < q -> 0 <= T -> 0 <= flog2 p q + T ->
  q * 2 ^ (flog2 p q + T) <= p * 2 ^ T < q * 2 ^ (flog2 p q + T + 1).
Proof.
  intros Hp Hq HT. unfold flog2. set (l := Z.log2 p - Z.log2 q).
  pose proof (Z.log2_spec p Hp) as HP. pose proof (Z.log2_spec q Hq) as HQ.
  pose proof (Z.log2_nonneg p). pose proof (Z.log2_nonneg q).
  (* 2^(l-1) < p/q < 2^(l+1) *)
  assert (HU : forall T, 0 <= T -> 0 <= l + T -> p * 2 ^ T < q * 2 ^ (l + T + 1)).
  { intros T' HT' Hl. unfold l in *.
    assert (p * 2 ^ T' < 2 ^ (Z.succ (Z.log2 p)) * 2 ^ T') by (pose proof (Z.pow_pos_nonneg 2 T'); nia).
    assert (2 ^ Z.log2 q * 2 ^ (Z.log2 p - Z.log2 q + T' + 1) <= q * 2 ^ (Z.log2 p - Z.log2 q + T' + 1)).
    { pose proof (Z.pow_pos_nonneg 2 (Z.log2 p - Z.log2 q + T' + 1)). nia. }
    rewrite <- Z.pow_add_r in H1 by lia. rewrite <- Z.pow_add_r in H2 by lia.
    replace (Z.log2 q + (Z.log2 p - Z.log2 q + T' + 1)) with (Z.succ (Z.log2 p) + T') in H2 by lia. lia. }
  assert (HL : forall T, 0 <= T -> 0 <= l - 1 + T -> q * 2 ^ (l - 1 + T) <= p * 2 ^ T).
  { intros T' HT' Hl. unfold l in *.
    assert (q * 2 ^ (Z.log2 p - Z.log2 q - 1 + T') <= 2 ^ (Z.succ (Z.log2 q)) * 2 ^ (Z.log2 p - Z.log2 q - 1 + T')).
    { pose proof (Z.pow_pos_nonneg 2 (Z.log2 p - Z.log2 q - 1 + T')). nia. }
    assert (2 ^ Z.log2 p * 2 ^ T' <= p * 2 ^ T') by (pose proof (Z.pow_pos_nonneg 2 T'); nia).
    rewrite <- Z.pow_add_r in H1 by lia. rewrite <- Z.pow_add_r in H2 by lia.
    replace (Z.succ (Z.log2 q) + (Z.log2 p - Z.log2 q - 1 + T')) with (Z.log2 p + T') in H1 by lia. lia. }
  assert (HS : forall T, 0 <= T -> 0 <= l + T -> let '(a, b) := scale 2 p q l in (b <=? a) = (q * 2 ^ (l + T) <=? p * 2 ^ T)).
  { intros T' HT' Hl. pose proof (scale2_spec p q l T' Hq Hl HT') as H1. destruct (scale 2 p q l) as [a b]. destruct H1 as [Hb E].
    pose proof (Z.pow_pos_nonneg 2 (l + T') ltac:(lia) Hl) as Hpow. set (J := 2 ^ (l + T')) in *. set (N := p * 2 ^ T') in *.
    destruct (Z.leb_spec b a); destruct (Z.leb_spec (q * J) N); try reflexivity; exfalso; assert (0 < q * J) by nia; nia. }
  destruct (scale 2 p q l) as [a b]. destruct (b <=? a) eqn:Eab; intros Hl.
  - specialize (HS T HT Hl). symmetry in HS. apply Z.leb_le in HS. split; [assumption|]. now apply HU.
  - split; [now apply HL|]. replace (l - 1 + T + 1) with (l + T) by lia.
    specialize (HS T HT ltac:(lia)). symmetry in HS. apply Z.leb_gt in HS. lia.
Qed.

(** The scaled fraction [a/b] that to_double rounds. *)
Section Round.
  Context (p q : Z) (Hp : 0 < p) (Hq : 0 < q).
  Let e := Z.max (-1074) (flog2 p q - 52).
  Let J := 2 ^ (e + 1074).
  Let N := p * 2 ^ 1074.

  Lemma pow53 : 2 ^ 53 = 2 * 2 ^ 52. Proof. reflexivity. Qed.

  Lemma scaled a b : scale 2 p q e = (a, b) ->
    0 < b /\ a * q * J = b * N /\ a < 2 ^ 53 * b /\ (e = -1074 \/ 2 ^ 52 * b <= a) /\ 0 < a /\ 0 < J.
  Proof.
    intros Es. pose proof (scale2_spec p q e 1074 Hq ltac:(lia) ltac:(lia)) as H. rewrite Es in H. destruct H as [Hb E].
    fold J in E. fold N in E.
    assert (HJ : 0 < J) by (apply Z.pow_pos_nonneg; lia).
    assert (HN : 0 < N) by (unfold N; pose proof (Z.pow_pos_nonneg 2 1074); nia).
    assert (HqJ : 0 < q * J) by nia.
    assert (Ea : a * (q * J) = b * N) by lia.
    assert (HU : N < q * 2 ^ 53 * J).
    { destruct (Z.le_gt_cases (-1074) (flog2 p q)) as [Hl|Hl].
      - destruct (flog2_spec p q 1074 Hp Hq ltac:(lia) ltac:(lia)) as [_ H2]. fold N in H2.
        assert (2 ^ (flog2 p q + 1074 + 1) <= 2 ^ 53 * J).
        { unfold J. rewrite <- Z.pow_add_r by lia. apply Z.pow_le_mono_r; lia. }
        nia.
      - destruct (flog2_spec p q (- flog2 p q) Hp Hq ltac:(lia) ltac:(lia)) as [_ H2].
        replace (flog2 p q + - flog2 p q + 1) with 1 in H2 by lia.
        assert (2 ^ 1074 <= 2 ^ (- flog2 p q)) by (apply Z.pow_le_mono_r; lia).
        assert (N <= p * 2 ^ (- flog2 p q)) by (unfold N; nia).
        assert (2 <= 2 ^ 53 * J) by (assert (2 <= 2 ^ 53) by (now vm_compute); nia). nia. }
    assert (HLo : e = -1074 \/ q * 2 ^ 52 * J <= N).
    { destruct (Z.eq_dec e (-1074)) as [|Hne]; [now left|right].
      assert (Ee : e = flog2 p q - 52) by lia.
      destruct (flog2_spec p q 1074 Hp Hq ltac:(lia) ltac:(lia)) as [H1 _]. fold N in H1.
      unfold J. rewrite <- Z.mul_assoc, <- Z.pow_add_r by lia. replace (52 + (e + 1074)) with (flog2 p q + 1074) by lia. exact H1. }
    assert (Ha : 0 < a) by nia.
    repeat split; auto.
    - apply Z.nle_gt. intros Hc. assert (2 ^ 53 * b * (q * J) <= a * (q * J)) by nia. nia.
    - destruct HLo as [|HLo]; [now left|right]. apply Z.nlt_ge. intros Hc.
      assert (a * (q * J) < 2 ^ 52 * b * (q * J)) by nia. nia.
  Qed.

  (** Doubles are multiples of [J], or below all candidates. *)
  Lemma double_grid d : is_double d -> (exists m, mag d = m * J) \/ (e <> -1074 /\ mag d < 2 ^ 52 * J).
  Proof.
    intros ((Hm1 & Hm2) & (He1 & He2) & Hc). unfold mag, J. destruct (Z.le_gt_cases e (dexp d)) as [Hle|Hgt].
    - left. exists (dman d * 2 ^ (dexp d - e)). rewrite <- Z.mul_assoc, <- Z.pow_add_r by lia. do 2 f_equal. lia.
    - right. split; [lia|]. replace (e + 1074) with ((e - dexp d - 1) + 1 + (dexp d + 1074)) by lia.
      rewrite (Z.pow_add_r 2 (e - dexp d - 1 + 1) (dexp d + 1074)), (Z.pow_add_r 2 (e - dexp d - 1) 1) by lia.
      pose proof (Z.pow_pos_nonneg 2 (dexp d + 1074) ltac:(lia) ltac:(lia)) as H1.
      pose proof (Z.pow_pos_nonneg 2 (e - dexp d - 1) ltac:(lia) ltac:(lia)) as H2.
      set (X := 2 ^ (dexp d + 1074)) in *. set (Y := 2 ^ (e - dexp d - 1)) in *. rewrite pow53 in Hm2.
      change (2 ^ 1) with 2. assert (dman d * X < 2 * 2 ^ 52 * X) by nia. nia.
  Qed.

  Context (a b : Z) (Es : scale 2 p q e = (a, b)).
  Let m := rhe a b.

  (** Distances measured on the grid. *)
  Lemma dist_grid n : b * Z.abs (N - q * (n * J)) = q * J * Z.abs (a - n * b).
  Proof.
    destruct (scaled a b Es) as (Hb & E & _ & _ & _ & HJ).
    rewrite <- (Z.abs_eq b) at 1 by lia. rewrite <- (Z.abs_eq (q * J)) by nia. rewrite <- !Z.abs_mul. f_equal. nia.
  Qed.

  Lemma nearest_grid d n : mag d = m * J -> b * dist p q d <= q * J * Z.abs (a - n * b) /\
    (b * dist p q d = q * J * Z.abs (a - n * b) -> n <> m -> Z.even m = true).
  Proof.
    intros Hd. destruct (scaled a b Es) as (Hb & E & _ & _ & _ & HJ). destruct (rhe_spec a b Hb) as [H1 H2]. fold m in H1, H2.
    unfold dist. rewrite Hd. fold N. rewrite dist_grid.
    assert (HqJ : 0 < q * J) by nia. destruct (Z.eq_dec n m) as [->|Hn].
    - split; [lia|congruence].
    - assert (H3 : b <= 2 * Z.abs (a - n * b)).
      { assert (b <= Z.abs (m * b - n * b)) by (replace (m * b - n * b) with ((m - n) * b) by ring; rewrite Z.abs_mul, (Z.abs_eq b) by lia; nia). lia. }
      split; [nia|]. intros Heq _. apply H2. apply Z.mul_reg_l in Heq; lia.
  Qed.

  Lemma nearest_all d d' : mag d = m * J -> is_double d' -> dist p q d <= dist p q d' /\
    (dist p q d' = dist p q d -> mag d' <> mag d -> Z.even m = true).
  Proof.
    intros Hd Hd'. destruct (scaled a b Es) as (Hb & E & _ & Hlo & _ & HJ).
    destruct (double_grid d' Hd') as [(n & En)|(Hne & Hlt)].
    - assert (Ed : b * dist p q d' = q * J * Z.abs (a - n * b)) by (unfold dist; rewrite En; fold N; apply dist_grid).
      destruct (nearest_grid d n Hd) as [H1 H2]. rewrite <- Ed in H1, H2. split; [nia|].
      intros Heq Hmag. apply H2; [now rewrite Heq|]. intros ->. congruence.
    - destruct Hlo as [|Hlo]; [contradiction|].
      destruct (nearest_grid d (2 ^ 52) Hd) as [H1 _].
      assert (HqJ : 0 < q * J) by nia.
      assert (Hlt' : b * dist p q d < b * dist p q d').
      { eapply Z.le_lt_trans; [exact H1|]. rewrite Z.abs_eq by lia. unfold dist. fold N.
        assert (Hm : q * mag d' < q * (2 ^ 52 * J)) by nia.
        assert (q * (2 ^ 52 * J) <= N).
        { apply (Z.mul_le_mono_pos_l _ _ b Hb). rewrite <- E. nia. }
        rewrite Z.abs_eq by lia. nia. }
      split; [nia|]. intros Heq. rewrite Heq in Hlt'. lia.
  Qed.
End Round.

(** ** to_double is correctly rounded *)
Lemma to_double_sound neg p q d : 0 <= p -> 0 < q -> to_double neg p q = DOk d -> nearest neg p q d /\ no_underflow p q d.
Proof.
  intros Hp Hq. unfold to_double. destruct (Z.eqb_spec p 0) as [->|Hpz].
  { intros E; injection E as <-. unfold nearest, no_underflow, is_double, dist, mag. cbn [dman dexp dneg].
    replace (0 * 2 ^ 1074 - q * (0 * 2 ^ (-1074 + 1074))) with 0 by ring.
    assert (0 < 2 ^ 1024 - 2 ^ 970) by (now vm_compute). change (Z.abs 0) with 0.
    split; [|now left]. split; [repeat split; try lia; now vm_compute|]. split; [reflexivity|]. split; [nia|].
    split; [intros; lia|]. intros; reflexivity. }
  assert (Hpp : 0 < p) by lia. clear Hp Hpz.
  destruct (scale 2 p q (Z.max (-1074) (flog2 p q - 52))) as [a b] eqn:Es.
  destruct (scaled p q Hpp Hq a b Es) as (Hb & E & Hhi & Hlo & Ha & HJ).
  set (e := Z.max (-1074) (flog2 p q - 52)) in *. set (J := 2 ^ (e + 1074)) in *. set (m := rhe a b).
  assert (Hm0 : 0 <= m) by (apply rhe_ge; lia).
  assert (Hm53 : m <= 2 ^ 53) by (apply rhe_le; lia).
  assert (Hm52 : e = -1074 \/ 2 ^ 52 <= m) by (destruct Hlo; [now left|right; apply rhe_ge; lia]).
  assert (HE : -1074 <= e) by lia.
  assert (HqJ : 0 < q * J) by nia.
  assert (OV : forall n, 0 <= n -> 2 * a < n * b -> 2 * (p * 2 ^ 1074) < n * (q * J)).
  { intros n Hn H. apply (Z.mul_lt_mono_pos_l b); [assumption|].
    replace (b * (2 * (p * 2 ^ 1074))) with (2 * a * (q * J)) by (rewrite <- !Z.mul_assoc in *; nia). nia. }
  assert (LOW : (2 ^ 54 - 1) * b <= 2 * a -> q * (2 ^ 54 - 1) <= p * 2 ^ 1076).
  { intros H. assert (H1 : (2 ^ 54 - 1) * (q * J) <= 2 * (p * 2 ^ 1074)).
    { apply (Z.mul_le_mono_pos_l _ _ b); [assumption|].
      replace (b * (2 * (p * 2 ^ 1074))) with (2 * a * (q * J)) by (rewrite <- !Z.mul_assoc in *; nia). nia. }
    assert (EU : 2 ^ 1076 = 4 * 2 ^ 1074) by (now vm_compute). rewrite EU.
    assert (HU : 0 < 2 ^ 1074) by (now vm_compute). assert (HV : 0 < 2 ^ 54 - 1) by (now vm_compute).
    set (U := 2 ^ 1074) in *. set (VV := 2 ^ 54 - 1) in *. clearbody U VV. nia. }
  assert (FINAL : forall d0, is_double d0 -> dneg d0 = neg -> mag d0 = m * J -> (Z.even m = true -> Z.even (dman d0) = true) ->
    p < q * (2 ^ 1024 - 2 ^ 970) -> (tiny p q = false \/ m * b = a) -> nearest neg p q d0 /\ no_underflow p q d0).
  { intros d0 Hv Hs Hmag Hev Hov Hun. split.
    - repeat split; try apply Hv; auto.
      + intros d' Hd'. now apply (nearest_all p q Hpp Hq a b Es d0 d' Hmag Hd').
      + intros d' Hd' H1 H2. apply Hev. now apply (nearest_all p q Hpp Hq a b Es d0 d' Hmag Hd').
    - destruct Hun as [Hun|Hun].
      + right. unfold tiny in Hun. apply Z.ltb_ge in Hun. exact Hun.
      + left. unfold dist. rewrite Hmag.
        pose proof (dist_grid p q Hpp Hq a b Es m) as HD. fold e in HD. fold J in HD. rewrite Hun, Z.sub_diag in HD. cbn [Z.abs] in HD. nia. }
  destruct (Z.eqb_spec m (2 ^ 53)) as [Em|Em].
  - destruct (Z.ltb_spec 971 (e + 1)) as [|Hle]; [discriminate|]. intros Eq; injection Eq as <-. apply FINAL; cbn [dneg dman dexp].
    + unfold is_double. cbn [dman dexp]. repeat split; try lia; try (now vm_compute).
    + reflexivity.
    + unfold mag. cbn [dman dexp]. rewrite Em, pow53. unfold J. replace (e + 1 + 1074) with (1 + (e + 1074)) by lia.
      rewrite Z.pow_add_r by lia.
      change (2 ^ 1) with 2. change (Z.pow_pos 2 52) with (2 ^ 52). ring.
    + intros _. reflexivity.
    + assert (H : 2 * (p * 2 ^ 1074) < 2 ^ 54 * (q * J)) by (apply OV; [now vm_compute|]; change (2 ^ 54) with (2 * 2 ^ 53); lia).
      assert (HJ2 : J <= 2 ^ 2044) by (apply Z.pow_le_mono_r; lia).
      assert (EK : 2 ^ 54 * 2 ^ 2044 <= 2 * ((2 ^ 1024 - 2 ^ 970) * 2 ^ 1074)) by (now vm_compute).
      assert (2 ^ 54 * (q * J) <= 2 ^ 54 * (q * 2 ^ 2044)) by (assert (0 < 2 ^ 54) by (now vm_compute); nia).
      assert (HU : 0 < 2 ^ 1074) by (now vm_compute).
      set (U := 2 ^ 1074) in *. set (V := 2 ^ 1024 - 2 ^ 970) in *. set (W := 2 ^ 54 * 2 ^ 2044) in *.
      replace (2 ^ 54 * (q * 2 ^ 2044)) with (q * W) in H0 by (unfold W; ring).
      clearbody U V W. nia.
    + left. unfold tiny. apply Z.ltb_ge. apply LOW.
      destruct (rhe_spec a b Hb) as [H1 _]. fold m in H1. rewrite Em in H1.
      change (2 ^ 54 - 1) with (2 * 2 ^ 53 - 1). lia.
  - destruct (Z.ltb_spec 971 e) as [|Hle]; [discriminate|].
    destruct (tiny p q && negb (m * b =? a)) eqn:Et; [discriminate|]. intros Eq; injection Eq as <-.
    apply FINAL; cbn [dneg dman dexp]; auto.
    + unfold is_double. cbn [dman dexp]. repeat split; try lia.
    + assert (H : 2 * (p * 2 ^ 1074) < (2 ^ 54 - 1) * (q * J)).
      { apply OV; [now vm_compute|]. apply Z.nle_gt. intros Hc. destruct (rhe_spec a b Hb) as [H1 H2]. fold m in H1, H2.
        change (2 ^ 54 - 1) with (2 * 2 ^ 53 - 1) in Hc.
        assert (Hm : m = 2 ^ 53 - 1) by nia.
        rewrite Hm in H2. assert (2 * Z.abs (a - (2 ^ 53 - 1) * b) = b) by (rewrite Hm in H1; nia).
        specialize (H2 H). vm_compute in H2. discriminate. }
      assert (HJ2 : J <= 2 ^ 2045) by (apply Z.pow_le_mono_r; lia).
      assert (EK : (2 ^ 54 - 1) * 2 ^ 2045 <= 2 * ((2 ^ 1024 - 2 ^ 970) * 2 ^ 1074)) by (now vm_compute).
      assert (H0 : (2 ^ 54 - 1) * (q * J) <= (2 ^ 54 - 1) * (q * 2 ^ 2045)) by (assert (0 < 2 ^ 54 - 1) by (now vm_compute); nia).
      assert (HU : 0 < 2 ^ 1074) by (now vm_compute).
      set (U := 2 ^ 1074) in *. set (V := 2 ^ 1024 - 2 ^ 970) in *. set (W := (2 ^ 54 - 1) * 2 ^ 2045) in *.
      replace ((2 ^ 54 - 1) * (q * 2 ^ 2045)) with (q * W) in H0 by (unfold W; ring).
      clearbody U V W. nia.
    + apply andb_false_iff in Et. destruct Et as [Et|Et]; [now left|right]. apply negb_false_iff in Et. lia.
Qed.

(** ** There is only one correctly rounded double *)
Lemma pow2_pos n : 0 <= n -> 0 < 2 ^ n.
Proof. intros. apply Z.pow_pos_nonneg; lia. Qed.

(** Larger doubles have larger (or equal) exponents. *)
Lemma mag_exp d1 d2 : is_double d1 -> is_double d2 -> mag d1 <= mag d2 -> 0 < dman d1 -> dexp d1 <= dexp d2.
Proof.
  intros ((H1 & H2) & (H3 & H4) & H5) ((K1 & K2) & (K3 & K4) & K5) H Hpos. unfold mag in H.
  apply Z.nlt_ge. intros Hlt. destruct H5 as [H5|H5]; [|lia].
  replace (dexp d1 + 1074) with ((dexp d1 - dexp d2 - 1) + 1 + (dexp d2 + 1074)) in H by lia.
  rewrite (Z.pow_add_r 2 (dexp d1 - dexp d2 - 1 + 1) (dexp d2 + 1074)), (Z.pow_add_r 2 (dexp d1 - dexp d2 - 1) 1) in H by lia.
  pose proof (pow2_pos (dexp d2 + 1074) ltac:(lia)). pose proof (pow2_pos (dexp d1 - dexp d2 - 1) ltac:(lia)).
  set (X := 2 ^ (dexp d2 + 1074)) in *. set (Y := 2 ^ (dexp d1 - dexp d2 - 1)) in *. change (2 ^ 1) with 2 in H. rewrite pow53 in K2.
  set (C := 2 ^ 52) in *. clearbody X Y C. assert (HC : C <= dman d1 * Y) by nia.
  replace (dman d1 * (Y * 2 * X)) with (dman d1 * Y * (2 * X)) in H by ring.
  assert (C * (2 * X) <= dman d1 * Y * (2 * X)) by nia. nia.
Qed.

Lemma mag_inj d1 d2 : is_double d1 -> is_double d2 -> mag d1 = mag d2 -> dman d1 = dman d2 /\ dexp d1 = dexp d2.
Proof.
  intros H1 H2 E. assert (Z0 : dman d1 = 0 <-> dman d2 = 0).
  { unfold mag in E. destruct H1 as (_ & (? & _) & _), H2 as (_ & (? & _) & _).
    pose proof (pow2_pos (dexp d1 + 1074) ltac:(lia)). pose proof (pow2_pos (dexp d2 + 1074) ltac:(lia)). nia. }
  destruct (Z.eq_dec (dman d1) 0) as [Ez|Ez].
  - destruct H1 as (_ & _ & H1), H2 as (_ & _ & H2). assert (0 < 2 ^ 52) by (now vm_compute). lia.
  - assert (Ee : dexp d1 = dexp d2).
    { apply Z.le_antisymm; apply mag_exp; auto; try lia; [destruct H1 as ((? & _) & _)|destruct H2 as ((? & _) & _)]; lia. }
    split; [|exact Ee]. unfold mag in E. rewrite Ee in E. destruct H2 as (_ & (? & _) & _).
    pose proof (pow2_pos (dexp d2 + 1074) ltac:(lia)). nia.
Qed.

(** No two neighbours with even significands. *)
Lemma even_gap p q d1 d2 : 0 < q -> is_double d1 -> is_double d2 -> mag d1 < mag d2 -> Z.even (dman d1) = true -> Z.even (dman d2) = true ->
  dist p q d1 = dist p q d2 -> (forall d, is_double d -> dist p q d1 <= dist p q d) -> False.
Proof.
  intros Hq H1 H2 Hlt E1 E2 Hd Hmin.
  assert (Hs : exists d3, is_double d3 /\ mag d1 < mag d3 < mag d2).
  { destruct H1 as ((A1 & A2) & (A3 & A4) & A5).
    set (d3 := mkD (dneg d1) (dman d1 + 1) (dexp d1)).
    assert (Hodd : Z.even (dman d1 + 1) = false) by (rewrite Z.even_add, E1; reflexivity).
    assert (V3 : is_double d3).
    { unfold is_double, d3. cbn [dman dexp].
      assert (dman d1 + 1 <> 2 ^ 53) by (intros C; rewrite C in Hodd; vm_compute in Hodd; discriminate). lia. }
    pose proof (pow2_pos (dexp d1 + 1074) ltac:(lia)) as HX.
    assert (M3 : mag d3 = mag d1 + 2 ^ (dexp d1 + 1074)) by (unfold mag, d3; cbn [dman dexp]; ring).
    assert (Hne : mag d3 <> mag d2).
    { intros C. destruct (mag_inj d3 d2 V3 H2 C) as [Em _]. unfold d3 in Em; cbn [dman] in Em. rewrite <- Em, Hodd in E2. discriminate. }
    exists d3. split; [assumption|]. split; [lia|].
    apply Z.nle_gt. intros Hc.
    (* mag d1 < mag d2 < mag d3 is impossible: mag d2 is a multiple of the step *)
    assert (Hexp : dexp d1 <= dexp d2).
    { destruct (Z.eq_dec (dman d1) 0) as [Ez|Ez].
      - assert (dexp d1 = -1074) by (assert (0 < 2 ^ 52) by (now vm_compute); lia). destruct H2 as (_ & (? & _) & _). lia.
      - apply mag_exp; auto; try lia. repeat split; auto. }
    unfold mag in *. replace (dexp d2 + 1074) with ((dexp d2 - dexp d1) + (dexp d1 + 1074)) in * by lia.
    rewrite (Z.pow_add_r 2 (dexp d2 - dexp d1) (dexp d1 + 1074)) in * by lia.
    set (X := 2 ^ (dexp d1 + 1074)) in *. unfold d3 in *; cbn [dman dexp] in *. fold X in Hc, Hne.
    set (n := dman d2 * 2 ^ (dexp d2 - dexp d1)) in *. rewrite Z.mul_assoc in *. fold n in Hlt, Hc, Hne.
    apply Z.mul_lt_mono_pos_r in Hlt; [|assumption]. apply Z.mul_le_mono_pos_r in Hc; [|assumption].
    apply Hne. f_equal. lia. }
  destruct Hs as (d3 & V3 & L & R). specialize (Hmin d3 V3). unfold dist in *.
  assert (q * mag d1 < q * mag d3) by nia. assert (q * mag d3 < q * mag d2) by nia. lia.
Qed.

Lemma nearest_unique neg p q d1 d2 : 0 < q -> nearest neg p q d1 -> nearest neg p q d2 -> d1 = d2.
Proof.
  intros Hq (V1 & S1 & O1 & N1 & T1) (V2 & S2 & O2 & N2 & T2).
  pose proof (N1 d2 V2) as L1. pose proof (N2 d1 V1) as L2. assert (Hd : dist p q d1 = dist p q d2) by lia.
  assert (Em : mag d1 = mag d2).
  { destruct (Z.eq_dec (mag d1) (mag d2)) as [|Hne]; [assumption|exfalso].
    pose proof (T1 d2 V2 (eq_sym Hd) ltac:(congruence)) as E1. pose proof (T2 d1 V1 Hd Hne) as E2.
    destruct (Z.lt_trichotomy (mag d1) (mag d2)) as [H|[H|H]]; [|congruence|].
    - exact (even_gap p q d1 d2 Hq V1 V2 H E1 E2 Hd N1).
    - exact (even_gap p q d2 d1 Hq V2 V1 H E2 E1 (eq_sym Hd) N2). }
  destruct (mag_inj d1 d2 V1 V2 Em) as [A B]. destruct d1 as [n1 m1 e1], d2 as [n2 m2 e2]. cbn [dneg dman dexp] in A, B, S1, S2. congruence.
Qed.

(** to_double fails only outside the range. *)
Lemma to_double_total neg p q d : 0 <= p -> 0 < q -> nearest neg p q d -> no_underflow p q d -> exists d', to_double neg p q = DOk d'.
Proof.
  intros Hp Hq (V & _ & Ov & N & _) Un. unfold to_double. destruct (Z.eqb_spec p 0) as [->|Hpz]; [eauto|].
  assert (Hpp : 0 < p) by lia.
  destruct (scale 2 p q (Z.max (-1074) (flog2 p q - 52))) as [a b] eqn:Es.
  destruct (scaled p q Hpp Hq a b Es) as (Hb & E & Hhi & Hlo & Ha & HJ).
  set (e := Z.max (-1074) (flog2 p q - 52)) in *. set (J := 2 ^ (e + 1074)) in *. set (m := rhe a b).
  assert (HqJ : 0 < q * J) by nia.
  assert (LOW : forall n, 0 <= n -> n * b <= 2 * a -> n * (q * J) <= 2 * (p * 2 ^ 1074)).
  { intros n Hn H. apply (Z.mul_le_mono_pos_l _ _ b); [assumption|].
    replace (b * (2 * (p * 2 ^ 1074))) with (2 * a * (q * J)) by (rewrite <- !Z.mul_assoc in *; nia). nia. }
  destruct (Z.eqb_spec m (2 ^ 53)) as [Em|Em].
  - destruct (Z.ltb_spec 971 (e + 1)) as [Hgt|]; [exfalso|eauto].
    assert (H : (2 ^ 54 - 1) * (q * J) <= 2 * (p * 2 ^ 1074)).
    { apply LOW; [now vm_compute|]. destruct (rhe_spec a b Hb) as [H1 _]. fold m in H1. rewrite Em in H1.
      change (2 ^ 54 - 1) with (2 * 2 ^ 53 - 1). lia. }
    assert (HJ2 : 2 ^ 2045 <= J) by (apply Z.pow_le_mono_r; lia).
    assert (EK : (2 ^ 54 - 1) * 2 ^ 2045 = 2 * ((2 ^ 1024 - 2 ^ 970) * 2 ^ 1074)) by (now vm_compute).
    assert (H0 : (2 ^ 54 - 1) * (q * 2 ^ 2045) <= (2 ^ 54 - 1) * (q * J)) by (assert (0 < 2 ^ 54 - 1) by (now vm_compute); nia).
    replace ((2 ^ 54 - 1) * (q * 2 ^ 2045)) with (q * ((2 ^ 54 - 1) * 2 ^ 2045)) in H0 by ring. rewrite EK in H0.
    assert (HU : 0 < 2 ^ 1074) by (now vm_compute).
    set (U := 2 ^ 1074) in *. set (VV := 2 ^ 1024 - 2 ^ 970) in *. clearbody U VV. nia.
  - destruct (Z.ltb_spec 971 e) as [Hgt|Hle].
    + exfalso. destruct Hlo as [Hlo|Hlo]; [lia|].
      assert (H : 2 ^ 53 * (q * J) <= 2 * (p * 2 ^ 1074)) by (apply LOW; [now vm_compute|]; rewrite pow53; lia).
      assert (HJ2 : 2 ^ 2046 <= J) by (apply Z.pow_le_mono_r; lia).
      assert (EK : 2 * ((2 ^ 1024 - 2 ^ 970) * 2 ^ 1074) <= 2 ^ 53 * 2 ^ 2046) by (now vm_compute).
      assert (H0 : 2 ^ 53 * (q * 2 ^ 2046) <= 2 ^ 53 * (q * J)) by (assert (0 < 2 ^ 53) by (now vm_compute); nia).
      replace (2 ^ 53 * (q * 2 ^ 2046)) with (q * (2 ^ 53 * 2 ^ 2046)) in H0 by ring.
      assert (HU : 0 < 2 ^ 1074) by (now vm_compute).
      set (U := 2 ^ 1074) in *. set (VV := 2 ^ 1024 - 2 ^ 970) in *. set (W := 2 ^ 53 * 2 ^ 2046) in *. clearbody U VV W. nia.
    + destruct (tiny p q && negb (m * b =? a)) eqn:Et; [exfalso|eauto].
      apply andb_true_iff in Et. destruct Et as [Et1 Et2]. apply negb_true_iff, Z.eqb_neq in Et2. unfold tiny in Et1. apply Z.ltb_lt in Et1.
      destruct Un as [Un|Un]; [|lia].
      (* p/q is a double, so it lies on the grid *)
      assert (Hex : exists n, mag d = n * J).
      { destruct (double_grid p q d V) as [H|(Hne & Hlt)]; [exact H|]. exfalso.
        destruct Hlo as [Hlo|Hlo]; [contradiction|]. unfold dist in Un.
        assert (HN : p * 2 ^ 1074 = q * mag d) by lia.
        assert (H1 : 2 ^ 52 * b * (q * J) <= a * (q * J)) by (apply Z.mul_le_mono_nonneg_r; lia).
        assert (H2 : b * (q * mag d) = a * (q * J)) by (rewrite <- HN, <- E; ring).
        assert (H3 : 0 < (b * q) * (2 ^ 52 * J - mag d)) by (apply Z.mul_pos_pos; [apply Z.mul_pos_pos; lia|fold e in Hlt; fold J in Hlt; apply Z.lt_0_sub; exact Hlt]).
        assert (H4 : (b * q) * (2 ^ 52 * J - mag d) = 2 ^ 52 * b * (q * J) - b * (q * mag d)) by ring. lia. }
      destruct Hex as (n & En).
      assert (Ean : a = n * b).
      { unfold dist in Un. rewrite En in Un. pose proof (dist_grid p q Hpp Hq a b Es n) as HD. fold e in HD. fold J in HD.
        rewrite Un in HD. nia. }
      apply Et2. unfold m. rewrite Ean. f_equal. apply Z.le_antisymm; [apply rhe_le|apply rhe_ge]; lia.
Qed.

Theorem to_double_spec neg p q d : 0 <= p -> 0 < q -> (to_double neg p q = DOk d <-> nearest neg p q d /\ no_underflow p q d).
Proof.
  intros Hp Hq. split; [now apply to_double_sound|]. intros [Hn Hu].
  destruct (to_double_total neg p q d Hp Hq Hn Hu) as (d' & E). rewrite E. f_equal.
  destruct (to_double_sound neg p q d' Hp Hq E) as [Hn' _]. exact (nearest_unique neg p q d' d Hq Hn' Hn).
Qed.

Theorem dec_double_spec neg D k d : 0 <= D -> (dec_double neg D k = DOk d <-> dec_value neg D k d).
Proof.
  intros HD. unfold dec_double, dec_value. destruct (Z.leb_spec 0 k).
  - rewrite (Z.max_r 0 k) by lia. rewrite (Z.max_l 0 (- k)) by lia. change (10 ^ 0) with 1.
    apply to_double_spec; [|lia]. pose proof (Z.pow_pos_nonneg 10 k). nia.
  - rewrite (Z.max_l 0 k) by lia. rewrite (Z.max_r 0 (- k)) by lia. change (10 ^ 0) with 1. rewrite Z.mul_1_r.
    apply to_double_spec; [lia|]. apply Z.pow_pos_nonneg; lia.
Qed.
