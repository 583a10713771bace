(** Proofs about floating numbers as text. *)
From Verif Require Import Common CommonLemmas NumText_Model NumText_Proof Double_Model Double_Spec Double_Proof Json_Model Json_Spec JsonParse_Proof JsonComplete_Proof JsonPrint_Proof JsonFloat_Spec JsonFloat_Proof LexFloat_Spec LexFloat_Model.
From Verif Require Cast_Model.
Local Open Scope Z_scope.

(** ** Printing *)
(** Rounding a fraction p/q to 6 digits *)
Definition roundz (p q n k : Z) : Prop :=
  10 ^ 5 * (q * up k) <= p * down k < 10 ^ 6 * (q * up k) /\ 10 ^ 5 <= n <= 10 ^ 6 /\ 2 * Z.abs (p * down k - n * (q * up k)) <= q * up k.
Lemma sig6_spec p q : 0 < p -> 0 < q -> exists n k, roundz p q n k /\ 10 ^ 5 <= fst (sig6 p q) < 10 ^ 6 /\ same_decimal (fst (sig6 p q)) (snd (sig6 p q) - 5) n k.
Proof.
  intros Hp Hq. pose proof (flog10_spec p q Hp Hq) as F. cbv zeta in F. unfold sig6. set (x := flog10 p q) in *. rewrite scale10.
  set (a := p * down (x - 5)). set (b := q * up (x - 5)). pose proof (up_pos (x - 5)). pose proof (down_pos (x - 5)). pose proof (up_pos x). pose proof (down_pos x).
  assert (Hb : 0 < b) by (unfold b; nia).
  assert (R : 10 ^ 5 * b <= a < 10 ^ 6 * b).
  { pose proof (up_down x (x - 5) ltac:(lia)) as U. replace (x - (x - 5)) with 5 in U by lia. unfold a, b.
    split.
    - apply (Z.mul_le_mono_pos_r _ _ (down x)); [ lia | ].
      replace (10 ^ 5 * (q * up (x - 5)) * down x) with (q * (10 ^ 5 * (up (x - 5) * down x))) by ring. rewrite <- U. nia.
    - apply (Z.mul_lt_mono_pos_r (down x)); [ lia | ].
      replace (10 ^ 6 * (q * up (x - 5)) * down x) with (10 * (q * (10 ^ 5 * (up (x - 5) * down x)))) by ring. rewrite <- U. nia. }
  destruct (rhe_spec a b Hb) as [ Ha _ ].
  assert (N : 10 ^ 5 <= rhe a b <= 10 ^ 6) by (split; [ apply rhe_ge | apply rhe_le ]; lia).
  exists (rhe a b), (x - 5). split; [ split; [ exact R | split; [ exact N | exact Ha ] ] | ].
  destruct (Z.eqb_spec (rhe a b) (10 ^ 6)) as [ E | E ]; cbn [fst snd].
  - split; [ lia | ]. rewrite E. apply same_sym. replace (x - 5) with ((x + 1 - 5) - 1) by lia. change (10 ^ 6) with (10 ^ 5 * 10 ^ 1). apply same_shift. lia.
  - split; [ lia | reflexivity ].
Qed.

Lemma roundz_double d n k : is_double d -> roundz (fp d) (fq d) n k -> rounds6 d n k.
Proof.
  intros Hd (A & B & C). pose proof (frac_mag d Hd) as E. pose proof (fq_pos d) as Q. pose proof (up_pos k). pose proof (down_pos k).
  set (H2 := 2 ^ 1074) in *. assert (HH : 0 < H2) by (apply Z.pow_pos_nonneg; lia).
  set (M := mag d) in *. set (p := fp d) in *. set (q := fq d) in *. set (u := up k) in *. set (w := down k) in *.
  assert (T1 : q * (10 ^ 5 * u * H2) <= q * (w * M) < q * (10 ^ 6 * u * H2)).
  { replace (q * (w * M)) with (w * (q * M)) by ring. rewrite <- E. replace (w * (p * H2)) with (p * w * H2) by ring. nia. }
  assert (T2 : q * (2 * Z.abs (n * u * H2 - w * M)) <= q * (u * H2)).
  { replace (q * (2 * Z.abs (n * u * H2 - w * M))) with (2 * (Z.abs q * Z.abs (n * u * H2 - w * M))) by (rewrite (Z.abs_eq q) by lia; ring).
    rewrite <- Z.abs_mul. replace (q * (n * u * H2 - w * M)) with (- ((p * w - n * (q * u)) * H2)).
    2: { replace (q * (n * u * H2 - w * M)) with (n * u * H2 * q - w * (q * M)) by ring. rewrite <- E. ring. }
    rewrite Z.abs_opp, Z.abs_mul, (Z.abs_eq H2) by lia. nia. }
  split; [ split | split ].
  - apply (Z.mul_le_mono_pos_l _ _ q); lia.
  - apply (Z.mul_lt_mono_pos_l q); lia.
  - exact B.
  - unfold dist. fold H2 M. apply (Z.mul_le_mono_pos_l _ _ q); lia.
Qed.
Lemma dec_text_6 n : 10 ^ 5 <= n < 10 ^ 6 -> length (dec_text n) = 6%nat.
Proof.
  intros H. destruct (dec_text_len n ltac:(lia)) as [ A B ]. set (L := Z.of_nat (length (dec_text n))) in *.
  assert (~ L <= 5) by (intros K; pose proof (Z.pow_le_mono_r 10 L 5 ltac:(lia) K); lia).
  assert (~ 6 <= L - 1) by (intros K; pose proof (Z.pow_le_mono_r 10 6 (L - 1) ltac:(lia) K); lia). lia.
Qed.
Lemma fmt6_pos_denotes (neg : bool) p q : 0 < p -> 0 < q -> denotes ((if neg then [45] else []) ++ fmt6_pos p q) neg (fst (sig6 p q)) (snd (sig6 p q) - 5).
Proof.
  intros Hp Hq. destruct (sig6_spec p q Hp Hq) as (_ & _ & _ & B & _). unfold fmt6_pos. destruct (sig6 p q) as [ n x ]. cbn [fst snd] in *.
  pose proof (dec_text_6 n B) as L. destruct (dec_text_head n ltac:(lia)) as (c & r & E & Hc). pose proof (dec_text_digit n ltac:(lia)) as D.
  pose proof (dec_text_val n ltac:(lia)) as V. rewrite <- num_dec in V.
  assert (IP : forall j, int_part (firstn (S j) (dec_text n))).
  { intros j. rewrite E in D |- *. cbn [firstn]. apply ip_pos; [ exact Hc | ]. pose proof (Forall_inv_tail D) as D'. rewrite <- (firstn_skipn j r) in D'. apply Forall_app in D'. tauto. }
  assert (FD : forall j, Forall digit (firstn j (dec_text n))) by (intros j; rewrite <- (firstn_skipn j (dec_text n)) in D; apply Forall_app in D; tauto).
  assert (SD : forall j, Forall digit (skipn j (dec_text n))) by (intros j; rewrite <- (firstn_skipn j (dec_text n)) in D; apply Forall_app in D; tauto).
  destruct (Z.leb_spec (-4) x), (Z.ltb_spec x 6); cbn [andb]; [ destruct (Z.leb_spec 0 x) | | | ].
  - replace (Z.to_nat (x + 1)) with (S (Z.to_nat x)) by lia.
    pose proof (frac_denotes neg _ _ (IP (Z.to_nat x)) (SD (S (Z.to_nat x))) (FD _) ltac:(rewrite firstn_length, L; lia)) as T. rewrite firstn_skipn, V, skipn_length, L in T.
    replace (x - 5) with (- Z.of_nat (6 - S (Z.to_nat x))) by lia. exact T.
  - set (z := repeat 48 (Z.to_nat (- x - 1))).
    assert (Dz : Forall digit z) by (apply Forall_forall; intros a Ha; apply repeat_spec in Ha; subst; unfold digit; lia).
    pose proof (frac_denotes neg [48] (z ++ dec_text n) ip_zero (proj2 (Forall_app _ _ _) (conj Dz D)) ltac:(constructor; [ unfold digit; lia | constructor ]) ltac:(cbn; lia)) as T.
    assert (W : num ([48] ++ z ++ dec_text n) = n). { rewrite app_assoc, num_app, V. change ([48] ++ z) with (repeat 48 (S (Z.to_nat (- x - 1)))). rewrite num_zeros. lia. }
    rewrite W, app_length, L in T. unfold z in T at 2. rewrite repeat_length in T.
    replace (x - 5) with (- Z.of_nat (Z.to_nat (- x - 1) + 6)) by lia. exact T.
  - pose proof (exp_denotes neg _ _ x (IP 0%nat) (SD 1%nat) (FD _)) as T. rewrite firstn_skipn, V, skipn_length, L in T. exact T.
  - pose proof (exp_denotes neg _ _ x (IP 0%nat) (SD 1%nat) (FD _)) as T. rewrite firstn_skipn, V, skipn_length, L in T. exact T.
  - lia.
Qed.
Theorem fmt6_denotes d : is_double d -> dman d <> 0 -> exists n k, rounds6 d n k /\ denotes (fmt6 d) (dneg d) n k.
Proof.
  intros Hd Hn. assert (Hp : 0 < fp d). { destruct Hd as (A & _). unfold fp. destruct (Z.leb_spec 0 (dexp d)); [ pose proof (Z.pow_pos_nonneg 2 (dexp d)); nia | lia ]. }
  destruct (sig6_spec (fp d) (fq d) Hp (fq_pos d)) as (n & k & R & _ & S). exists n, k. split; [ now apply roundz_double | ].
  pose proof (fmt6_pos_denotes (dneg d) (fp d) (fq d) Hp (fq_pos d)) as T. apply (denotes_same _ _ _ _ n k) in T; [ | exact S ].
  unfold fmt6. replace (dman d =? 0) with false by lia. unfold fp, fq in T. destruct (0 <=? dexp d); exact T.
Qed.


(** ** Rounding *)
Lemma to_near_sound neg p q d : 0 <= p -> 0 < q -> to_near neg p q = Some d -> nearest neg p q d.
Proof.
  intros Hp Hq. unfold to_near. destruct (Z.eqb_spec p 0) as [->|Hpz].
  { intros E; injection E as <-. unfold nearest, is_double, dist, mag. cbn [dman dexp dneg].
    replace (0 * 2 ^ 1074 - q * (0 * 2 ^ (-1074 + 1074))) with 0 by ring.
    assert (0 < 2 ^ 1024 - 2 ^ 970) by (now vm_compute). change (Z.abs 0) with 0.
    split; [repeat split; try lia; now vm_compute|]. split; [reflexivity|]. split; [nia|].
    split; [intros; lia|]. intros; reflexivity. }
  assert (Hpp : 0 < p) by lia. clear Hp Hpz.
  destruct (scale 2 p q (Z.max (-1074) (flog2 p q - 52))) as [a b] eqn:Es.
  destruct (scaled p q Hpp Hq a b Es) as (Hb & E & Hhi & Hlo & Ha & HJ).
  set (e := Z.max (-1074) (flog2 p q - 52)) in *. set (J := 2 ^ (e + 1074)) in *. set (m := rhe a b).
  assert (Hm0 : 0 <= m) by (apply rhe_ge; lia).
  assert (Hm53 : m <= 2 ^ 53) by (apply rhe_le; lia).
  assert (Hm52 : e = -1074 \/ 2 ^ 52 <= m) by (destruct Hlo; [now left|right; apply rhe_ge; lia]).
  assert (HE : -1074 <= e) by lia.
  assert (HqJ : 0 < q * J) by nia.
  assert (OV : forall n, 0 <= n -> 2 * a < n * b -> 2 * (p * 2 ^ 1074) < n * (q * J)).
  { intros n Hn H. apply (Z.mul_lt_mono_pos_l b); [assumption|].
    replace (b * (2 * (p * 2 ^ 1074))) with (2 * a * (q * J)) by (rewrite <- !Z.mul_assoc in *; nia). nia. }
  assert (FINAL : forall d0, is_double d0 -> dneg d0 = neg -> mag d0 = m * J -> (Z.even m = true -> Z.even (dman d0) = true) ->
    p < q * (2 ^ 1024 - 2 ^ 970) -> nearest neg p q d0).
  { intros d0 Hv Hs Hmag Hev Hov. repeat split; try apply Hv; auto.
    + intros d' Hd'. now apply (nearest_all p q Hpp Hq a b Es d0 d' Hmag Hd').
    + intros d' Hd' H1 H2. apply Hev. now apply (nearest_all p q Hpp Hq a b Es d0 d' Hmag Hd'). }
  destruct (Z.eqb_spec m (2 ^ 53)) as [Em|Em].
  - destruct (Z.ltb_spec 971 (e + 1)) as [|Hle]; [discriminate|]. intros Eq; injection Eq as <-. apply FINAL; cbn [dneg dman dexp].
    + unfold is_double. cbn [dman dexp]. repeat split; try lia; try (now vm_compute).
    + reflexivity.
    + unfold mag. cbn [dman dexp]. rewrite Em, pow53. unfold J. replace (e + 1 + 1074) with (1 + (e + 1074)) by lia.
      rewrite Z.pow_add_r by lia.
      change (2 ^ 1) with 2. change (Z.pow_pos 2 52) with (2 ^ 52). ring.
    + intros _. reflexivity.
    + assert (H : 2 * (p * 2 ^ 1074) < 2 ^ 54 * (q * J)) by (apply OV; [now vm_compute|]; change (2 ^ 54) with (2 * 2 ^ 53); lia).
      assert (HJ2 : J <= 2 ^ 2044) by (apply Z.pow_le_mono_r; lia).
      assert (EK : 2 ^ 54 * 2 ^ 2044 <= 2 * ((2 ^ 1024 - 2 ^ 970) * 2 ^ 1074)) by (now vm_compute).
      assert (2 ^ 54 * (q * J) <= 2 ^ 54 * (q * 2 ^ 2044)) by (assert (0 < 2 ^ 54) by (now vm_compute); nia).
      assert (HU : 0 < 2 ^ 1074) by (now vm_compute).
      set (U := 2 ^ 1074) in *. set (V := 2 ^ 1024 - 2 ^ 970) in *. set (W := 2 ^ 54 * 2 ^ 2044) in *.
      replace (2 ^ 54 * (q * 2 ^ 2044)) with (q * W) in H0 by (unfold W; ring).
      clearbody U V W. nia.
  - destruct (Z.ltb_spec 971 e) as [|Hle]; [discriminate|].
    intros Eq; injection Eq as <-.
    apply FINAL; cbn [dneg dman dexp]; auto.
    + unfold is_double. cbn [dman dexp]. repeat split; try lia.
    + assert (H : 2 * (p * 2 ^ 1074) < (2 ^ 54 - 1) * (q * J)).
      { apply OV; [now vm_compute|]. apply Z.nle_gt. intros Hc. destruct (rhe_spec a b Hb) as [H1 H2]. fold m in H1, H2.
        change (2 ^ 54 - 1) with (2 * 2 ^ 53 - 1) in Hc.
        assert (Hm : m = 2 ^ 53 - 1) by nia.
        rewrite Hm in H2. assert (2 * Z.abs (a - (2 ^ 53 - 1) * b) = b) by (rewrite Hm in H1; nia).
        specialize (H2 H). vm_compute in H2. discriminate. }
      assert (HJ2 : J <= 2 ^ 2045) by (apply Z.pow_le_mono_r; lia).
      assert (EK : (2 ^ 54 - 1) * 2 ^ 2045 <= 2 * ((2 ^ 1024 - 2 ^ 970) * 2 ^ 1074)) by (now vm_compute).
      assert (H0 : (2 ^ 54 - 1) * (q * J) <= (2 ^ 54 - 1) * (q * 2 ^ 2045)) by (assert (0 < 2 ^ 54 - 1) by (now vm_compute); nia).
      assert (HU : 0 < 2 ^ 1074) by (now vm_compute).
      set (U := 2 ^ 1074) in *. set (V := 2 ^ 1024 - 2 ^ 970) in *. set (W := (2 ^ 54 - 1) * 2 ^ 2045) in *.
      replace ((2 ^ 54 - 1) * (q * 2 ^ 2045)) with (q * W) in H0 by (unfold W; ring).
      clearbody U V W. nia.
Qed.

Lemma to_near_range neg p q : 0 < p -> 0 < q -> p < q * (2 ^ 1024 - 2 ^ 970) -> exists d, to_near neg p q = Some d.
Proof.
  intros Hp Hq A. unfold to_near. replace (p =? 0) with false by lia.
  set (e := Z.max (-1074) (flog2 p q - 52)).
  assert (He : e <= 971).
  { unfold e. destruct (Z.le_gt_cases (flog2 p q) 1023); [ lia | exfalso ].
    destruct (flog2_spec p q 1074 Hp Hq ltac:(lia) ltac:(lia)) as [ L _ ].
    assert (q * 2 ^ (1024 + 1074) <= q * 2 ^ (flog2 p q + 1074)) by (apply Z.mul_le_mono_nonneg_l; [ lia | apply Z.pow_le_mono_r; lia ]).
    rewrite Z.pow_add_r in H0 by lia. set (H2 := 2 ^ 1074) in *. assert (0 < H2) by (apply Z.pow_pos_nonneg; lia).
    assert (p * H2 < q * 2 ^ 1024 * H2); [ apply Z.mul_lt_mono_pos_r; [ lia | ] | lia ].
    assert (0 < 2 ^ 970) by (apply Z.pow_pos_nonneg; lia). nia. }
  pose proof (scale2_spec p q e 1074 Hq ltac:(unfold e; lia) ltac:(lia)) as S. destruct (scale 2 p q e) as [ a b ]. destruct S as [ Hb S ].
  destruct (rhe_spec a b Hb) as [ R _ ]. replace (971 <? e) with false by lia.
  destruct (Z.eqb_spec (rhe a b) (2 ^ 53)) as [ K | K ]; [ | eauto ].
  destruct (Z.ltb_spec 971 (e + 1)) as [ K2 | K2 ]; [ exfalso | eauto ].
  assert (e = 971) as Ee by lia. clearbody e. subst e. rewrite K in R.
  assert (G : 2 * a < (2 ^ 54 - 1) * b); [ | lia ].
  assert (P1 : 2 ^ (971 + 1074) = 2 ^ 971 * 2 ^ 1074) by (apply Z.pow_add_r; lia). rewrite P1 in S.
  set (H2 := 2 ^ 1074) in *. set (H3 := 2 ^ 970) in *. assert (0 < H2) by (apply Z.pow_pos_nonneg; lia). assert (H3p : 0 < H3) by (apply Z.pow_pos_nonneg; lia).
  replace (2 ^ 971) with (2 * H3) in S by (unfold H3; rewrite <- Z.pow_succ_r by lia; reflexivity).
  replace (2 ^ 1024 - H3) with ((2 ^ 54 - 1) * H3) in A by (unfold H3; rewrite Z.mul_sub_distr_r, <- Z.pow_add_r by lia; change (54 + 970) with 1024; lia).
  assert (S2 : 2 * a * q * H3 = b * p). { apply (Z.mul_reg_r _ _ H2); [ lia | ]. rewrite <- (Z.mul_assoc b p H2), <- S. ring. }
  assert (S3 : 2 * a * (q * H3) < (2 ^ 54 - 1) * b * (q * H3)); [ | assert (0 < q * H3) by nia; nia ].
  replace (2 * a * (q * H3)) with (b * p) by (rewrite <- S2; ring). replace ((2 ^ 54 - 1) * b * (q * H3)) with (b * (q * ((2 ^ 54 - 1) * H3))) by ring. nia.
Qed.
Theorem to_near_spec neg p q d : 0 <= p -> 0 < q -> (to_near neg p q = Some d <-> nearest neg p q d).
Proof.
  intros Hp Hq. split; [ now apply to_near_sound | ]. intros Hn.
  assert (E : exists d', to_near neg p q = Some d').
  { destruct (Z.eq_dec p 0) as [ -> | N ]; [ unfold to_near; cbn; eauto | ]. apply to_near_range; [ lia | exact Hq | ]. destruct Hn as (_ & _ & O & _). exact O. }
  destruct E as (d' & E). rewrite E. f_equal. apply (nearest_unique neg p q d' d Hq); [ now apply to_near_sound | exact Hn ].
Qed.
Theorem to_near_none neg p q : 0 <= p -> 0 < q -> q * (2 ^ 1024 - 2 ^ 970) <= p -> to_near neg p q = None.
Proof.
  intros Hp Hq H. destruct (to_near neg p q) as [ d | ] eqn:E; [ | reflexivity ]. exfalso.
  destruct (to_near_sound neg p q d Hp Hq E) as (_ & _ & O & _). apply Z.lt_nge in O. contradiction.
Qed.
Lemma half_ulp1 neg p q d : 0 < p -> 0 < q -> nearest neg p q d -> 2 * dist p q d <= q * 2 ^ (dexp d + 1074).
Proof.
  intros Hp Hq Hn. pose proof (proj2 (to_near_spec neg p q d ltac:(lia) Hq) Hn) as E. unfold to_near in E.
  replace (p =? 0) with false in E by lia. set (e := Z.max (-1074) (flog2 p q - 52)) in *.
  pose proof (scale2_spec p q e 1074 Hq ltac:(unfold e; lia) ltac:(lia)) as S. destruct (scale 2 p q e) as [ a b ]. destruct S as [ Hb S ].
  destruct (rhe_spec a b Hb) as [ R _ ]. set (m := rhe a b) in *.
  assert (Hpe : 0 < 2 ^ (e + 1074)) by (apply Z.pow_pos_nonneg; unfold e; lia).
  assert (K : 2 * Z.abs (p * 2 ^ 1074 - q * (m * 2 ^ (e + 1074))) <= q * 2 ^ (e + 1074)).
  { set (U := 2 ^ (e + 1074)) in *. set (H := 2 ^ 1074) in *. apply (Z.mul_le_mono_pos_l _ _ b); [ lia | ].
    replace (b * (2 * Z.abs (p * H - q * (m * U)))) with (2 * (Z.abs b * Z.abs (p * H - q * (m * U)))) by (rewrite (Z.abs_eq b) by lia; ring).
    rewrite <- Z.abs_mul. replace (b * (p * H - q * (m * U))) with ((q * U) * (a - m * b)).
    2: { replace (b * (p * H - q * (m * U))) with (b * (p * H) - q * m * U * b) by ring. rewrite <- S. ring. }
    rewrite Z.abs_mul, (Z.abs_eq (q * U)) by nia. nia. }
  destruct (Z.eqb_spec m (2 ^ 53)) as [ Em | Em ].
  - destruct (971 <? e + 1); [ discriminate E | ]. injection E as <-. unfold dist, mag. cbn [dman dexp].
    rewrite Em in K. replace (2 ^ 52 * 2 ^ (e + 1 + 1074)) with (2 ^ 53 * 2 ^ (e + 1074)) by (rewrite <- !Z.pow_add_r by (unfold e; lia); f_equal; lia).
    replace (e + 1 + 1074) with (Z.succ (e + 1074)) by lia. rewrite Z.pow_succ_r by (unfold e; lia). set (U := 2 ^ (e + 1074)) in *. nia.
  - destruct (971 <? e); [ discriminate E | ]. injection E as <-. exact K.
Qed.

(** ** Numbers of six digits come back *)
Lemma near_same neg a j b k d : same_decimal a j b k -> near neg a j d -> near neg b k d.
Proof. intros S A. unfold near in *. pose proof (down_pos j). pose proof (down_pos k). unfold same_decimal in S. apply (nearest_same (a * up j) (down j)); auto. Qed.
Lemma rounds_k6 d n k : is_double d -> rounds6 d n k -> k <= 303.
Proof.
  intros (A & B & _) (R1 & R2 & _). pose proof (up_pos k) as Hu. pose proof (down_pos k) as Hw.
  assert (HM : mag d <= (2 ^ 53 - 1) * 2 ^ 2045).
  { unfold mag. apply Z.mul_le_mono_nonneg; [ lia | lia | apply Z.pow_nonneg; lia | apply Z.pow_le_mono_r; lia ]. }
  set (M := mag d) in *.
  destruct (Z.le_gt_cases 304 k) as [ K3 | K3 ]; [ exfalso | lia ].
  pose proof (up_ge 304 k K3) as G. unfold up at 1, down at 2 in G. change (Z.max 0 304) with 304 in G. change (Z.max 0 (Z.opp 304)) with 0 in G. change (10 ^ 0) with 1 in G.
  assert (N : (2 ^ 53 - 1) * 2 ^ 2045 < 10 ^ 5 * 10 ^ 304 * 2 ^ 1074) by (apply Z.ltb_lt; vm_compute; reflexivity).
  destruct R1 as [ R1 _ ]. set (X := 10 ^ 304) in *. set (W := 2 ^ 1074) in *. set (T := 10 ^ 5) in *. set (Y := (2 ^ 53 - 1) * 2 ^ 2045) in *. assert (0 < T) by reflexivity. assert (0 < W) by reflexivity. clearbody X W T Y M. clear - Hu Hw G N R1 HM H H0.
  assert (T * up k * W > down k * M); [ | lia ]. assert (down k * M <= down k * Y) by nia. assert (down k * Y < down k * (T * X * W)) by nia. assert ((X * down k) * (T * W) <= up k * (T * W)) by nia. nia.
Qed.
Lemma rounds_high6 d n k : is_double d -> rounds6 d n k -> n * up k < down k * (2 ^ 1024 - 2 ^ 970).
Proof.
  intros Hd (R1 & R2 & R3). unfold dist in R3. pose proof Hd as (A & B & _). pose proof (up_pos k) as Hu. pose proof (down_pos k) as Hw.
  assert (HM : mag d <= (2 ^ 53 - 1) * 2 ^ 2045).
  { unfold mag. apply Z.mul_le_mono_nonneg; [ lia | lia | apply Z.pow_nonneg; lia | apply Z.pow_le_mono_r; lia ]. }
  pose proof (rounds_k6 d n k Hd) as RK. unfold rounds6, dist in RK. set (M := mag d) in *.
  destruct (Z.le_gt_cases k 302) as [ K | K ].
  - pose proof (up_ge k 302 K) as G. unfold up at 2, down at 1 in G. change (Z.max 0 302) with 302 in G. change (Z.max 0 (Z.opp 302)) with 0 in G. change (10 ^ 0) with 1 in G.
    assert (N : 10 ^ 6 * 10 ^ 302 < 2 ^ 1024 - 2 ^ 970) by (apply Z.ltb_lt; vm_compute; reflexivity).
    set (X := 10 ^ 302) in *. set (Y := 2 ^ 1024 - 2 ^ 970) in *. set (T := 10 ^ 6) in *. clearbody X Y T M. clear - Hu Hw R2 G N.
    assert (n * up k <= T * up k) by nia. nia.
  - assert (K2 : k = 303) by (specialize (RK (conj R1 (conj R2 R3))); lia).
    subst k. unfold up, down in *. change (Z.max 0 303) with 303 in *. change (Z.max 0 (Z.opp 303)) with 0 in *. change (10 ^ 0) with 1 in *.
    assert (N1 : 2 * ((2 ^ 53 - 1) * 2 ^ 2045) + 10 ^ 303 * 2 ^ 1074 < 359540 * (10 ^ 303 * 2 ^ 1074)) by (apply Z.ltb_lt; vm_compute; reflexivity).
    assert (N2 : 179769 * 10 ^ 303 < 2 ^ 1024 - 2 ^ 970) by (apply Z.ltb_lt; vm_compute; reflexivity).
    assert (0 < 2 ^ 1074) by reflexivity. assert (0 < 10 ^ 303) by reflexivity.
    set (X := 10 ^ 303) in *. set (W := 2 ^ 1074) in *. set (Y := (2 ^ 53 - 1) * 2 ^ 2045) in *. set (O := 2 ^ 1024 - 2 ^ 970) in *. clearbody X W O Y M. clear - R2 R3 HM N1 N2 H H0.
    assert (n <= 179769); [ | nia ].
    assert (P2 : 2 * n * (X * W) < 359540 * (X * W)) by lia. assert (0 < X * W) by nia. assert (2 * n < 359540) by nia. lia.
Qed.
Theorem rounded_near neg d n k : is_double d -> rounds6 d n k -> exists d', near neg n k d'.
Proof.
  intros Hd R. pose proof (rounds_high6 d n k Hd R). destruct R as (_ & R2 & _). pose proof (up_pos k). pose proof (down_pos k).
  assert (0 < n * up k) by (assert (0 < n) by lia; nia).
  destruct (to_near_range neg (n * up k) (down k)) as (d' & E); auto. exists d'. apply to_near_sound; auto; lia.
Qed.
(** The numbers in units of 1 / (2^1074 * down j * down k) *)
Section Units.
  Context (d : double) (D j n k : Z) (R : rounds6 d n k).
  Let H := 2 ^ 1074.
  Let Y := mag d * down j * down k.
  Let U := up k * H * down j.
  Let V := up j * H * down k.
  Lemma units_pos : 0 < U /\ 0 < V.
  Proof.
    clear. pose proof (up_pos j). pose proof (down_pos j). pose proof (up_pos k). pose proof (down_pos k). assert (0 < 2 ^ 1074) by reflexivity.
    unfold U, V. split; (apply Z.mul_pos_pos; [ apply Z.mul_pos_pos | ]; lia).
  Qed.
  Lemma units_range : 10 ^ 5 * U <= Y < 10 ^ 6 * U.
  Proof.
    destruct R as ([ R1 R1' ] & _). unfold U, Y. fold H in R1, R1'. apply (Z.mul_le_mono_pos_r _ _ (down j) (down_pos j)) in R1. apply (Z.mul_lt_mono_pos_r (down j) _ _ (down_pos j)) in R1'.
    replace (10 ^ 5 * (up k * H * down j)) with (10 ^ 5 * up k * H * down j) by ring. replace (10 ^ 6 * (up k * H * down j)) with (10 ^ 6 * up k * H * down j) by ring.
    replace (mag d * down j * down k) with (down k * mag d * down j) by ring. lia.
  Qed.
  Lemma units_n : dist (n * up k) (down k) d * down j = Z.abs (n * U - Y).
  Proof.
    unfold dist, U, Y. fold H. replace (n * (up k * H * down j) - mag d * down j * down k) with ((n * up k * H - down k * mag d) * down j) by ring.
    pose proof (down_pos j). rewrite Z.abs_mul, (Z.abs_eq (down j)) by lia. reflexivity.
  Qed.
  Lemma units_D : dist (D * up j) (down j) d * down k = Z.abs (D * V - Y).
  Proof.
    unfold dist, V, Y. fold H. replace (D * (up j * H * down k) - mag d * down j * down k) with ((D * up j * H - down j * mag d) * down k) by ring.
    pose proof (down_pos k). rewrite Z.abs_mul, (Z.abs_eq (down k)) by lia. reflexivity.
  Qed.
  Lemma units_round : 2 * Z.abs (n * U - Y) <= U.
  Proof. rewrite <- units_n. destruct R as (_ & _ & R3). fold H in R3. apply (Z.mul_le_mono_pos_r _ _ (down j) (down_pos j)) in R3. unfold U. lia. Qed.
  Lemma units_same : D * V = n * U -> same_decimal D j n k.
  Proof.
    intros G. unfold same_decimal. unfold V, U in G. assert (0 < H) by reflexivity. apply (Z.mul_reg_r _ _ H); [ lia | ].
    replace (D * up j * down k * H) with (D * (up j * H * down k)) by ring. rewrite G. ring.
  Qed.
  Lemma units_le : k <= j -> V = 10 ^ (j - k) * U.
  Proof. clear - H U V. intros K. unfold V, U. replace (up j * H * down k) with ((up j * down k) * H) by ring. rewrite (up_down j k K). ring. Qed.
  Lemma units_gt : j < k -> 10 * V <= U.
  Proof.
    clear - H U V. intros K. pose proof (proj2 units_pos). assert (EU : U = 10 ^ (k - j) * V) by (unfold V, U; replace (up k * H * down j) with ((up k * down j) * H) by ring; rewrite (up_down k j) by lia; ring). rewrite EU.
    pose proof (Z.pow_le_mono_r 10 1 (k - j) ltac:(lia) ltac:(lia)). change (10 ^ 1) with 10 in *. apply Z.mul_le_mono_nonneg_r; lia.
  Qed.
  (** D is a multiple of 10^k and less than 10^k away from n *)
  Lemma units_close : k <= j -> 2 * Z.abs (D * V - Y) < U -> same_decimal D j n k.
  Proof.
    intros K C. apply units_same. pose proof (units_le K) as W. pose proof units_round as F. pose proof (proj1 units_pos) as P.
    set (c := D * 10 ^ (j - k)). assert (X : D * V = c * U) by (rewrite W; unfold c; ring). rewrite X in *. f_equal.
    clearbody c U Y. assert (A : 2 * Z.abs ((c - n) * U) < 2 * U) by lia. rewrite Z.abs_mul, (Z.abs_eq U) in A by lia. assert (Z.abs (c - n) < 1) by nia. lia.
  Qed.
End Units.
Lemma round_exact6 neg d D j n k : normal d -> 0 < D < 10 ^ 6 -> near neg D j d -> rounds6 d n k -> same_decimal D j n k.
Proof.
  intros Hd HD Hn R. pose proof (up_pos j) as Uj. pose proof (down_pos j) as Dj. pose proof (down_pos k) as Dk.
  pose proof (half_ulp1 neg (D * up j) (down j) d ltac:(nia) Dj Hn) as E.
  assert (E2 : 2 ^ 53 * dist (D * up j) (down j) d <= down j * mag d).
  { destruct Hd as [ (A & B & _) C ]. unfold mag. pose proof (Z.pow_pos_nonneg 2 (dexp d + 1074) ltac:(lia) ltac:(lia)). set (U := 2 ^ (dexp d + 1074)) in *.
    transitivity (2 ^ 52 * (down j * U)); [ lia | ]. replace (down j * (dman d * U)) with (dman d * (down j * U)) by ring. apply Z.mul_le_mono_nonneg_r; nia. }
  clear E. apply (Z.mul_le_mono_pos_r _ _ (down k) Dk) in E2. rewrite <- Z.mul_assoc, (units_D d D j k) in E2.
  replace (down j * mag d * down k) with (mag d * down j * down k) in E2 by ring.
  pose proof (units_range d j n k R) as F1. pose proof (units_pos j k) as [ U0 V0 ].
  destruct (Z.le_gt_cases k j) as [ K | K ].
  - apply (units_close d D j n k R K). set (Y := mag d * down j * down k) in *. lia.
  - exfalso. pose proof (units_gt j k K) as W. set (Y := mag d * down j * down k) in *. set (U := up k * 2 ^ 1074 * down j) in *. set (V := up j * 2 ^ 1074 * down k) in *.
    clearbody U Y V. clear - F1 E2 W V0 HD. assert (D * V <= (10 ^ 6 - 1) * V) by nia. lia.
Qed.
(** Numbers with the smallest exponent are all integers apart *)
Lemma grid_near neg p q d : is_double d -> dexp d = -1074 -> dneg d = neg -> 0 < q -> p < q * (2 ^ 1024 - 2 ^ 970) -> 2 * dist p q d < q -> nearest neg p q d.
Proof.
  intros Hd Ed En Hq O C. assert (G : forall d', mag d' <> mag d -> dist p q d < dist p q d').
  { intros d' N. unfold dist in *. set (M := mag d) in *. set (M' := mag d') in *. set (P := p * 2 ^ 1074) in *.
    assert (q <= Z.abs (q * M' - q * M)). { replace (q * M' - q * M) with (q * (M' - M)) by ring. rewrite Z.abs_mul, (Z.abs_eq q) by lia. nia. } lia. }
  split; [ exact Hd | ]. split; [ exact En | ]. split; [ exact O | ]. split.
  - intros d' _. destruct (Z.eq_dec (mag d') (mag d)) as [ E | N ]; [ unfold dist; rewrite E; lia | pose proof (G d' N); lia ].
  - intros d' _ E N. pose proof (G d' N). lia.
Qed.
Lemma pow10_not k : up k * 2 ^ 1074 <> down k.
Proof.
  unfold up, down. destruct (Z.le_gt_cases 0 k) as [ K | K ].
  - rewrite (Z.max_l 0 (- k)) by lia. rewrite (Z.max_r 0 k) by lia. pose proof (Z.pow_pos_nonneg 10 k ltac:(lia) K). assert (1 < 2 ^ 1074) by reflexivity. change (10 ^ 0) with 1. set (X := 2 ^ 1074) in *. clearbody X. nia.
  - rewrite (Z.max_r 0 (- k)), (Z.max_l 0 k) by lia. change (10 ^ 0) with 1. rewrite Z.mul_1_l. intros E.
    apply (f_equal (fun z => z mod 5)) in E. replace (- k) with (Z.succ (- k - 1)) in E by lia. rewrite Z.pow_succ_r in E by lia.
    replace (10 * 10 ^ (- k - 1)) with (2 * 10 ^ (- k - 1) * 5) in E by ring. rewrite Z.mod_mul in E by lia. vm_compute in E. discriminate E.
Qed.
Lemma round_near6 d D j n k : is_double d -> 0 < D < 10 ^ 6 -> near (dneg d) D j d -> rounds6 d n k -> near (dneg d) n k d.
Proof.
  intros Hd HD Hn R. destruct (Z.eq_dec (dexp d) (-1074)) as [ Ed | Ed ].
  2: { assert (N : normal d) by (split; [ exact Hd | destruct Hd as (_ & _ & [ C | C ]); [ exact C | contradiction ] ]).
       exact (near_same _ _ _ _ _ _ (round_exact6 _ d D j n k N HD Hn R) Hn). }
  pose proof (up_pos j) as Uj. pose proof (down_pos j) as Dj. pose proof (up_pos k) as Uk. pose proof (down_pos k) as Dk.
  pose proof (half_ulp1 _ (D * up j) (down j) d ltac:(nia) Dj Hn) as E. rewrite Ed in E. change (2 ^ (-1074 + 1074)) with 1 in E. rewrite Z.mul_1_r in E.
  pose proof (rounds_high6 d n k Hd R) as O. pose proof (pow10_not k) as N.
  assert (GN : 2 * dist (n * up k) (down k) d < down k -> near (dneg d) n k d) by (intros G; apply grid_near; auto).
  destruct (Z.lt_trichotomy (up k * 2 ^ 1074) (down k)) as [ L | [ L | L ] ]; [ | contradiction | ].
  - apply GN. destruct R as (_ & _ & R3). exact (Z.le_lt_trans _ _ _ R3 L).
  - apply (Z.mul_le_mono_pos_r _ _ (down k) Dk) in E. rewrite <- Z.mul_assoc, (units_D d D j k) in E.
    assert (LU : down j * down k < up k * 2 ^ 1074 * down j) by (rewrite (Z.mul_comm _ (down j)); apply Z.mul_lt_mono_pos_l; [ exact Dj | exact L ]).
    destruct (Z.le_gt_cases k j) as [ K | K ].
    + apply (near_same _ D j); [ | exact Hn ]. apply (units_close d D j n k R K). lia.
    + apply GN. apply (Z.mul_lt_mono_pos_r (down j) _ _ Dj). rewrite <- Z.mul_assoc, (units_n d j n k).
      pose proof (units_range d j n k R) as F1. pose proof (units_pos j k) as [ U0 V0 ]. pose proof (units_gt j k K) as W. pose proof (units_round d j n k R) as F3.
      destruct R as (_ & R2 & _). set (Y := mag d * down j * down k) in *. set (U := up k * 2 ^ 1074 * down j) in *. set (V := up j * 2 ^ 1074 * down k) in *. set (q := down j * down k) in *.
      rewrite (Z.mul_comm (down k) (down j)). fold q. clearbody U Y V q. clear - F1 F3 E W V0 U0 HD R2 LU.
      assert (D * V <= (10 ^ 6 - 1) * V) by nia. assert (D * V < 10 ^ 5 * U) by lia.
      assert (Z.abs (n * U - Y) <= Z.abs (10 ^ 5 * U - Y)); [ | lia ].
      destruct (Z.eq_dec n (10 ^ 5)) as [ -> | Nn ]; [ lia | ]. assert ((10 ^ 5 + 1) * U <= n * U) by nia. lia.
Qed.
