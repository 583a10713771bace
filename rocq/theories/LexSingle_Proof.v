(** Proofs about floats as text. *)
From Verif Require Import Common CommonLemmas NumText_Model NumText_Proof Double_Model Double_Spec Double_Proof Json_Model Json_Spec JsonFloat_Spec JsonFloat_Proof
  Single_Model Single_Spec Single_Proof LexFloat_Spec LexFloat_Model LexFloat_Proof LexFloatRead_Proof LexSingle_Model LexSingle_Spec.
From Verif Require Cast_Model.
Local Open Scope Z_scope.

(** ** The double of a float *)
Lemma p1074 : 2 ^ 1074 = 2 ^ 149 * 2 ^ 925.
Proof. reflexivity. Qed.
Lemma p925 : 0 < 2 ^ 925.
Proof. reflexivity. Qed.
Lemma dist_widen p q f : is_single f -> fman f <> 0 -> dist p q (widen f) = sdist p q f * 2 ^ 925.
Proof.
  intros Hf N. destruct (widen_spec f Hf N) as (_ & _ & M). unfold dist, sdist. rewrite M, p1074. pose proof p925 as P. revert P. generalize (2 ^ 925), (2 ^ 149). intros X Y P.
  replace (p * (Y * X) - q * (smag f * X)) with ((p * Y - q * smag f) * X) by ring. rewrite Z.abs_mul, (Z.abs_eq X) by lia. reflexivity.
Qed.
Lemma rounds_widen f n k : is_single f -> fman f <> 0 -> rounds6 (widen f) n k <-> srounds6 f n k.
Proof.
  intros Hf N. unfold rounds6, srounds6. rewrite (dist_widen _ _ f Hf N). destruct (widen_spec f Hf N) as (_ & _ & ->). rewrite p1074. pose proof p925 as P. revert P. generalize (2 ^ 925), (2 ^ 149). intros X Y P.
  generalize (sdist (n * up k) (down k) f). intros s. generalize (smag f), (up k), (down k). intros m u w.
  replace (10 ^ 5 * u * (Y * X)) with (10 ^ 5 * u * Y * X) by ring. replace (10 ^ 6 * u * (Y * X)) with (10 ^ 6 * u * Y * X) by ring. replace (w * (m * X)) with (w * m * X) by ring.
  replace (2 * (s * X)) with (2 * s * X) by ring. replace (u * (Y * X)) with (u * Y * X) by ring.
  rewrite <- !(Z.mul_le_mono_pos_r _ _ X P), <- (Z.mul_lt_mono_pos_r X _ _ P). reflexivity.
Qed.

(** ** Rounding *)
Lemma half_ulp_s neg p q f : 0 < p -> 0 < q -> nearest_single neg p q f -> 2 * sdist p q f <= q * 2 ^ (fexp f + 149).
Proof.
  intros Hp Hq Hn. pose proof (proj2 (narrow_spec neg p q f ltac:(lia) Hq) Hn) as E. unfold narrow in E.
  replace (p =? 0) with false in E by lia. set (e := Z.max (-149) (flog2 p q - 23)) in *.
  pose proof (scale2_spec p q e 149 Hq ltac:(unfold e; lia) ltac:(lia)) as S. destruct (scale 2 p q e) as [ a b ]. destruct S as [ Hb S ].
  destruct (rhe_spec a b Hb) as [ R _ ]. set (m := rhe a b) in *.
  assert (Hpe : 0 < 2 ^ (e + 149)) by (apply Z.pow_pos_nonneg; unfold e; lia).
  assert (K : 2 * Z.abs (p * 2 ^ 149 - q * (m * 2 ^ (e + 149))) <= q * 2 ^ (e + 149)).
  { set (U := 2 ^ (e + 149)) in *. set (H := 2 ^ 149) in *. apply (Z.mul_le_mono_pos_l _ _ b); [ lia | ].
    replace (b * (2 * Z.abs (p * H - q * (m * U)))) with (2 * (Z.abs b * Z.abs (p * H - q * (m * U)))) by (rewrite (Z.abs_eq b) by lia; ring).
    rewrite <- Z.abs_mul. replace (b * (p * H - q * (m * U))) with ((q * U) * (a - m * b)).
    2: { replace (b * (p * H - q * (m * U))) with (b * (p * H) - q * m * U * b) by ring. rewrite <- S. ring. }
    rewrite Z.abs_mul, (Z.abs_eq (q * U)) by nia. nia. }
  destruct (Z.eqb_spec m (2 ^ 24)) as [ Em | Em ].
  - destruct (104 <? e + 1); [ discriminate E | ]. injection E as <-. unfold sdist, smag. cbn [fman fexp].
    rewrite Em in K. replace (2 ^ 23 * 2 ^ (e + 1 + 149)) with (2 ^ 24 * 2 ^ (e + 149)) by (rewrite <- !Z.pow_add_r by (unfold e; lia); f_equal; lia).
    replace (e + 1 + 149) with (Z.succ (e + 149)) by lia. rewrite Z.pow_succ_r by (unfold e; lia). set (U := 2 ^ (e + 149)) in *. nia.
  - destruct (104 <? e); [ discriminate E | ]. injection E as <-. exact K.
Qed.
Lemma near_single_same neg a j b k f : same_decimal a j b k -> near_single neg a j f -> near_single neg b k f.
Proof. intros S A. unfold near_single in *. pose proof (down_pos j). pose proof (down_pos k). unfold same_decimal in S. apply (nearest_scale _ (a * up j) (down j)); auto. Qed.
Lemma smag_le f : is_single f -> smag f <= (2 ^ 24 - 1) * 2 ^ 253.
Proof. intros (A & B & _). unfold smag. apply Z.mul_le_mono_nonneg; [ lia | lia | apply Z.pow_nonneg; lia | apply Z.pow_le_mono_r; lia ]. Qed.
Lemma rounds_ks f n k : is_single f -> srounds6 f n k -> k <= 33.
Proof.
  intros Hf (R1 & _). pose proof (up_pos k) as Hu. pose proof (down_pos k) as Hw. pose proof (smag_le f Hf) as HM. set (M := smag f) in *.
  destruct (Z.le_gt_cases 34 k) as [ K3 | K3 ]; [ exfalso | lia ].
  pose proof (up_ge 34 k K3) as G. unfold up at 1, down at 2 in G. change (Z.max 0 34) with 34 in G. change (Z.max 0 (Z.opp 34)) with 0 in G. change (10 ^ 0) with 1 in G.
  assert (N : (2 ^ 24 - 1) * 2 ^ 253 < 10 ^ 5 * 10 ^ 34 * 2 ^ 149) by (apply Z.ltb_lt; vm_compute; reflexivity).
  destruct R1 as [ R1 _ ]. set (X := 10 ^ 34) in *. set (W := 2 ^ 149) in *. set (T := 10 ^ 5) in *. set (Y := (2 ^ 24 - 1) * 2 ^ 253) in *. assert (0 < T) by reflexivity. assert (0 < W) by reflexivity. clearbody X W T Y M. clear - Hu Hw G N R1 HM H H0.
  assert (T * up k * W > down k * M); [ | lia ]. assert (down k * M <= down k * Y) by nia. assert (down k * Y < down k * (T * X * W)) by nia. assert ((X * down k) * (T * W) <= up k * (T * W)) by nia. nia.
Qed.
Lemma rounds_highs f n k : is_single f -> srounds6 f n k -> n * up k < down k * (2 ^ 128 - 2 ^ 103).
Proof.
  intros Hf R. pose proof (rounds_ks f n k Hf R) as RK. destruct R as (R1 & R2 & R3). unfold sdist in R3. pose proof (up_pos k) as Hu. pose proof (down_pos k) as Hw.
  pose proof (smag_le f Hf) as HM. set (M := smag f) in *.
  destruct (Z.le_gt_cases k 32) as [ K | K ].
  - pose proof (up_ge k 32 K) as G. unfold up at 2, down at 1 in G. change (Z.max 0 32) with 32 in G. change (Z.max 0 (Z.opp 32)) with 0 in G. change (10 ^ 0) with 1 in G.
    assert (N : 10 ^ 6 * 10 ^ 32 < 2 ^ 128 - 2 ^ 103) by (apply Z.ltb_lt; vm_compute; reflexivity).
    set (X := 10 ^ 32) in *. set (Y := 2 ^ 128 - 2 ^ 103) in *. set (T := 10 ^ 6) in *. clearbody X Y T M. clear - Hu Hw R2 G N.
    assert (n * up k <= T * up k) by nia. nia.
  - assert (K2 : k = 33) by lia.
    subst k. unfold up, down in *. change (Z.max 0 33) with 33 in *. change (Z.max 0 (Z.opp 33)) with 0 in *. change (10 ^ 0) with 1 in *.
    assert (N1 : 2 * ((2 ^ 24 - 1) * 2 ^ 253) + 10 ^ 33 * 2 ^ 149 < 680566 * (10 ^ 33 * 2 ^ 149)) by (apply Z.ltb_lt; vm_compute; reflexivity).
    assert (N2 : 340282 * 10 ^ 33 < 2 ^ 128 - 2 ^ 103) by (apply Z.ltb_lt; vm_compute; reflexivity).
    assert (0 < 2 ^ 149) by reflexivity. assert (0 < 10 ^ 33) by reflexivity.
    set (X := 10 ^ 33) in *. set (W := 2 ^ 149) in *. set (Y := (2 ^ 24 - 1) * 2 ^ 253) in *. set (O := 2 ^ 128 - 2 ^ 103) in *. clearbody X W O Y M. clear - R2 R3 HM N1 N2 H H0.
    assert (n <= 340282); [ | nia ].
    assert (P2 : 2 * n * (X * W) < 680566 * (X * W)) by lia. assert (0 < X * W) by nia. assert (2 * n < 680566) by nia. lia.
Qed.
Theorem rounded_near_s neg f n k : is_single f -> srounds6 f n k -> exists g, near_single neg n k g.
Proof.
  intros Hf R. pose proof (rounds_highs f n k Hf R). destruct R as (_ & R2 & _). pose proof (up_pos k). pose proof (down_pos k).
  assert (0 < n * up k) by (assert (0 < n) by lia; nia).
  destruct (narrow_range neg (n * up k) (down k)) as (g & E); auto. exists g. apply narrow_sound; auto; lia.
Qed.
Lemma round_exact_s neg f D j n k : is_single f -> 2 ^ 23 <= fman f -> 0 < D < 10 ^ 6 -> near_single neg D j f -> srounds6 f n k -> same_decimal D j n k.
Proof.
  intros Hf Nf HD Hn R. assert (Nz : fman f <> 0) by lia. pose proof (proj2 (rounds_widen f n k Hf Nz) R) as RW. pose proof (up_pos j) as Uj. pose proof (down_pos j) as Dj. pose proof (down_pos k) as Dk.
  pose proof (half_ulp_s neg (D * up j) (down j) f ltac:(nia) Dj Hn) as E.
  assert (E2 : 2 ^ 24 * sdist (D * up j) (down j) f <= down j * smag f).
  { destruct Hf as (A & B & _). unfold smag. pose proof (Z.pow_pos_nonneg 2 (fexp f + 149) ltac:(lia) ltac:(lia)). set (U := 2 ^ (fexp f + 149)) in *.
    transitivity (2 ^ 23 * (down j * U)); [ lia | ]. replace (down j * (fman f * U)) with (fman f * (down j * U)) by ring. apply Z.mul_le_mono_nonneg_r; nia. }
  assert (E3 : 2 ^ 24 * dist (D * up j) (down j) (widen f) <= down j * mag (widen f)).
  { rewrite (dist_widen _ _ f Hf Nz). destruct (widen_spec f Hf Nz) as (_ & _ & ->). apply (Z.mul_le_mono_pos_r _ _ (2 ^ 925) p925) in E2. rewrite !Z.mul_assoc. exact E2. }
  clear E E2. apply (Z.mul_le_mono_pos_r _ _ (down k) Dk) in E3. rewrite <- Z.mul_assoc, (units_D (widen f) D j k) in E3.
  replace (down j * mag (widen f) * down k) with (mag (widen f) * down j * down k) in E3 by ring.
  pose proof (units_range (widen f) j n k RW) as F1. pose proof (units_pos j k) as [ U0 V0 ].
  destruct (Z.le_gt_cases k j) as [ K | K ].
  - apply (units_close (widen f) D j n k RW K). set (Y := mag (widen f) * down j * down k) in *. lia.
  - exfalso. pose proof (units_gt j k K) as W. set (Y := mag (widen f) * down j * down k) in *. set (U := up k * 2 ^ 1074 * down j) in *. set (V := up j * 2 ^ 1074 * down k) in *.
    clearbody U Y V. clear - F1 E3 W V0 HD. assert (D * V <= (10 ^ 6 - 1) * V) by nia. lia.
Qed.
(** Numbers with the smallest exponent are all integers apart *)
Lemma grid_near_s neg p q f : is_single f -> fexp f = -149 -> fneg f = neg -> 0 < q -> p < q * (2 ^ 128 - 2 ^ 103) -> 2 * sdist p q f < q -> nearest_single neg p q f.
Proof.
  intros Hd Ed En Hq O C. assert (G : forall d', smag d' <> smag f -> sdist p q f < sdist p q d').
  { intros d' N. unfold sdist in *. set (M := smag f) in *. set (M' := smag d') in *. set (P := p * 2 ^ 149) in *.
    assert (q <= Z.abs (q * M' - q * M)). { replace (q * M' - q * M) with (q * (M' - M)) by ring. rewrite Z.abs_mul, (Z.abs_eq q) by lia. nia. } lia. }
  split; [ exact Hd | ]. split; [ exact En | ]. split; [ exact O | ]. split.
  - intros d' _. destruct (Z.eq_dec (smag d') (smag f)) as [ E | N ]; [ unfold sdist; rewrite E; lia | pose proof (G d' N); lia ].
  - intros d' _ E N. pose proof (G d' N). lia.
Qed.
Lemma pow10_not_s k : up k * 2 ^ 149 <> down k.
Proof.
  unfold up, down. destruct (Z.le_gt_cases 0 k) as [ K | K ].
  - rewrite (Z.max_l 0 (- k)) by lia. rewrite (Z.max_r 0 k) by lia. pose proof (Z.pow_pos_nonneg 10 k ltac:(lia) K). assert (1 < 2 ^ 149) by reflexivity. change (10 ^ 0) with 1. set (X := 2 ^ 149) in *. clearbody X. nia.
  - rewrite (Z.max_r 0 (- k)), (Z.max_l 0 k) by lia. change (10 ^ 0) with 1. rewrite Z.mul_1_l. intros E.
    apply (f_equal (fun z => z mod 5)) in E. replace (- k) with (Z.succ (- k - 1)) in E by lia. rewrite Z.pow_succ_r in E by lia.
    replace (10 * 10 ^ (- k - 1)) with (2 * 10 ^ (- k - 1) * 5) in E by ring. rewrite Z.mod_mul in E by lia. vm_compute in E. discriminate E.
Qed.
Lemma round_near_s f D j n k : is_single f -> fman f <> 0 -> 0 < D < 10 ^ 6 -> near_single (fneg f) D j f -> srounds6 f n k -> near_single (fneg f) n k f.
Proof.
  intros Hf Nz HD Hn R. destruct (Z.eq_dec (fexp f) (-149)) as [ Ed | Ed ].
  2: { assert (N : 2 ^ 23 <= fman f) by (destruct Hf as (_ & _ & [ C | C ]); [ exact C | contradiction ]).
       exact (near_single_same _ _ _ _ _ _ (round_exact_s _ f D j n k Hf N HD Hn R) Hn). }
  pose proof (up_pos j) as Uj. pose proof (down_pos j) as Dj. pose proof (up_pos k) as Uk. pose proof (down_pos k) as Dk.
  pose proof (half_ulp_s _ (D * up j) (down j) f ltac:(nia) Dj Hn) as E. rewrite Ed in E. change (2 ^ (-149 + 149)) with 1 in E. rewrite Z.mul_1_r in E.
  pose proof (rounds_highs f n k Hf R) as O. pose proof (pow10_not_s k) as N.
  assert (GN : 2 * sdist (n * up k) (down k) f < down k -> near_single (fneg f) n k f) by (intros G; apply grid_near_s; auto).
  destruct (Z.lt_trichotomy (up k * 2 ^ 149) (down k)) as [ L | [ L | L ] ]; [ | contradiction | ].
  - apply GN. destruct R as (_ & _ & R3). exact (Z.le_lt_trans _ _ _ R3 L).
  - pose proof (proj2 (rounds_widen f n k Hf Nz) R) as RW.
    assert (E' : 2 * dist (D * up j) (down j) (widen f) <= down j * 2 ^ 925) by (rewrite (dist_widen _ _ f Hf Nz), Z.mul_assoc; apply Z.mul_le_mono_nonneg_r; [ discriminate | exact E ]).
    assert (L' : down k * 2 ^ 925 < up k * 2 ^ 1074) by (rewrite p1074, Z.mul_assoc; apply Z.mul_lt_mono_pos_r; [ exact p925 | exact L ]).
    apply (Z.mul_le_mono_pos_r _ _ (down k) Dk) in E'. rewrite <- Z.mul_assoc, (units_D (widen f) D j k) in E'.
    assert (LU : down j * 2 ^ 925 * down k < up k * 2 ^ 1074 * down j).
    { replace (down j * 2 ^ 925 * down k) with (down j * (down k * 2 ^ 925)) by ring. rewrite (Z.mul_comm _ (down j)). apply Z.mul_lt_mono_pos_l; [ exact Dj | exact L' ]. }
    destruct (Z.le_gt_cases k j) as [ K | K ].
    + apply (near_single_same _ D j); [ | exact Hn ]. apply (units_close (widen f) D j n k RW K). lia.
    + apply GN. assert (G : 2 * dist (n * up k) (down k) (widen f) < down k * 2 ^ 925).
      2: { rewrite (dist_widen _ _ f Hf Nz), Z.mul_assoc in G. apply (Z.mul_lt_mono_pos_r (2 ^ 925) _ _ p925). exact G. }
      apply (Z.mul_lt_mono_pos_r (down j) _ _ Dj). rewrite <- Z.mul_assoc, (units_n (widen f) j n k).
      pose proof (units_range (widen f) j n k RW) as F1. pose proof (units_pos j k) as [ U0 V0 ]. pose proof (units_gt j k K) as W. pose proof (units_round (widen f) j n k RW) as F3.
      destruct R as (_ & R2 & _). set (Y := mag (widen f) * down j * down k) in *. set (U := up k * 2 ^ 1074 * down j) in *. set (V := up j * 2 ^ 1074 * down k) in *.
      replace (down k * 2 ^ 925 * down j) with (down j * 2 ^ 925 * down k) by ring. set (q := down j * 2 ^ 925 * down k) in *. clearbody U Y V q. clear - F1 F3 E' W V0 U0 HD R2 LU.
      assert (D * V <= (10 ^ 6 - 1) * V) by nia. assert (D * V < 10 ^ 5 * U) by lia.
      assert (Z.abs (n * U - Y) <= Z.abs (10 ^ 5 * U - Y)); [ | lia ].
      destruct (Z.eq_dec n (10 ^ 5)) as [ -> | Nn ]; [ lia | ]. assert ((10 ^ 5 + 1) * U <= n * U) by nia. lia.
Qed.

(** ** Reading *)
Lemma dec_fraction (neg : bool) D k : dec_single neg D k = narrow neg (D * up k) (down k).
Proof.
  unfold dec_single, up, down. destruct (Z.leb_spec 0 k).
  - rewrite (Z.max_r 0 k), (Z.max_l 0 (- k)) by lia. reflexivity.
  - rewrite (Z.max_l 0 k), (Z.max_r 0 (- k)) by lia. change (10 ^ 0) with 1. rewrite Z.mul_1_r. reflexivity.
Qed.
Lemma dec_single_spec neg D j f : 0 <= D -> (dec_single neg D j = SFin f <-> near_single neg D j f).
Proof. intros H. rewrite dec_fraction. pose proof (up_pos j). apply narrow_spec; [ nia | apply down_pos ]. Qed.
Lemma dec_single_inf neg D j : 0 <= D -> (dec_single neg D j = SInf neg <-> too_large_single D j).
Proof. intros H. rewrite dec_fraction. pose proof (up_pos j). apply narrow_inf; [ nia | apply down_pos ]. Qed.
Theorem fread_text w t neg D j r : Forall blank w -> float_text t neg D j -> stops r -> extract_f (w ++ t ++ r) = match dec_single neg D j with SFin f => Some (SFin f) | _ => None end.
Proof. intros Hw Ht Hr. unfold extract_f. rewrite (skip_blanks w (t ++ r) Hw (text_head t neg D j r Ht)), (parse_text t neg D j r Ht Hr). reflexivity. Qed.
Theorem fread_sound s v : extract_f s = Some v -> exists w t r neg D j f, s = w ++ t ++ r /\ Forall blank w /\ float_text t neg D j /\ v = SFin f /\ near_single neg D j f.
Proof.
  unfold extract_f. intros E. destruct (skip_split s) as (w & Es & Hw). destruct (parse_all (collect (Cast_Model.skip_ws s))) as [ [ [ neg D ] j ] | ] eqn:Ep; [ | discriminate ].
  destruct (text_parse _ _ _ _ Ep) as (t & r & Et & Ht). destruct (dec_single neg D j) as [ f | | ] eqn:Ed; try discriminate. injection E as <-.
  exists w, t, r, neg, D, j, f. rewrite <- Et, <- Es. split; [ reflexivity | ]. split; [ exact Hw | ]. split; [ exact Ht | ]. split; [ reflexivity | ]. apply dec_single_spec; [ exact (text_nonneg _ _ _ _ Ht) | exact Ed ].
Qed.
Lemma fread_all t neg D j : float_text t neg D j -> extract_f t = match dec_single neg D j with SFin f => Some (SFin f) | _ => None end.
Proof. intros H. pose proof (fread_text [] t neg D j [] (Forall_nil _) H I) as E. rewrite app_nil_r in E. exact E. Qed.
Theorem fprint_text f : is_single f -> fman f <> 0 -> exists n k D j, srounds6 f n k /\ float_text (insert_f (SFin f)) (fneg f) D j /\ same_decimal D j n k.
Proof.
  intros Hf N. destruct (widen_spec f Hf N) as ([ Hd Hm ] & Sg & _). destruct (print_text (widen f) Hd ltac:(lia)) as (n & k & D & j & R & T & S).
  exists n, k, D, j. rewrite <- (rounds_widen f n k Hf N), <- Sg. auto.
Qed.
Lemma widen_zero f : fman f = 0 -> widen f = mkD (fneg f) 0 (-1074).
Proof. intros E. unfold widen. rewrite E. reflexivity. Qed.
Lemma fzero_text f : fman f = 0 -> insert_f (SFin f) = (if fneg f then str "-0" else str "0").
Proof. intros E. cbn [insert_f]. rewrite (widen_zero f E). destruct (fneg f); reflexivity. Qed.
Lemma fzero_eq f : is_single f -> fman f = 0 -> f = mkF (fneg f) 0 (-149).
Proof. intros (A & B & [ C | C ]) E; [ lia | ]. destruct f as [ s m e ]. cbn [fman fexp fneg] in *. congruence. Qed.
Theorem fback neg f n k : is_single f -> srounds6 f n k -> forall t D j, float_text t neg D j -> same_decimal D j n k -> exists g, near_single neg n k g /\ extract_f t = Some (SFin g).
Proof.
  intros Hf R t D j T S. destruct (rounded_near_s neg f n k Hf R) as (g & G). exists g. split; [ exact G | ]. rewrite (fread_all t neg D j T).
  rewrite (proj2 (dec_single_spec neg D j g (text_nonneg _ _ _ _ T)) (near_single_same _ _ _ _ _ _ (same_sym _ _ _ _ S) G)). reflexivity.
Qed.
Lemma near_single_unique neg D j f g : near_single neg D j f -> near_single neg D j g -> f = g.
Proof. apply snearest_unique, down_pos. Qed.
Lemma six_single_again neg f n k : 10 ^ 5 <= n <= 10 ^ 6 -> near_single neg n k f -> six_single f.
Proof.
  intros H N. assert (En : fneg f = neg) by (unfold near_single, nearest_single in N; tauto). unfold six_single. rewrite En.
  destruct (Z.eq_dec n (10 ^ 6)) as [ -> | Hne ]; [ | exists n, k; split; [ lia | exact N ] ].
  exists (10 ^ 5), (k + 1). split; [ lia | ]. apply (near_single_same _ (10 ^ 6) k); [ | exact N ].
  pose proof (same_shift (10 ^ 5) (k + 1) 1 ltac:(lia)) as Q. replace (k + 1 - 1) with k in Q by lia. exact Q.
Qed.
Lemma near_zero_s neg : near_single neg 0 0 (mkF neg 0 (-149)).
Proof. apply dec_single_spec; [ lia | reflexivity ]. Qed.
Theorem fkept f : is_single f -> (extract_f (insert_f (SFin f)) = Some (SFin f) <-> six_single f).
Proof.
  intros Hf. destruct (Z.eq_dec (fman f) 0) as [ Z0 | N ].
  - pose proof (fzero_eq f Hf Z0) as E. split.
    + intros _. exists 0, 0. split; [ lia | ]. rewrite E at 2. apply near_zero_s.
    + intros _. rewrite (fzero_text f Z0), E. cbn [fneg]. destruct (fneg f); vm_compute; reflexivity.
  - destruct (fprint_text f Hf N) as (n & k & D & j & R & T & S). destruct (fback (fneg f) f n k Hf R _ D j T S) as (g & G & E). rewrite E. split.
    + intros X. injection X as ->. exact (six_single_again _ f n k (proj1 (proj2 R)) G).
    + intros (D' & j' & HD & Hn). f_equal. f_equal. destruct (Z.eq_dec D' 0) as [ -> | ND ].
      * exfalso. apply N. assert (f = mkF (fneg f) 0 (-149)) as ->; [ | reflexivity ]. apply (near_single_unique (fneg f) 0 j'); [ exact Hn | ].
        apply (near_single_same _ 0 0); [ unfold same_decimal; ring | apply near_zero_s ].
      * apply (near_single_unique (fneg f) n k); [ exact G | ]. apply (round_near_s f D' j'); auto. lia.
Qed.
