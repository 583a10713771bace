(** Proofs about doubles in PostgreSQL columns. *)
From Verif Require Import Common CommonLemmas NumText_Model NumText_Proof Double_Model Double_Spec Double_Proof Json_Spec JsonParse_Proof JsonComplete_Proof JsonFloat_Spec JsonFloat_Proof LexFloat_Spec LexFloat_Model LexFloat_Proof LexFloatRead_Proof.
From Verif Require Import Db_Model Pg_Spec Pg_Model Pg_Proof PgFloat_Spec PgFloat_Model.
Local Open Scope Z_scope.

Lemma places_digits k n : Forall digit (places k n).
Proof. revert n. induction k as [ | k IH ]; intros n; [ constructor | ]. cbn [places]. apply Forall_app. split; [ apply IH | ]. constructor; [ | constructor ]. unfold digit. pose proof (Z.mod_pos_bound n 10). lia. Qed.
Lemma places_length k n : length (places k n) = k.
Proof. revert n. induction k as [ | k IH ]; intros n; [ reflexivity | ]. cbn [places]. rewrite app_length, IH. cbn [length]. lia. Qed.
Lemma num_snoc l c : num (l ++ [c]) = 10 * num l + (c - 48).
Proof. unfold num. rewrite fold_left_app. reflexivity. Qed.
Lemma num_places k : forall n l, 0 <= n < 10 ^ Z.of_nat k -> num (l ++ places k n) = num l * 10 ^ Z.of_nat k + n.
Proof.
  induction k as [ | k IH ]; intros n l H; [ cbn [places]; rewrite app_nil_r; change (10 ^ Z.of_nat 0) with 1 in *; lia | ].
  cbn [places]. rewrite app_assoc, num_snoc. rewrite Nat2Z.inj_succ, Z.pow_succ_r in * by lia.
  pose proof (Z.div_mod n 10 ltac:(lia)) as E. pose proof (Z.mod_pos_bound n 10 ltac:(lia)). set (a := n / 10) in *. set (b := n mod 10) in *. clearbody a b.
  rewrite IH by lia. set (X := 10 ^ Z.of_nat k) in *. clearbody X. subst n. replace (48 + b - 48) with b by lia. ring.
Qed.
Lemma digit_of c : isdigit c = true -> digit c.
Proof. unfold isdigit, digit. lia. Qed.
Lemma fixed_text (neg : bool) n : 0 <= n -> float_text ((if neg then str "-" else []) ++ dec_text (n / 10 ^ 10) ++ str "." ++ places 10 (n mod 10 ^ 10)) neg n (-10).
Proof.
  intros Hn. set (a := n / 10 ^ 10). set (b := n mod 10 ^ 10). assert (Ha : 0 <= a) by (apply Z.div_pos; lia).
  assert (Hb : 0 <= b < 10 ^ 10) by (apply Z.mod_pos_bound; lia).
  assert (E : n = num (dec_text a ++ places 10 b)).
  { rewrite num_places by (change (10 ^ Z.of_nat 10) with (10 ^ 10); exact Hb). rewrite num_dec, dec_text_val by exact Ha. change (10 ^ Z.of_nat 10) with (10 ^ 10).
    unfold a, b. pose proof (Z.div_mod n (10 ^ 10) ltac:(lia)). lia. }
  replace (places 10 b) with (places 10 b ++ []) at 1 by apply app_nil_r. rewrite E. replace (-10) with (0 - Z.of_nat (length (places 10 b))) by (rewrite places_length; reflexivity).
  apply fx.
  - destruct neg; constructor.
  - eapply Forall_impl; [ | apply dec_text_digits, Ha ]. intros c. apply digit_of.
  - apply places_digits.
  - intros K. apply app_eq_nil in K. destruct K as [ _ K ]. pose proof (places_length 10 b). rewrite K in H. discriminate.
  - left. reflexivity.
  - constructor.
Qed.
Lemma fixed_no_nul (neg : bool) n : 0 <= n -> ~ In 0 ((if neg then str "-" else []) ++ dec_text (n / 10 ^ 10) ++ str "." ++ places 10 (n mod 10 ^ 10)).
Proof.
  intros Hn K. rewrite !in_app_iff in K. destruct K as [ K | [ K | [ K | K ] ] ].
  - destruct neg; [ destruct K as [ K | [] ]; discriminate K | destruct K ].
  - pose proof (dec_text_digits (n / 10 ^ 10) ltac:(apply Z.div_pos; lia)) as F. rewrite Forall_forall in F. apply F in K. discriminate K.
  - destruct K as [ K | [] ]; discriminate K.
  - pose proof (places_digits 10 (n mod 10 ^ 10)) as F. rewrite Forall_forall in F. apply F in K. unfold digit in K. lia.
Qed.

(** What is sent *)
Lemma sent localtime d : is_double d -> exists n t, decimals10 d n /\ parameter localtime (Some (Sfloat d)) = Some t /\ float_text t (dneg d) n (-10).
Proof.
  intros Hd. destruct (fixed10_near d ltac:(destruct Hd; lia)) as (n & N & E & B). exists n. eexists. split; [ | split ].
  - split; [ exact N | ]. unfold dist, mag. destruct Hd as (_ & He & _).
    set (W := 2 ^ (1074 - Z.max 0 (- dexp d))). assert (HW : 0 < W) by (apply Z.pow_pos_nonneg; lia).
    assert (E1 : 2 ^ 1074 = 2 ^ Z.max 0 (- dexp d) * W) by (unfold W; rewrite <- Z.pow_add_r by lia; f_equal; lia).
    assert (E2 : 2 ^ (dexp d + 1074) = 2 ^ Z.max 0 (dexp d) * W) by (unfold W; rewrite <- Z.pow_add_r by lia; f_equal; lia).
    rewrite E1, E2. set (A := 2 ^ Z.max 0 (- dexp d)) in *. set (C := 2 ^ Z.max 0 (dexp d)) in *. clearbody A C W.
    replace (n * (A * W) - 10 ^ 10 * (dman d * (C * W))) with (- (dman d * 10 ^ 10 * C - n * A) * W) by ring. rewrite Z.abs_mul, Z.abs_opp, (Z.abs_eq W) by lia. nia.
  - unfold parameter. cbn [sql_to_str option_map]. rewrite E, c_str_id by (apply fixed_no_nul, N). reflexivity.
  - apply fixed_text, N.
Qed.
Lemma max_mag d : is_double d -> mag d <= (2 ^ 53 - 1) * 2 ^ 2045.
Proof.
  intros (M & E & _). unfold mag. assert (2 ^ (dexp d + 1074) <= 2 ^ 2045) by (apply Z.pow_le_mono_r; lia).
  pose proof (Z.pow_pos_nonneg 2 (dexp d + 1074) ltac:(lia) ltac:(lia)). set (X := 2 ^ (dexp d + 1074)) in *. clearbody X.
  apply Z.mul_le_mono_nonneg; lia.
Qed.
Lemma in_range d n : is_double d -> decimals10 d n -> n < 10 ^ 10 * (2 ^ 1024 - 2 ^ 970).
Proof.
  intros Hd (N & B). pose proof (max_mag d Hd) as M. unfold dist in B.
  assert (E : (2 ^ 53 - 1) * 2 ^ 2045 + 2 ^ 1074 <= (2 ^ 1024 - 2 ^ 970) * 2 ^ 1074) by (vm_compute; discriminate).
  assert (P : 0 < 2 ^ 1074) by (apply Z.pow_pos_nonneg; lia). revert M B E P. generalize (2 ^ 1074), ((2 ^ 53 - 1) * 2 ^ 2045), (2 ^ 1024 - 2 ^ 970). intros U Y V M B E P.
  change (10 ^ 10) with 10000000000 in *. assert (n * U < 10000000000 * V * U) by lia. nia.
Qed.
Lemma stored_is d n : is_double d -> decimals10 d n -> exists d', near (dneg d) n (-10) d'.
Proof.
  intros Hd Hn. pose proof (in_range d n Hd Hn) as R. unfold near. change (up (-10)) with 1. change (down (-10)) with (10 ^ 10). rewrite Z.mul_1_r.
  destruct Hn as [ N _ ]. destruct (Z.eq_dec n 0) as [ -> | Nz ].
  - exists (mkD (dneg d) 0 (-1074)). apply to_near_sound; [ lia | lia | reflexivity ].
  - destruct (to_near_range (dneg d) n (10 ^ 10) ltac:(lia) ltac:(lia) R) as (d' & E). exists d'. apply to_near_sound; [ lia | lia | exact E ].
Qed.
(** What is read *)
Lemma near_inj neg D j d1 d2 : near neg D j d1 -> near neg D j d2 -> d1 = d2.
Proof. apply nearest_unique, down_pos. Qed.
Lemma read_back t d : text_of t d -> lexical_double t = Ok d.
Proof.
  intros (neg & D & j & T & N). pose proof (text_nonneg _ _ _ _ T) as H0. pose proof (read_text [] t neg D j [] ltac:(constructor) T I) as E. cbn [app] in E. rewrite app_nil_r in E.
  apply dec_near_spec in N; [ | exact H0 ]. rewrite N in E. unfold lexical_double, from_string. rewrite E. reflexivity.
Qed.

(** ** When a number is kept *)
Lemma gap d d2 : is_double d -> 2 ^ 52 < dman d -> is_double d2 -> mag d2 <> mag d -> 2 ^ (dexp d + 1074) <= Z.abs (mag d2 - mag d).
Proof.
  intros (M & E & _) Hm (M2 & E2 & _) Ne. unfold mag in *. destruct (Z.le_gt_cases (dexp d) (dexp d2)) as [ L | L ].
  - assert (PE : 2 ^ (dexp d2 + 1074) = 2 ^ (dexp d2 - dexp d) * 2 ^ (dexp d + 1074)) by (rewrite <- Z.pow_add_r by lia; f_equal; lia). rewrite PE in *. clear PE.
    pose proof (Z.pow_pos_nonneg 2 (dexp d + 1074) ltac:(lia) ltac:(lia)) as P. set (X := 2 ^ (dexp d + 1074)) in *. clearbody X.
    rewrite Z.mul_assoc in *. set (Y := dman d2 * 2 ^ (dexp d2 - dexp d)) in *. clearbody Y. rewrite <- Z.mul_sub_distr_r, Z.abs_mul, (Z.abs_eq X) by lia.
    assert (Y - dman d <> 0) by nia. assert (1 <= Z.abs (Y - dman d)) by lia. nia.
  - assert (PE : 2 ^ (dexp d + 1074) = 2 ^ (dexp d - 1 - dexp d2) * 2 * 2 ^ (dexp d2 + 1074)).
    { change 2 with (2 ^ 1) at 3. rewrite <- !Z.pow_add_r by lia. f_equal. lia. } rewrite PE in *. clear PE.
    pose proof (Z.pow_pos_nonneg 2 (dexp d2 + 1074) ltac:(lia) ltac:(lia)) as P. pose proof (Z.pow_pos_nonneg 2 (dexp d - 1 - dexp d2) ltac:(lia) ltac:(lia)) as PY.
    set (X := 2 ^ (dexp d2 + 1074)) in *. set (Y := 2 ^ (dexp d - 1 - dexp d2)) in *. clearbody X Y. change (2 ^ 53) with (2 * 2 ^ 52) in *. set (B := 2 ^ 52) in *. assert (0 < B) by (unfold B; lia). clearbody B.
    assert (A1 : dman d2 * X < 2 * B * X) by nia. assert (A2 : (B + 1) * (2 * (Y * X)) <= dman d * (2 * (Y * X))) by nia. assert (A3 : X <= Y * X) by nia.
    replace (Y * 2 * X) with (2 * (Y * X)) by ring. set (W := Y * X) in *. clearbody W. assert (2 * B * X <= 2 * B * W) by nia. lia.
Qed.
Lemma exact_near d n : is_double d -> decimals10 d n -> dist n (10 ^ 10) d = 0 -> near (dneg d) n (-10) d.
Proof.
  intros Hd Hn E. pose proof (in_range d n Hd Hn) as R. unfold near. change (up (-10)) with 1. change (down (-10)) with (10 ^ 10). rewrite Z.mul_1_r.
  split; [ exact Hd | ]. split; [ reflexivity | ]. split; [ exact R | ]. split.
  - intros d2 _. rewrite E. unfold dist. lia.
  - intros d2 _ E2 Ne. exfalso. rewrite E in E2. unfold dist in E, E2. apply Ne. lia.
Qed.
Lemma U_split (k : Z) : 0 <= k <= 1074 -> 2 ^ 1074 = 2 ^ k * 2 ^ (1074 - k).
Proof. intros H. rewrite <- Z.pow_add_r by lia. f_equal. lia. Qed.
Lemma large_near d n : is_double d -> decimals10 d n -> -33 <= dexp d -> 2 ^ 52 <= dman d -> near (dneg d) n (-10) d.
Proof.
  intros Hd Hn He Hm. destruct (Z.eq_dec (dist n (10 ^ 10) d) 0) as [ Ez | Nz ]; [ now apply exact_near | ].
  pose proof (in_range d n Hd Hn) as R. destruct Hn as [ N B ].
  destruct (Z.eq_dec (dman d) (2 ^ 52)) as [ Em | Nm ].
  { exfalso. unfold dist in B, Nz. unfold mag in B, Nz. rewrite Em in B, Nz. rewrite <- Z.pow_add_r in B, Nz by lia.
    replace (52 + (dexp d + 1074)) with ((52 + dexp d) + 1074) in B, Nz by lia. rewrite Z.pow_add_r in B, Nz by lia.
    assert (P : 0 < 2 ^ 1074) by (apply Z.pow_pos_nonneg; lia). revert B Nz P. generalize (2 ^ 1074), (2 ^ (52 + dexp d)). intros U V B Nz P.
    replace (n * U - 10 ^ 10 * (V * U)) with ((n - 10 ^ 10 * V) * U) in * by ring. rewrite Z.abs_mul, (Z.abs_eq U) in * by lia.
    set (z := n - 10 ^ 10 * V) in *. clearbody z. assert (Z.abs z = 0 \/ 1 <= Z.abs z) as [ K | K ] by lia; nia. }
  unfold near. change (up (-10)) with 1. change (down (-10)) with (10 ^ 10). rewrite Z.mul_1_r.
  assert (S : forall d2, is_double d2 -> mag d2 <> mag d -> dist n (10 ^ 10) d < dist n (10 ^ 10) d2).
  { intros d2 H2 Ne. pose proof (gap d d2 Hd ltac:(lia) H2 Ne) as G. unfold dist in *. destruct Hd as (_ & (E1 & _) & _).
    assert (PG : 2 ^ 1041 <= 2 ^ (dexp d + 1074)) by (apply Z.pow_le_mono_r; lia). rewrite (U_split 33) in * by lia. change (1074 - 33) with 1041 in *. change (2 ^ 33) with 8589934592 in *.
    assert (P : 0 < 2 ^ 1041) by (apply Z.pow_pos_nonneg; lia). revert G B PG P. generalize (2 ^ 1041), (2 ^ (dexp d + 1074)). intros U X G B PG P. change (10 ^ 10) with 10000000000 in *. lia. }
  split; [ exact Hd | ]. split; [ reflexivity | ]. split; [ exact R | ]. split.
  - intros d2 H2. destruct (Z.eq_dec (mag d2) (mag d)) as [ K | K ]; [ unfold dist; rewrite K; lia | ]. specialize (S d2 H2 K). lia.
  - intros d2 H2 E2 Ne. specialize (S d2 H2 Ne). lia.
Qed.
Theorem kept10 d n : is_double d -> decimals10 d n -> (near (dneg d) n (-10) d <-> exists m, 0 <= m /\ near (dneg d) m (-10) d).
Proof.
  intros Hd Hn. split; [ intros H; exists n; split; [ apply Hn | exact H ] | ]. intros (m & M & H).
  destruct (Z.le_gt_cases (-33) (dexp d)) as [ L | L ].
  - apply large_near; auto. destruct Hd as (_ & _ & [ K | K ]); lia.
  - assert (E : m = n); [ | now subst m ].
    unfold near in H. change (up (-10)) with 1 in H. change (down (-10)) with (10 ^ 10) in H. rewrite Z.mul_1_r in H. destruct Hn as [ N B ].
    assert (H2 : 2 * dist m (10 ^ 10) d <= 10 ^ 10 * 2 ^ (dexp d + 1074)).
    { destruct (Z.eq_dec m 0) as [ -> | Mz ]; [ | apply (half_ulp1 (dneg d)); [ lia | lia | exact H ] ].
      destruct H as (_ & _ & _ & Nr & _). specialize (Nr (mkD false 0 (-1074)) ltac:(unfold is_double; cbn [dman dexp]; lia)).
      unfold dist at 2 in Nr. unfold mag in Nr. cbn [dman] in Nr. rewrite !Z.mul_0_l, Z.mul_0_r, Z.sub_0_r in Nr. change (Z.abs 0) with 0 in Nr.
      pose proof (Z.pow_pos_nonneg 2 (dexp d + 1074) ltac:(lia) ltac:(destruct Hd; lia)) as P. lia. }
    assert (PG : 2 ^ (dexp d + 1074) <= 2 ^ 1040) by (apply Z.pow_le_mono_r; lia). unfold dist in *. rewrite (U_split 34) in * by lia. change (1074 - 34) with 1040 in *. change (2 ^ 34) with 17179869184 in *.
    assert (P : 0 < 2 ^ 1040) by (apply Z.pow_pos_nonneg; lia). clear H. revert B H2 PG P. generalize (2 ^ 1040), (2 ^ (dexp d + 1074)), (mag d). intros U X G B H2 PG P. change (10 ^ 10) with 10000000000 in *.
    assert (Z.abs (m - n) * (17179869184 * U) < 17179869184 * U).
    { rewrite <- (Z.abs_eq (17179869184 * U)) at 1 by lia. rewrite <- Z.abs_mul, Z.mul_sub_distr_r. lia. }
    assert (Z.abs (m - n) = 0) by nia. lia.
Qed.
