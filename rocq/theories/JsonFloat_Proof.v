(** Proofs about the text of floating numbers. *)
From Verif Require Import Common CommonLemmas NumText_Model NumText_Proof Double_Model Double_Spec Double_Proof Json_Model Json_Spec JsonParse_Proof JsonComplete_Proof JsonPrint_Proof JsonFloat_Spec.
Local Open Scope Z_scope.

Lemma up_pos k : 0 < up k.
Proof. apply Z.pow_pos_nonneg; lia. Qed.
Lemma down_pos k : 0 < down k.
Proof. apply Z.pow_pos_nonneg; lia. Qed.
Lemma up_down j k : k <= j -> up j * down k = 10 ^ (j - k) * (up k * down j).
Proof. intros H. unfold up, down. rewrite <- !Z.pow_add_r by lia. f_equal. lia. Qed.
Lemma same_sym a j b k : same_decimal a j b k -> same_decimal b k a j.
Proof. unfold same_decimal. intros H. symmetry. exact H. Qed.
Lemma same_trans a j b k c l : same_decimal a j b k -> same_decimal b k c l -> same_decimal a j c l.
Proof.
  unfold same_decimal. intros H1 H2. pose proof (up_pos k). pose proof (down_pos k).
  apply (Z.mul_reg_r _ _ (down k)); [ lia | ].
  replace (a * up j * down l * down k) with ((a * up j * down k) * down l) by ring. rewrite H1.
  replace (b * up k * down j * down l) with ((b * up k * down l) * down j) by ring. rewrite H2. ring.
Qed.
Lemma same_shift a j m : 0 <= m -> same_decimal (a * 10 ^ m) (j - m) a j.
Proof.
  intros H. unfold same_decimal. replace (a * 10 ^ m * up (j - m) * down j) with (a * (10 ^ m * (up (j - m) * down j))) by ring.
  replace m with (j - (j - m)) at 1 by lia. rewrite <- up_down by lia. ring.
Qed.

Lemma digits_len n : 0 < n -> 10 ^ (Z.of_nat (length (digits 10 n)) - 1) <= n < 10 ^ Z.of_nat (length (digits 10 n)).
Proof.
  intros H. destruct (digits_spec 10 n ltac:(lia) ltac:(lia)) as (V & F & D & _). destruct (D H) as (d & l & E & Hd).
  pose proof (digits_val_bound 10 _ ltac:(lia) F) as B. rewrite V in B. split; [ | lia ].
  rewrite E in V |- *. rewrite digits_val_cons in V. rewrite E in F. pose proof (digits_val_bound 10 l ltac:(lia) (Forall_inv_tail F)).
  cbn [length]. replace (Z.of_nat (S (length l)) - 1) with (Z.of_nat (length l)) by lia. pose proof (Z.pow_pos_nonneg 10 (Z.of_nat (length l))). nia.
Qed.
Lemma flog10_spec p q : 0 < p -> 0 < q -> let x := flog10 p q in up x * q <= p * down x < 10 * (up x * q).
Proof.
  intros Hp Hq x. unfold x, flog10. destruct (Z.leb_spec q p).
  - assert (H1 : 0 < p / q) by (apply Z.div_str_pos; lia). pose proof (digits_len (p / q) H1) as [ A B ].
    set (L := Z.of_nat (length (digits 10 (p / q)))) in *.
    assert (HL : 1 <= L). { destruct (digits_spec 10 (p / q) ltac:(lia) ltac:(lia)) as (_ & _ & _ & N). unfold L. destruct (digits 10 (p / q)); [ congruence | cbn [length]; lia ]. }
    unfold up, down. rewrite (Z.max_r 0 (L - 1)), (Z.max_l 0 (- (L - 1))) by lia. change (10 ^ 0) with 1.
    pose proof (Z.div_mod p q ltac:(lia)). pose proof (Z.mod_pos_bound p q Hq).
    replace L with (1 + (L - 1)) in B at 1 by lia. rewrite Z.pow_add_r in B by lia. change (10 ^ 1) with 10 in B. nia.
  - set (m := (q + p - 1) / p - 1).
    assert (M : m * p < q <= (m + 1) * p). { unfold m. pose proof (Z.div_mod (q + p - 1) p ltac:(lia)). pose proof (Z.mod_pos_bound (q + p - 1) p Hp). nia. }
    assert (H1 : 0 < m) by nia. pose proof (digits_len m H1) as [ A B ]. set (L := Z.of_nat (length (digits 10 m))) in *.
    assert (HL : 1 <= L). { destruct (digits_spec 10 m ltac:(lia) ltac:(lia)) as (_ & _ & _ & N). unfold L. destruct (digits 10 m); [ congruence | cbn [length]; lia ]. }
    unfold up, down. rewrite (Z.max_l 0 (- L)), (Z.max_r 0 (- - L)) by lia. change (10 ^ 0) with 1.
    replace (- - L) with (1 + (L - 1)) by lia. replace L with (1 + (L - 1)) in B at 1 by lia. rewrite Z.pow_add_r in * by lia. change (10 ^ 1) with 10 in *. nia.
Qed.
(** Rounding a fraction p/q to 12 digits *)
Definition rounds (p q n k : Z) : Prop :=
  10 ^ 11 * (q * up k) <= p * down k < 10 ^ 12 * (q * up k) /\ 10 ^ 11 <= n <= 10 ^ 12 /\ 2 * Z.abs (p * down k - n * (q * up k)) <= q * up k.
Lemma scale10 p q e : scale 10 p q e = (p * down e, q * up e).
Proof. unfold scale, up, down. destruct (Z.leb_spec 0 e); [ rewrite (Z.max_r 0 e), (Z.max_l 0 (- e)) by lia | rewrite (Z.max_l 0 e), (Z.max_r 0 (- e)) by lia ]; change (10 ^ 0) with 1; now rewrite Z.mul_1_r. Qed.
Lemma sig12_spec p q : 0 < p -> 0 < q -> exists n k, rounds p q n k /\ 10 ^ 11 <= fst (sig12 p q) < 10 ^ 12 /\ same_decimal (fst (sig12 p q)) (snd (sig12 p q) - 11) n k.
Proof.
  intros Hp Hq. pose proof (flog10_spec p q Hp Hq) as F. cbv zeta in F. unfold sig12. set (x := flog10 p q) in *. rewrite scale10.
  set (a := p * down (x - 11)). set (b := q * up (x - 11)). pose proof (up_pos (x - 11)). pose proof (down_pos (x - 11)). pose proof (up_pos x). pose proof (down_pos x).
  assert (Hb : 0 < b) by (unfold b; nia).
  assert (R : 10 ^ 11 * b <= a < 10 ^ 12 * b).
  { pose proof (up_down x (x - 11) ltac:(lia)) as U. replace (x - (x - 11)) with 11 in U by lia. unfold a, b.
    split.
    - apply (Z.mul_le_mono_pos_r _ _ (down x)); [ lia | ].
      replace (10 ^ 11 * (q * up (x - 11)) * down x) with (q * (10 ^ 11 * (up (x - 11) * down x))) by ring. rewrite <- U. nia.
    - apply (Z.mul_lt_mono_pos_r (down x)); [ lia | ].
      replace (10 ^ 12 * (q * up (x - 11)) * down x) with (10 * (q * (10 ^ 11 * (up (x - 11) * down x)))) by ring. rewrite <- U. nia. }
  destruct (rhe_spec a b Hb) as [ Ha _ ].
  assert (N : 10 ^ 11 <= rhe a b <= 10 ^ 12) by (split; [ apply rhe_ge | apply rhe_le ]; lia).
  exists (rhe a b), (x - 11). split; [ split; [ exact R | split; [ exact N | exact Ha ] ] | ].
  destruct (Z.eqb_spec (rhe a b) (10 ^ 12)) as [ E | E ]; cbn [fst snd].
  - split; [ lia | ]. rewrite E. apply same_sym. replace (x - 11) with ((x + 1 - 11) - 1) by lia. change (10 ^ 12) with (10 ^ 11 * 10 ^ 1). apply same_shift. lia.
  - split; [ lia | reflexivity ].
Qed.
(** A double as a fraction *)
Definition fp (d : double) : Z := if 0 <=? dexp d then dman d * 2 ^ dexp d else dman d.
Definition fq (d : double) : Z := if 0 <=? dexp d then 1 else 2 ^ (- dexp d).
Lemma fq_pos d : 0 < fq d.
Proof. unfold fq. destruct (Z.leb_spec 0 (dexp d)); [ lia | apply Z.pow_pos_nonneg; lia ]. Qed.
Lemma frac_mag d : is_double d -> fp d * 2 ^ 1074 = fq d * mag d.
Proof.
  intros (_ & E & _). unfold fp, fq, mag. destruct (Z.leb_spec 0 (dexp d)).
  - rewrite Z.pow_add_r by lia. ring.
  - replace 1074 with (- dexp d + (dexp d + 1074)) at 1 by lia. rewrite Z.pow_add_r by lia. ring.
Qed.
Lemma rounds_double d n k : is_double d -> rounds (fp d) (fq d) n k -> rounds12 d n k.
Proof.
  intros Hd (A & B & C). pose proof (frac_mag d Hd) as E. pose proof (fq_pos d) as Q. pose proof (up_pos k). pose proof (down_pos k).
  set (H2 := 2 ^ 1074) in *. assert (HH : 0 < H2) by (apply Z.pow_pos_nonneg; lia).
  set (M := mag d) in *. set (p := fp d) in *. set (q := fq d) in *. set (u := up k) in *. set (w := down k) in *.
  assert (T1 : q * (10 ^ 11 * u * H2) <= q * (w * M) < q * (10 ^ 12 * u * H2)).
  { replace (q * (w * M)) with (w * (q * M)) by ring. rewrite <- E. replace (w * (p * H2)) with (p * w * H2) by ring. nia. }
  assert (T2 : q * (2 * Z.abs (n * u * H2 - w * M)) <= q * (u * H2)).
  { replace (q * (2 * Z.abs (n * u * H2 - w * M))) with (2 * (Z.abs q * Z.abs (n * u * H2 - w * M))) by (rewrite (Z.abs_eq q) by lia; ring).
    rewrite <- Z.abs_mul. replace (q * (n * u * H2 - w * M)) with (- ((p * w - n * (q * u)) * H2)).
    2: { replace (q * (n * u * H2 - w * M)) with (n * u * H2 * q - w * (q * M)) by ring. rewrite <- E. ring. }
    rewrite Z.abs_opp, Z.abs_mul, (Z.abs_eq H2) by lia. nia. }
  split; [ split | split ].
  - apply (Z.mul_le_mono_pos_l _ _ q); lia.
  - apply (Z.mul_lt_mono_pos_l q); lia.
  - exact B.
  - unfold dist. fold H2 M. apply (Z.mul_le_mono_pos_l _ _ q); lia.
Qed.

(** ** The text *)
Lemma strip0_spec s : exists m, s = strip0 s ++ repeat 48 m.
Proof.
  unfold strip0. destruct (spanb_spec (fun c => c =? 48) (rev s)) as (E & F & _).
  set (a := fst (spanb (fun c => c =? 48) (rev s))) in *. set (b := snd (spanb (fun c => c =? 48) (rev s))) in *.
  exists (length a). rewrite <- (rev_involutive s), E, rev_app_distr. f_equal.
  assert (R : a = repeat 48 (length a)).
  { clear E. clearbody a. induction a as [ | c a IH ]; [ reflexivity | ]. cbn [length repeat]. pose proof (Forall_inv F) as Hc. cbn in Hc. f_equal; [ lia | apply IH, (Forall_inv_tail F) ]. }
  rewrite R at 1. clear. assert (G : forall m, rev (repeat 48 m) = repeat 48 m).
  { induction m as [ | m IH ]; [ reflexivity | ]. cbn [repeat rev]. rewrite IH. clear IH. induction m as [ | m IH ]; [ reflexivity | ]. cbn [repeat app]. rewrite IH. reflexivity. }
  apply G.
Qed.
Lemma num_zeros m : num (repeat 48 m) = 0.
Proof. rewrite num_dec. induction m as [ | m IH ]; [ reflexivity | ]. cbn [repeat]. change (48 :: repeat 48 m) with ([48] ++ repeat 48 m). rewrite dec_val_app, IH. reflexivity. Qed.
Lemma num_app a b : num (a ++ b) = num a * 10 ^ Z.of_nat (length b) + num b.
Proof. rewrite !num_dec. apply dec_val_app. Qed.
Lemma num_nonneg a : Forall digit a -> 0 <= num a.
Proof. intros H. rewrite num_dec. apply dec_val_bound. eapply Forall_impl; [ | exact H ]. unfold digit, isdigit. intros. lia. Qed.
Lemma dec_text_len n : 0 < n -> 10 ^ (Z.of_nat (length (dec_text n)) - 1) <= n < 10 ^ Z.of_nat (length (dec_text n)).
Proof. unfold dec_text. rewrite map_length. apply digits_len. Qed.
Lemma dec_text_12 n : 10 ^ 11 <= n < 10 ^ 12 -> length (dec_text n) = 12%nat.
Proof.
  intros H. destruct (dec_text_len n ltac:(lia)) as [ A B ]. set (L := Z.of_nat (length (dec_text n))) in *.
  assert (~ L <= 11) by (intros K; pose proof (Z.pow_le_mono_r 10 L 11 ltac:(lia) K); lia).
  assert (~ 12 <= L - 1) by (intros K; pose proof (Z.pow_le_mono_r 10 12 (L - 1) ltac:(lia) K); lia). lia.
Qed.
Lemma dec_text_digit n : 0 <= n -> Forall digit (dec_text n).
Proof. intros H. eapply Forall_impl; [ | exact (dec_text_digits n H) ]. unfold digit, isdigit. intros. lia. Qed.
Lemma Forall_strip0 s : Forall digit s -> Forall digit (strip0 s).
Proof. intros H. destruct (strip0_spec s) as (m & E). rewrite E in H. apply Forall_app in H. tauto. Qed.
(** A number with integer digits ip and fraction digits s (with trailing zeros), without or with exponent *)
Lemma sign_neg (neg : bool) : sign_part (if neg then [45] else []) neg.
Proof. destruct neg; constructor. Qed.
Lemma NE (a : Z) (l : list Z) : a :: l <> [].
Proof. discriminate. Qed.
Lemma frac_denotes (neg : bool) ip s : int_part ip -> Forall digit s -> Forall digit ip -> (length ip <= 12)%nat ->
  denotes ((if neg then [45] else []) ++ ip ++ frac_text s) neg (num (ip ++ s)) (- Z.of_nat (length s)).
Proof.
  intros Hi Hs Hd Hl. destruct (strip0_spec s) as (m & E). pose proof (Forall_strip0 s Hs) as Hf. unfold frac_text. destruct (strip0 s) as [ | c f ] eqn:Ef.
  - rewrite app_nil_r. apply (dn_int _ _ _ _ (num ip)); [ | | ].
    + split; [ now apply num_nonneg | ]. rewrite num_dec. assert (F : Forall (fun c => isdigit c = true) ip) by (eapply Forall_impl; [ | exact Hd ]; unfold digit, isdigit; intros; lia).
      pose proof (dec_val_bound ip F) as [ _ W ]. pose proof (Z.pow_le_mono_r 10 (Z.of_nat (length ip)) 12 ltac:(lia) ltac:(lia)). lia.
    + exact (it_intro _ neg ip (sign_neg neg) Hi).
    + cbn [app] in E. rewrite num_app. rewrite E at 2. rewrite num_zeros, Z.add_0_r. apply same_sym. apply (same_shift (num ip) 0). lia.
  - apply (dn_float _ _ _ _ (num (ip ++ c :: f)) (0 - Z.of_nat (length (c :: f)))).
    + pose proof (ft_intro _ neg ip (46 :: c :: f) (c :: f) [] 0 (sign_neg neg) Hi (fp_some c f (Forall_inv Hf) (Forall_inv_tail Hf)) ex_none (or_introl (NE (46 : Z) (c :: f)))) as T.
      rewrite app_nil_r in T. exact T.
    + rewrite E at 1. rewrite app_assoc, (num_app (ip ++ c :: f)), num_zeros, Z.add_0_r, repeat_length. apply same_sym.
      replace (- Z.of_nat (length s)) with (0 - Z.of_nat (length (c :: f)) - Z.of_nat m); [ apply same_shift; lia | ].
      rewrite E, app_length, repeat_length. lia.
Qed.
Lemma exp_denotes (neg : bool) ip s x : int_part ip -> Forall digit s -> Forall digit ip ->
  denotes ((if neg then [45] else []) ++ ip ++ frac_text s ++ 101 :: (if 0 <=? x then 43 else 45) :: pad2 (dec_text (Z.abs x))) neg (num (ip ++ s)) (x - Z.of_nat (length s)).
Proof.
  intros Hi Hs Hd. destruct (strip0_spec s) as (m & E). pose proof (Forall_strip0 s Hs) as Hf.
  assert (X : exponent (101 :: (if 0 <=? x then 43 else 45) :: pad2 (dec_text (Z.abs x))) x).
  { assert (P : exists c r, pad2 (dec_text (Z.abs x)) = c :: r /\ digit c /\ Forall digit r /\ num (c :: r) = Z.abs x).
    { pose proof (dec_text_digit (Z.abs x) ltac:(lia)) as D. pose proof (dec_text_nonempty (Z.abs x) ltac:(lia)) as N. pose proof (dec_text_val (Z.abs x) ltac:(lia)) as V. rewrite <- num_dec in V.
      destruct (dec_text (Z.abs x)) as [ | c [ | c' r ] ]; [ congruence | | ].
      - exists 48, [c]. split; [ reflexivity | ]. split; [ unfold digit; lia | ]. split; [ exact D | ]. rewrite <- V. reflexivity.
      - exists c, (c' :: r). split; [ reflexivity | ]. split; [ exact (Forall_inv D) | ]. split; [ exact (Forall_inv_tail D) | exact V ]. }
    destruct P as (c & r & -> & Hc & Hr & V). destruct (Z.leb_spec 0 x).
    - rewrite (Z.abs_eq x) in V by lia. rewrite <- V. apply ex_plus; auto.
    - replace x with (- num (c :: r)) by lia. apply ex_minus; auto. }
  match type of X with exponent ?e _ => set (et := e) in * end. unfold frac_text. destruct (strip0 s) as [ | c f ] eqn:Ef.
  - cbn [app] in E |- *. apply (dn_float _ _ _ _ (num (ip ++ [])) (x - Z.of_nat (length (@nil Z)))).
    + exact (ft_intro _ neg ip [] [] et x (sign_neg neg) Hi fp_none X (or_intror (NE _ _))).
    + rewrite app_nil_r, num_app. rewrite E at 2. rewrite num_zeros, Z.add_0_r. apply same_sym. cbn [length]. rewrite Z.sub_0_r. apply same_shift. lia.
  - apply (dn_float _ _ _ _ (num (ip ++ c :: f)) (x - Z.of_nat (length (c :: f)))).
    + exact (ft_intro _ neg ip (46 :: c :: f) (c :: f) et x (sign_neg neg) Hi (fp_some c f (Forall_inv Hf) (Forall_inv_tail Hf)) X (or_introl (NE (46 : Z) (c :: f)))).
    + rewrite E at 1. rewrite app_assoc, (num_app (ip ++ c :: f)), num_zeros, Z.add_0_r, repeat_length. apply same_sym.
      replace (x - Z.of_nat (length s)) with (x - Z.of_nat (length (c :: f)) - Z.of_nat m); [ apply same_shift; lia | ].
      rewrite E, app_length, repeat_length. lia.
Qed.
Lemma denotes_same t neg n k m j : denotes t neg n k -> same_decimal n k m j -> denotes t neg m j.
Proof. intros [ a H0 H1 H2 | D i H1 H2 ] S; [ apply (dn_int _ _ _ _ a) | apply (dn_float _ _ _ _ D i) ]; auto; eapply same_trans; eauto. Qed.
Lemma fmt12_pos_denotes (neg : bool) p q : 0 < p -> 0 < q -> denotes ((if neg then [45] else []) ++ fmt12_pos p q) neg (fst (sig12 p q)) (snd (sig12 p q) - 11).
Proof.
  intros Hp Hq. destruct (sig12_spec p q Hp Hq) as (_ & _ & _ & B & _). unfold fmt12_pos. destruct (sig12 p q) as [ n x ]. cbn [fst snd] in *.
  pose proof (dec_text_12 n B) as L. destruct (dec_text_head n ltac:(lia)) as (c & r & E & Hc). pose proof (dec_text_digit n ltac:(lia)) as D.
  pose proof (dec_text_val n ltac:(lia)) as V. rewrite <- num_dec in V.
  assert (IP : forall j, int_part (firstn (S j) (dec_text n))).
  { intros j. rewrite E in D |- *. cbn [firstn]. apply ip_pos; [ exact Hc | ]. pose proof (Forall_inv_tail D) as D'. rewrite <- (firstn_skipn j r) in D'. apply Forall_app in D'. tauto. }
  assert (FD : forall j, Forall digit (firstn j (dec_text n))) by (intros j; rewrite <- (firstn_skipn j (dec_text n)) in D; apply Forall_app in D; tauto).
  assert (SD : forall j, Forall digit (skipn j (dec_text n))) by (intros j; rewrite <- (firstn_skipn j (dec_text n)) in D; apply Forall_app in D; tauto).
  destruct (Z.leb_spec (-4) x), (Z.ltb_spec x 12); cbn [andb]; [ destruct (Z.leb_spec 0 x) | | | ].
  - replace (Z.to_nat (x + 1)) with (S (Z.to_nat x)) by lia.
    pose proof (frac_denotes neg _ _ (IP (Z.to_nat x)) (SD (S (Z.to_nat x))) (FD _) ltac:(rewrite firstn_length, L; lia)) as T. rewrite firstn_skipn, V, skipn_length, L in T.
    replace (x - 11) with (- Z.of_nat (12 - S (Z.to_nat x))) by lia. exact T.
  - set (z := repeat 48 (Z.to_nat (- x - 1))).
    assert (Dz : Forall digit z) by (apply Forall_forall; intros a Ha; apply repeat_spec in Ha; subst; unfold digit; lia).
    pose proof (frac_denotes neg [48] (z ++ dec_text n) ip_zero (proj2 (Forall_app _ _ _) (conj Dz D)) ltac:(constructor; [ unfold digit; lia | constructor ]) ltac:(cbn; lia)) as T.
    assert (W : num ([48] ++ z ++ dec_text n) = n). { rewrite app_assoc, num_app, V. change ([48] ++ z) with (repeat 48 (S (Z.to_nat (- x - 1)))). rewrite num_zeros. lia. }
    rewrite W, app_length, L in T. unfold z in T at 2. rewrite repeat_length in T.
    replace (x - 11) with (- Z.of_nat (Z.to_nat (- x - 1) + 12)) by lia. exact T.
  - pose proof (exp_denotes neg _ _ x (IP 0%nat) (SD 1%nat) (FD _)) as T. rewrite firstn_skipn, V, skipn_length, L in T. exact T.
  - pose proof (exp_denotes neg _ _ x (IP 0%nat) (SD 1%nat) (FD _)) as T. rewrite firstn_skipn, V, skipn_length, L in T. exact T.
  - lia.
Qed.
Theorem fmt12_denotes d : is_double d -> dman d <> 0 -> exists n k, rounds12 d n k /\ denotes (fmt12 d) (dneg d) n k.
Proof.
  intros Hd Hn. assert (Hp : 0 < fp d). { destruct Hd as (A & _). unfold fp. destruct (Z.leb_spec 0 (dexp d)); [ pose proof (Z.pow_pos_nonneg 2 (dexp d)); nia | lia ]. }
  destruct (sig12_spec (fp d) (fq d) Hp (fq_pos d)) as (n & k & R & _ & S). exists n, k. split; [ now apply rounds_double | ].
  pose proof (fmt12_pos_denotes (dneg d) (fp d) (fq d) Hp (fq_pos d)) as T. apply (denotes_same _ _ _ _ n k) in T; [ | exact S ].
  unfold fmt12. replace (dman d =? 0) with false by lia. unfold fp, fq in T. destruct (0 <=? dexp d); exact T.
Qed.

(** ** Reading it *)
Section Same.
  Context (p q p' q' : Z) (Hq : 0 < q) (Hq' : 0 < q') (E : p * q' = p' * q).
  Lemma dist_same d : dist p' q' d * q = dist p q d * q'.
  Proof.
    unfold dist. set (M := mag d). set (H := 2 ^ 1074). rewrite <- (Z.abs_eq q) at 1 by lia. rewrite <- (Z.abs_eq q') at 2 by lia. rewrite <- !Z.abs_mul. f_equal.
    replace ((p' * H - q' * M) * q) with (p' * q * H - q' * M * q) by ring. rewrite <- E. ring.
  Qed.
  Lemma nearest_same neg d : nearest neg p q d -> nearest neg p' q' d.
  Proof.
    intros (A & B & C & D & F). split; [ exact A | ]. split; [ exact B | ]. split; [ | split ].
    - set (X := 2 ^ 1024 - 2 ^ 970) in *. apply (Z.mul_lt_mono_pos_r q); [ lia | ]. rewrite <- E. nia.
    - intros d' Hd'. specialize (D d' Hd'). pose proof (dist_same d). pose proof (dist_same d'). nia.
    - intros d' Hd' E1 N. apply (F d' Hd'); [ | exact N ]. pose proof (dist_same d). pose proof (dist_same d'). nia.
  Qed.
  Lemma underflow_same d : no_underflow p q d -> no_underflow p' q' d.
  Proof.
    intros [ A | A ]; [ left | right ].
    - pose proof (dist_same d). nia.
    - set (X := 2 ^ 54 - 1) in *. set (Y := 2 ^ 1076) in *. assert (0 < Y) by (apply Z.pow_pos_nonneg; lia).
      apply (Z.mul_le_mono_pos_r _ _ q); [ lia | ]. replace (p' * Y * q) with ((p' * q) * Y) by ring. rewrite <- E. nia.
  Qed.
End Same.
Lemma dec_same neg a j b k d : same_decimal a j b k -> dec_value neg a j d -> dec_value neg b k d.
Proof.
  intros S [ A B ]. fold (up j) (down j) in A, B. unfold dec_value. fold (up k) (down k).
  pose proof (down_pos j). pose proof (down_pos k). unfold same_decimal in S.
  split; [ apply (nearest_same (a * up j) (down j)) | apply (underflow_same (a * up j) (down j)) ]; auto.
Qed.

(** *** There is a nearest double *)
Lemma to_double_range neg p q : 0 < p -> 0 < q -> p < q * (2 ^ 1024 - 2 ^ 970) -> q * (2 ^ 54 - 1) <= p * 2 ^ 1076 -> exists d, to_double neg p q = DOk d.
Proof.
  intros Hp Hq A B. unfold to_double. replace (p =? 0) with false by lia.
  unfold tiny. replace (p * 2 ^ 1076 <? q * (2 ^ 54 - 1)) with false by (symmetry; apply Z.ltb_ge; exact B). cbn [andb].
  set (e := Z.max (-1074) (flog2 p q - 52)).
  assert (He : e <= 971).
  { unfold e. destruct (Z.le_gt_cases (flog2 p q) 1023); [ lia | exfalso ].
    destruct (flog2_spec p q 1074 Hp Hq ltac:(lia) ltac:(lia)) as [ L _ ].
    assert (q * 2 ^ (1024 + 1074) <= q * 2 ^ (flog2 p q + 1074)) by (apply Z.mul_le_mono_nonneg_l; [ lia | apply Z.pow_le_mono_r; lia ]).
    rewrite Z.pow_add_r in H0 by lia. set (H2 := 2 ^ 1074) in *. assert (0 < H2) by (apply Z.pow_pos_nonneg; lia).
    assert (p * H2 < q * 2 ^ 1024 * H2); [ apply Z.mul_lt_mono_pos_r; [ lia | ] | lia ].
    assert (0 < 2 ^ 970) by (apply Z.pow_pos_nonneg; lia). nia. }
  pose proof (scale2_spec p q e 1074 Hq ltac:(unfold e; lia) ltac:(lia)) as S. destruct (scale 2 p q e) as [ a b ]. destruct S as [ Hb S ].
  destruct (rhe_spec a b Hb) as [ R _ ]. replace (971 <? e) with false by lia.
  destruct (Z.eqb_spec (rhe a b) (2 ^ 53)) as [ K | K ]; [ | eauto ].
  destruct (Z.ltb_spec 971 (e + 1)) as [ K2 | K2 ]; [ exfalso | eauto ].
  assert (e = 971) as Ee by lia. clearbody e. subst e. rewrite K in R.
  assert (G : 2 * a < (2 ^ 54 - 1) * b); [ | lia ].
  assert (P1 : 2 ^ (971 + 1074) = 2 ^ 971 * 2 ^ 1074) by (apply Z.pow_add_r; lia). rewrite P1 in S.
  set (H2 := 2 ^ 1074) in *. set (H3 := 2 ^ 970) in *. assert (0 < H2) by (apply Z.pow_pos_nonneg; lia). assert (H3p : 0 < H3) by (apply Z.pow_pos_nonneg; lia).
  replace (2 ^ 971) with (2 * H3) in S by (unfold H3; rewrite <- Z.pow_succ_r by lia; reflexivity).
  replace (2 ^ 1024 - H3) with ((2 ^ 54 - 1) * H3) in A by (unfold H3; rewrite Z.mul_sub_distr_r, <- Z.pow_add_r by lia; change (54 + 970) with 1024; lia).
  assert (S2 : 2 * a * q * H3 = b * p). { apply (Z.mul_reg_r _ _ H2); [ lia | ]. rewrite <- (Z.mul_assoc b p H2), <- S. ring. }
  assert (S3 : 2 * a * (q * H3) < (2 ^ 54 - 1) * b * (q * H3)); [ | assert (0 < q * H3) by nia; nia ].
  replace (2 * a * (q * H3)) with (b * p) by (rewrite <- S2; ring). replace ((2 ^ 54 - 1) * b * (q * H3)) with (b * (q * ((2 ^ 54 - 1) * H3))) by ring. nia.
Qed.
(** Half a unit in the last place *)
Lemma half_ulp neg p q d : 0 < p -> 0 < q -> nearest neg p q d -> no_underflow p q d -> 2 * dist p q d <= q * 2 ^ (dexp d + 1074).
Proof.
  intros Hp Hq Hn Hu. pose proof (proj2 (to_double_spec neg p q d ltac:(lia) Hq) (conj Hn Hu)) as E. unfold to_double in E.
  replace (p =? 0) with false in E by lia. set (e := Z.max (-1074) (flog2 p q - 52)) in *.
  pose proof (scale2_spec p q e 1074 Hq ltac:(unfold e; lia) ltac:(lia)) as S. destruct (scale 2 p q e) as [ a b ]. destruct S as [ Hb S ].
  destruct (rhe_spec a b Hb) as [ R _ ]. set (m := rhe a b) in *.
  assert (Hpe : 0 < 2 ^ (e + 1074)) by (apply Z.pow_pos_nonneg; unfold e; lia).
  assert (K : 2 * Z.abs (p * 2 ^ 1074 - q * (m * 2 ^ (e + 1074))) <= q * 2 ^ (e + 1074)).
  { set (U := 2 ^ (e + 1074)) in *. set (H := 2 ^ 1074) in *. apply (Z.mul_le_mono_pos_l _ _ b); [ lia | ].
    replace (b * (2 * Z.abs (p * H - q * (m * U)))) with (2 * (Z.abs b * Z.abs (p * H - q * (m * U)))) by (rewrite (Z.abs_eq b) by lia; ring).
    rewrite <- Z.abs_mul. replace (b * (p * H - q * (m * U))) with ((q * U) * (a - m * b)).
    2: { replace (b * (p * H - q * (m * U))) with (b * (p * H) - q * m * U * b) by ring. rewrite <- S. ring. }
    rewrite Z.abs_mul, (Z.abs_eq (q * U)) by nia. nia. }
  destruct (Z.eqb_spec m (2 ^ 53)) as [ Em | Em ].
  - destruct (971 <? e + 1); [ discriminate E | ]. injection E as <-. unfold dist, mag. cbn [dman dexp].
    rewrite Em in K. replace (2 ^ 52 * 2 ^ (e + 1 + 1074)) with (2 ^ 53 * 2 ^ (e + 1074)) by (rewrite <- !Z.pow_add_r by (unfold e; lia); f_equal; lia).
    replace (e + 1 + 1074) with (Z.succ (e + 1074)) by lia. rewrite Z.pow_succ_r by (unfold e; lia). set (U := 2 ^ (e + 1074)) in *. nia.
  - destruct (971 <? e); [ discriminate E | ]. destruct (tiny p q && negb (m * b =? a)); [ discriminate E | ]. injection E as <-. exact K.
Qed.
Lemma up_ge j k : j <= k -> up j * down k <= up k * down j.
Proof. intros H. rewrite (up_down k j H). pose proof (Z.pow_pos_nonneg 10 (k - j) ltac:(lia) ltac:(lia)). pose proof (up_pos j). pose proof (down_pos k). nia. Qed.
Lemma le_dec a b : (a <=? b) = true -> a <= b.
Proof. apply Z.leb_le. Qed.
Lemma rounds_k d n k : normal d -> rounds12 d n k -> -319 <= k <= 297.
Proof.
  intros [ (A & B & _) C ] (R1 & R2 & _). pose proof (up_pos k) as Hu. pose proof (down_pos k) as Hw.
  assert (HM1 : 2 ^ 52 <= mag d). { unfold mag. pose proof (Z.pow_pos_nonneg 2 (dexp d + 1074) ltac:(lia) ltac:(lia)). nia. }
  assert (HM : mag d <= (2 ^ 53 - 1) * 2 ^ 2045).
  { unfold mag. apply Z.mul_le_mono_nonneg; [ lia | lia | apply Z.pow_nonneg; lia | apply Z.pow_le_mono_r; lia ]. }
  set (M := mag d) in *. split.
  - destruct (Z.le_gt_cases k (-320)) as [ K3 | K3 ]; [ exfalso | lia ].
    pose proof (up_ge k (-320) K3) as G. unfold up at 2, down at 1 in G. change (Z.max 0 (-320)) with 0 in G. change (Z.max 0 (- -320)) with 320 in G. change (10 ^ 0) with 1 in G.
    assert (N : 10 ^ 12 * 2 ^ 1074 <= 10 ^ 320 * 2 ^ 52) by (apply le_dec; vm_compute; reflexivity).
    destruct R1 as [ _ R1 ]. set (X := 10 ^ 320) in *. set (W := 2 ^ 1074) in *. set (T := 10 ^ 12) in *. set (Y := 2 ^ 52) in *. assert (0 < X) by reflexivity. assert (0 < Y) by reflexivity. clearbody X W T Y M. clear HM A B C R2.
    assert (T * up k * W <= down k * M); [ | lia ]. transitivity (up k * (X * Y)); [ nia | ]. transitivity (down k * Y); nia.
  - destruct (Z.le_gt_cases 298 k) as [ K3 | K3 ]; [ exfalso | lia ].
    pose proof (up_ge 298 k K3) as G. unfold up at 1, down at 2 in G. change (Z.max 0 298) with 298 in G. change (Z.max 0 (Z.opp 298)) with 0 in G. change (10 ^ 0) with 1 in G.
    assert (N : (2 ^ 53 - 1) * 2 ^ 2045 < 10 ^ 11 * 10 ^ 298 * 2 ^ 1074) by (apply Z.ltb_lt; vm_compute; reflexivity).
    destruct R1 as [ R1 _ ]. set (X := 10 ^ 298) in *. set (W := 2 ^ 1074) in *. set (T := 10 ^ 11) in *. set (Y := (2 ^ 53 - 1) * 2 ^ 2045) in *. assert (0 < T) by reflexivity. assert (0 < W) by reflexivity. clearbody X W T Y M. clear - Hu Hw G N R1 HM H H0.
    assert (T * up k * W > down k * M); [ | lia ]. assert (down k * M <= down k * Y) by nia. assert (down k * Y < down k * (T * X * W)) by nia. assert ((X * down k) * (T * W) <= up k * (T * W)) by nia. nia.
Qed.
Lemma rounds_low d n k : normal d -> rounds12 d n k -> down k * (2 ^ 54 - 1) <= n * up k * 2 ^ 1076.
Proof.
  intros Hd (R1 & R2 & R3). unfold dist in R3. pose proof Hd as [ (A & B & _) C ]. pose proof (up_pos k) as Hu. pose proof (down_pos k) as Hw.
  assert (HM : 2 ^ 52 <= mag d). { unfold mag. pose proof (Z.pow_pos_nonneg 2 (dexp d + 1074) ltac:(lia) ltac:(lia)). nia. }
  pose proof (rounds_k d n k Hd) as RK. unfold rounds12, dist in RK. set (M := mag d) in *.
  destruct (Z.le_gt_cases (-318) k) as [ K | K ].
  - pose proof (up_ge (-318) k K) as G. unfold up at 1, down at 2 in G. change (Z.max 0 (-318)) with 0 in G. change (Z.max 0 (- -318)) with 318 in G. change (10 ^ 0) with 1 in G.
    assert (N : 10 ^ 318 * (2 ^ 54 - 1) <= 10 ^ 11 * 2 ^ 1076) by (apply le_dec; vm_compute; reflexivity).
    set (X := 10 ^ 318) in *. set (Y := 2 ^ 54 - 1) in *. set (W := 2 ^ 1076) in *. set (T := 10 ^ 11) in *. assert (0 < Y) by reflexivity. assert (0 < W) by reflexivity. clearbody X Y W T M.
    transitivity ((up k * X) * Y); [ nia | ]. transitivity (up k * (T * W)); [ nia | ]. assert (T * up k <= n * up k) by nia. nia.
  - assert (K2 : k = -319) by (specialize (RK (conj R1 (conj R2 R3))); lia).
    subst k. unfold up, down in *. change (Z.max 0 (-319)) with 0 in *. change (Z.max 0 (- -319)) with 319 in *. change (10 ^ 0) with 1 in *.
    assert (N1 : 445014771700 * 2 ^ 1074 < 2 * (10 ^ 319 * 2 ^ 52) - 2 ^ 1074) by (apply Z.ltb_lt; vm_compute; reflexivity).
    assert (N2 : 10 ^ 319 * (2 ^ 54 - 1) <= 222507385851 * 2 ^ 1076) by (apply le_dec; vm_compute; reflexivity).
    assert (0 < 2 ^ 1076) by reflexivity. assert (0 < 2 ^ 1074) by reflexivity. assert (0 < 10 ^ 319) by reflexivity.
    set (X := 10 ^ 319) in *. set (W := 2 ^ 1074) in *. set (V := 2 ^ 1076) in *. set (Y := 2 ^ 54 - 1) in *. set (O := 2 ^ 52) in *. clearbody X W V Y O M.
    assert (222507385851 <= n); [ | nia ].
    assert (P1 : X * O <= X * M) by nia. assert (P2 : 445014771700 * W < 2 * n * W) by lia. assert (445014771700 < 2 * n) by nia. lia.
Qed.
Lemma rounds_high d n k : normal d -> rounds12 d n k -> n * up k < down k * (2 ^ 1024 - 2 ^ 970).
Proof.
  intros Hd (R1 & R2 & R3). unfold dist in R3. pose proof Hd as [ (A & B & _) C ]. pose proof (up_pos k) as Hu. pose proof (down_pos k) as Hw.
  assert (HM : mag d <= (2 ^ 53 - 1) * 2 ^ 2045).
  { unfold mag. apply Z.mul_le_mono_nonneg; [ lia | lia | apply Z.pow_nonneg; lia | apply Z.pow_le_mono_r; lia ]. }
  pose proof (rounds_k d n k Hd) as RK. unfold rounds12, dist in RK. set (M := mag d) in *.
  destruct (Z.le_gt_cases k 296) as [ K | K ].
  - pose proof (up_ge k 296 K) as G. unfold up at 2, down at 1 in G. change (Z.max 0 296) with 296 in G. change (Z.max 0 (Z.opp 296)) with 0 in G. change (10 ^ 0) with 1 in G.
    assert (N : 10 ^ 12 * 10 ^ 296 < 2 ^ 1024 - 2 ^ 970) by (apply Z.ltb_lt; vm_compute; reflexivity).
    set (X := 10 ^ 296) in *. set (Y := 2 ^ 1024 - 2 ^ 970) in *. set (T := 10 ^ 12) in *. clearbody X Y T M. clear - Hu Hw R2 G N.
    assert (n * up k <= T * up k) by nia. nia.
  - assert (K2 : k = 297) by (specialize (RK (conj R1 (conj R2 R3))); lia).
    subst k. unfold up, down in *. change (Z.max 0 297) with 297 in *. change (Z.max 0 (Z.opp 297)) with 0 in *. change (10 ^ 0) with 1 in *.
    assert (N1 : 2 * ((2 ^ 53 - 1) * 2 ^ 2045) + 10 ^ 297 * 2 ^ 1074 < 359538626974 * (10 ^ 297 * 2 ^ 1074)) by (apply Z.ltb_lt; vm_compute; reflexivity).
    assert (N2 : 179769313486 * 10 ^ 297 < 2 ^ 1024 - 2 ^ 970) by (apply Z.ltb_lt; vm_compute; reflexivity).
    assert (0 < 2 ^ 1074) by reflexivity. assert (0 < 10 ^ 297) by reflexivity.
    set (X := 10 ^ 297) in *. set (W := 2 ^ 1074) in *. set (Y := (2 ^ 53 - 1) * 2 ^ 2045) in *. set (O := 2 ^ 1024 - 2 ^ 970) in *. clearbody X W O Y M. clear - R2 R3 HM N1 N2 H H0.
    assert (n <= 179769313486); [ | nia ].
    assert (P2 : 2 * n * (X * W) < 359538626974 * (X * W)) by lia. assert (0 < X * W) by nia. assert (2 * n < 359538626974) by nia. lia.
Qed.
Theorem rounded_readable neg d n k : normal d -> rounds12 d n k -> exists d', dec_value neg n k d'.
Proof.
  intros Hd R. pose proof (rounds_low d n k Hd R). pose proof (rounds_high d n k Hd R). destruct R as (_ & R2 & _). pose proof (up_pos k). pose proof (down_pos k).
  assert (0 < n * up k) by (assert (0 < n) by lia; nia).
  destruct (to_double_range neg (n * up k) (down k)) as (d' & E); auto. exists d'. unfold dec_value. fold (up k) (down k). apply to_double_sound; auto; lia.
Qed.

(** *** Numbers with 12 digits are kept *)
Theorem rounds_exact neg d D j n k : normal d -> 0 < D < 10 ^ 12 -> dec_value neg D j d -> rounds12 d n k -> same_decimal D j n k.
Proof.
  intros Hd HD [ Hn Hu ] (R1 & R2 & R3). fold (up j) (down j) in Hn, Hu. pose proof (up_pos j) as Uj. pose proof (down_pos j) as Dj. pose proof (up_pos k) as Uk. pose proof (down_pos k) as Dk.
  pose proof (half_ulp neg (D * up j) (down j) d ltac:(nia) Dj Hn Hu) as E.
  assert (E2 : 2 ^ 53 * dist (D * up j) (down j) d <= down j * mag d).
  { destruct Hd as [ (A & B & _) C ]. unfold mag. pose proof (Z.pow_pos_nonneg 2 (dexp d + 1074) ltac:(lia) ltac:(lia)). set (U := 2 ^ (dexp d + 1074)) in *.
    transitivity (2 ^ 52 * (down j * U)); [ lia | ]. replace (down j * (dman d * U)) with (dman d * (down j * U)) by ring. apply Z.mul_le_mono_nonneg_r; nia. }
  clear E. unfold dist in *. set (M := mag d) in *. assert (HH : 0 < 2 ^ 1074) by reflexivity. set (H := 2 ^ 1074) in *.
  (* everything in units of 1 / (H * down j * down k) *)
  set (Y := M * down j * down k). set (U := up k * H * down j). set (V := up j * H * down k).
  assert (F1 : 10 ^ 11 * U <= Y < 10 ^ 12 * U).
  { unfold U, Y. destruct R1 as [ R1 R1' ]. apply (Z.mul_le_mono_pos_r _ _ (down j) Dj) in R1. apply (Z.mul_lt_mono_pos_r (down j) _ _ Dj) in R1'.
    replace (10 ^ 11 * (up k * H * down j)) with (10 ^ 11 * up k * H * down j) by ring. replace (10 ^ 12 * (up k * H * down j)) with (10 ^ 12 * up k * H * down j) by ring.
    replace (M * down j * down k) with (down k * M * down j) by ring. lia. }
  assert (F2 : 2 ^ 53 * Z.abs (D * V - Y) <= Y).
  { unfold V, Y. replace (D * (up j * H * down k) - M * down j * down k) with ((D * up j * H - down j * M) * down k) by ring. rewrite Z.abs_mul, (Z.abs_eq (down k)) by lia.
    apply (Z.mul_le_mono_pos_r _ _ (down k) Dk) in E2. replace (M * down j * down k) with (down j * M * down k) by ring. rewrite Z.mul_assoc. exact E2. }
  assert (F3 : 2 * Z.abs (n * U - Y) <= U).
  { unfold U, Y. replace (n * (up k * H * down j) - M * down j * down k) with ((n * up k * H - down k * M) * down j) by ring. rewrite Z.abs_mul, (Z.abs_eq (down j)) by lia.
    apply (Z.mul_le_mono_pos_r _ _ (down j) Dj) in R3. rewrite Z.mul_assoc. exact R3. }
  assert (U0 : 0 < U) by (unfold U; apply Z.mul_pos_pos; [ apply Z.mul_pos_pos | ]; lia). assert (V0 : 0 < V) by (unfold V; apply Z.mul_pos_pos; [ apply Z.mul_pos_pos | ]; lia).
  assert (G : D * V = n * U).
  { destruct (Z.le_gt_cases k j) as [ K | K ].
    - assert (W : V = 10 ^ (j - k) * U). { unfold V, U. replace (up j * H * down k) with ((up j * down k) * H) by ring. rewrite (up_down j k K). ring. }
      set (c := D * 10 ^ (j - k)). assert (X : D * V = c * U) by (rewrite W; unfold c; ring). rewrite X in *. f_equal.
      clearbody c U Y V. clear - F1 F2 F3 U0. assert (2 * Z.abs ((c - n) * U) < 2 * U) by lia. rewrite Z.abs_mul, (Z.abs_eq U) in H by lia. assert (Z.abs (c - n) < 1) by nia. lia.
    - exfalso. assert (W : 10 * V <= U).
      { assert (U = 10 ^ (k - j) * V) as -> by (unfold V, U; replace (up k * H * down j) with ((up k * down j) * H) by ring; rewrite (up_down k j) by lia; ring).
        pose proof (Z.pow_le_mono_r 10 1 (k - j) ltac:(lia) ltac:(lia)). change (10 ^ 1) with 10 in *. apply Z.mul_le_mono_nonneg_r; lia. }
      clearbody U Y V. clear - F1 F2 W V0 HD. assert (D * V <= (10 ^ 12 - 1) * V) by nia. lia. }
  unfold same_decimal. unfold V, U in G. apply (Z.mul_reg_r _ _ H); [ lia | ].
  replace (D * up j * down k * H) with (D * (up j * H * down k)) by ring. rewrite G. ring.
Qed.
(** *** The parser *)
Lemma last2 (u v a b c d : list Z) (x y e z : Z) : u ++ [x; y] = v ++ [e; z] -> x = e.
Proof.
  intros H. change [x; y] with ([x] ++ [y]) in H. change [e; z] with ([e] ++ [z]) in H. rewrite !app_assoc in H. apply app_inj_tail in H as [ H _ ]. apply app_inj_tail in H as [ _ H ]. exact H.
Qed.
Lemma no_e_not_bare t : (forall c, In c t -> c <> 101 /\ c <> 69) -> ~ bare_exponent t.
Proof. intros H (p & e & c & -> & He & _). destruct (H e); [ apply in_or_app; right; left; reflexivity | lia ]. Qed.
Lemma digit_no_e s : Forall digit s -> forall c, In c s -> c <> 101 /\ c <> 69.
Proof. intros H c Hc. rewrite Forall_forall in H. specialize (H c Hc). unfold digit in H. lia. Qed.
Lemma frac_no_e s : Forall digit s -> forall c, In c (frac_text s) -> c <> 101 /\ c <> 69.
Proof.
  intros H c Hc. apply Forall_strip0 in H. unfold frac_text in Hc. destruct (strip0 s) as [ | a f ]; [ destruct Hc | ].
  destruct Hc as [ <- | Hc ]; [ lia | ]. exact (digit_no_e _ H c Hc).
Qed.
Lemma pad2_end n : 0 <= n -> exists u x y, pad2 (dec_text n) = u ++ [x; y] /\ digit x.
Proof.
  intros H. pose proof (dec_text_digit n H) as D. pose proof (dec_text_nonempty n H) as N. destruct (dec_text n) as [ | c [ | c' r ] ]; [ congruence | | ].
  - exists [], 48, c. split; [ reflexivity | unfold digit; lia ].
  - cbn [pad2]. destruct (exists_last (l := c :: c' :: r) ltac:(discriminate)) as (l & y & E). rewrite E in *.
    destruct l as [ | a l ] using rev_ind; [ discriminate E | ]. exists l, a, y. rewrite <- app_assoc. split; [ reflexivity | ].
    apply Forall_app in D as [ D _ ]. apply Forall_app in D as [ _ D ]. exact (Forall_inv D).
Qed.
Lemma fmt12_not_bare d : is_double d -> ~ bare_exponent (fmt12 d).
Proof.
  intros Hd. assert (S : forall c, In c (if dneg d then [45] else []) -> c <> 101 /\ c <> 69) by (intros c; destruct (dneg d); [ intros [ <- | [] ]; lia | intros [] ]).
  destruct (Z.eq_dec (dman d) 0) as [ E | E ].
  - unfold fmt12. rewrite E. cbn [Z.eqb]. apply no_e_not_bare. intros c Hc. apply in_app_or in Hc as [ Hc | [ <- | [] ] ]; [ auto | lia ].
  - assert (Hp : 0 < fp d). { destruct Hd as (A & _). unfold fp. destruct (Z.leb_spec 0 (dexp d)); [ pose proof (Z.pow_pos_nonneg 2 (dexp d)); nia | lia ]. }
    replace (fmt12 d) with ((if dneg d then [45] else []) ++ fmt12_pos (fp d) (fq d)).
    2: { unfold fmt12. replace (dman d =? 0) with false by lia. unfold fp, fq. destruct (0 <=? dexp d); reflexivity. }
    destruct (sig12_spec (fp d) (fq d) Hp (fq_pos d)) as (_ & _ & _ & B & _). unfold fmt12_pos. destruct (sig12 (fp d) (fq d)) as [ n x ]. cbn [fst snd] in B.
    pose proof (dec_text_digit n ltac:(lia)) as D.
    assert (FD : forall j, Forall digit (firstn j (dec_text n))) by (intros j; rewrite <- (firstn_skipn j (dec_text n)) in D; apply Forall_app in D; tauto).
    assert (SD : forall j, Forall digit (skipn j (dec_text n))) by (intros j; rewrite <- (firstn_skipn j (dec_text n)) in D; apply Forall_app in D; tauto).
    destruct ((-4 <=? x) && (x <? 12)); [ destruct (0 <=? x) | ].
    + apply no_e_not_bare. intros c Hc. apply in_app_or in Hc as [ Hc | Hc ]; [ auto | ]. apply in_app_or in Hc as [ Hc | Hc ]; [ exact (digit_no_e _ (FD _) c Hc) | exact (frac_no_e _ (SD _) c Hc) ].
    + apply no_e_not_bare. intros c Hc. apply in_app_or in Hc as [ Hc | Hc ]; [ auto | ]. destruct Hc as [ <- | Hc ]; [ lia | ].
      refine (frac_no_e _ _ c Hc). apply Forall_app. split; [ | exact D ]. apply Forall_forall. intros a Ha. apply repeat_spec in Ha. subst. unfold digit. lia.
    + intros (p & e & c & Et & He & _). destruct (pad2_end (Z.abs x) ltac:(lia)) as (u & a & b & Ep & Ha). rewrite Ep in Et.
      set (sg := if 0 <=? x then 43 else 45) in Et. change (101 :: sg :: u ++ [a; b]) with ((101 :: sg :: u) ++ [a; b]) in Et. rewrite !app_assoc in Et.
      apply (last2 _ _ [] [] [] []) in Et. subst. unfold digit in Ha. lia.
Qed.
Lemma denotes_value t neg n k : denotes t neg n k -> (exists d, dec_value neg n k d) -> exists v, jval dec_value t v /\ number_is v neg n k.
Proof.
  intros [ m Hm T S | D j T S ] (d & V).
  - exists (JInt (if neg then - m else m)). split; [ apply jv_int; [ exact T | destruct neg; lia ] | ]. exists m. auto.
  - exists (JFloat d). split; [ apply (jv_float dec_value t neg D j d T); eapply dec_same; [ apply same_sym; exact S | exact V ] | exact V ].
Qed.
Lemma fmt12_len d : normal d -> Z.of_nat (length (fmt12 d)) < 2 ^ 29.
Proof.
  intros Hn. pose proof Hn as [ Hd _ ]. unfold fmt12. destruct (dman d =? 0) eqn:E; [ destruct (dneg d); cbn; lia | ].
  assert (G : Z.of_nat (length (fmt12_pos (fp d) (fq d))) <= 2 ^ 28).
  2: { rewrite app_length. unfold fp, fq in G. destruct (0 <=? dexp d), (dneg d); cbn [length]; lia. }
  assert (Hp : 0 < fp d). { destruct Hd as (A & _). unfold fp. destruct (Z.leb_spec 0 (dexp d)); [ pose proof (Z.pow_pos_nonneg 2 (dexp d)); nia | lia ]. }
  assert (SL : forall s, (length (frac_text s) <= length s + 1)%nat).
  { intros s. destruct (strip0_spec s) as (m & Es). apply (f_equal (@length Z)) in Es. rewrite app_length in Es. unfold frac_text. destruct (strip0 s); cbn [length] in *; lia. }
  destruct (sig12_spec (fp d) (fq d) Hp (fq_pos d)) as (n & k & R & B & S). pose proof (rounds_double d n k Hd R) as R'. pose proof (rounds_k d n k Hn R') as K.
  unfold fmt12_pos. destruct (sig12 (fp d) (fq d)) as [ n' x ]. cbn [fst snd] in *. pose proof (dec_text_12 n' B) as L12.
  destruct ((-4 <=? x) && (x <? 12)) eqn:Ex; [ destruct (0 <=? x) | ].
  - rewrite app_length, firstn_length. pose proof (SL (skipn (Z.to_nat (x + 1)) (dec_text n'))) as W. rewrite skipn_length, L12 in W. rewrite L12. lia.
  - cbn [length]. pose proof (SL (repeat 48 (Z.to_nat (- x - 1)) ++ dec_text n')) as W. rewrite app_length, repeat_length, L12 in W. lia.
  - assert (Hx : k - 1 <= x - 11 <= k + 1).
    { destruct R' as (_ & N & _). unfold same_decimal in S. pose proof (up_pos k) as U1. pose proof (down_pos k) as U2. pose proof (up_pos (x - 11)) as U3. pose proof (down_pos (x - 11)) as U4. clear - S N B U1 U2 U3 U4. split.
      - destruct (Z.le_gt_cases (k - 1) (x - 11)) as [ Q | Q ]; [ exact Q | exfalso ].
        replace (n * up k * down (x - 11)) with (n * (up k * down (x - 11))) in S by ring. rewrite (up_down k (x - 11)) in S by lia.
        pose proof (Z.pow_le_mono_r 10 2 (k - (x - 11)) ltac:(lia) ltac:(lia)) as P. change (10 ^ 2) with 100 in P. set (c := 10 ^ (k - (x - 11))) in *. set (U := up (x - 11) * down k) in *.
        assert (0 < U) by (unfold U; nia). assert (n' * U = (n * c) * U) by (unfold U at 1; rewrite Z.mul_assoc, S; ring). assert (n' = n * c) by nia. nia.
      - destruct (Z.le_gt_cases (x - 11) (k + 1)) as [ Q | Q ]; [ exact Q | exfalso ].
        replace (n' * up (x - 11) * down k) with (n' * (up (x - 11) * down k)) in S by ring. rewrite (up_down (x - 11) k) in S by lia.
        pose proof (Z.pow_le_mono_r 10 2 (x - 11 - k) ltac:(lia) ltac:(lia)) as P. change (10 ^ 2) with 100 in P. set (c := 10 ^ (x - 11 - k)) in *. set (U := up k * down (x - 11)) in *.
        assert (0 < U) by (unfold U; nia). assert (n * U = (n' * c) * U) by (unfold U at 1; rewrite Z.mul_assoc, <- S; ring). assert (n = n' * c) by nia. nia. }
    assert (L3 : (length (dec_text (Z.abs x)) <= 3)%nat). { unfold dec_text. rewrite map_length. apply digits_length; [ lia | | lia ]. change (10 ^ Z.of_nat 3) with 1000. lia. }
    rewrite !app_length, firstn_length. cbn [length]. pose proof (SL (skipn 1 (dec_text n'))) as W. rewrite skipn_length, L12 in W.
    assert ((length (pad2 (dec_text (Z.abs x))) <= 3)%nat). { unfold pad2. destruct (dec_text (Z.abs x)) as [ | a [ | b q ] ]; cbn [length] in *; lia. }
    rewrite L12. lia.
Qed.
Theorem float_read fbk esc d w r : normal d -> ws w -> ends_value r ->
  exists n k v st, rounds12 d n k /\ number_is v (dneg d) n k /\ parse fbk (start (w ++ print esc (JFloat d) ++ r)) = JOk (v, st) /\ Rem st r.
Proof.
  intros Hd Hw Hr. destruct (fmt12_denotes d (proj1 Hd)) as (n & k & R & Dn). { destruct Hd as [ _ Hd ]. intros K. rewrite K in Hd. apply Hd. reflexivity. }
  destruct (rounded_readable (dneg d) d n k Hd R) as (d' & V). destruct (denotes_value _ _ _ _ Dn (ex_intro _ d' V)) as (v & J & N).
  pose proof (fmt12_len d Hd) as L.
  destruct (parse_value fbk dec_value (fun neg D k d H HD => proj2 (dec_double_spec neg D k d HD) H) (Z.of_nat (length (fmt12 d))) (fmt12 d) v w (start (w ++ fmt12 d ++ r)) r) as (st & E & HR & _); auto.
  - lia.
  - apply start_cap. lia.
  - lia.
  - apply (Rem0 _ 256).
  - intros _. apply fmt12_not_bare. exact (proj1 Hd).
  - exists n, k, v, st. auto.
Qed.
Lemma dec_unique neg n k d d' : 0 <= n -> dec_value neg n k d -> dec_value neg n k d' -> d = d'.
Proof. intros H A B. apply (dec_double_spec neg n k d H) in A. apply (dec_double_spec neg n k d' H) in B. congruence. Qed.
Lemma d_eq_refl d : d_eq d d = true.
Proof. unfold d_eq. rewrite eqb_reflx, !Z.eqb_refl. apply orb_true_r. Qed.
Lemma number_equal v neg n k d : 0 < n -> number_is v neg n k -> dec_value neg n k d -> equals true (JFloat d) v = true /\ (v = JFloat d \/ exists m, v = JInt m /\ int_to_double m = DOk d).
Proof.
  intros Hn N V. destruct v as [ | b | m | d' | s | l | o ]; try destruct N.
  - destruct H as [ -> S ]. assert (Ha : 0 < x).
    { unfold same_decimal in S. change (up 0) with 1 in S. change (down 0) with 1 in S. pose proof (up_pos k). pose proof (down_pos k). assert (0 < n * up k) by nia. nia. }
    assert (I : int_to_double (if neg then - x else x) = DOk d).
    { pose proof (dec_same neg n k x 0 d (same_sym _ _ _ _ S) V) as W. apply (dec_double_spec neg x 0 d ltac:(lia)) in W. unfold dec_double in W. cbn [Z.leb Z.compare] in W. change (10 ^ 0) with 1 in W. rewrite Z.mul_1_r in W.
      unfold int_to_double. destruct neg; [ replace (- x <? 0) with true by lia; replace (Z.abs (- x)) with x by lia | replace (x <? 0) with false by lia; replace (Z.abs x) with x by lia ]; exact W. }
    split; [ cbn [equals andb]; unfold int_d_eq; rewrite I; apply d_eq_refl | ]. right. exists (if neg then - x else x). auto.
  - assert (d = d') as <- by (eapply (dec_unique neg n k); [ lia | exact V | split; assumption ]). split; [ apply d_eq_refl | auto ].
Qed.
