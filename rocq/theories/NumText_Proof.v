From Verif Require Import Common CommonLemmas NumText_Model.
Local Open Scope Z_scope.

Lemma digits_val_snoc b l d : digits_val b (l ++ [d]) = digits_val b l * b + d.
Proof. unfold digits_val. now rewrite fold_left_app. Qed.

Lemma digits_val_acc b l a : fold_left (fun a d => a * b + d) l a = a * b ^ Z.of_nat (length l) + digits_val b l.
Proof.
  unfold digits_val. revert a. induction l as [|d l IH]; intros a; cbn [fold_left length].
  - cbn. lia.
  - rewrite IH, (IH (0 * b + d)). rewrite Nat2Z.inj_succ, Z.pow_succ_r by lia. ring.
Qed.

Lemma digits_val_app b l1 l2 : digits_val b (l1 ++ l2) = digits_val b l1 * b ^ Z.of_nat (length l2) + digits_val b l2.
Proof. unfold digits_val at 1. rewrite fold_left_app. apply digits_val_acc. Qed.

Lemma digits_val_cons b d l : digits_val b (d :: l) = d * b ^ Z.of_nat (length l) + digits_val b l.
Proof. change (d :: l) with ([d] ++ l). rewrite digits_val_app. unfold digits_val at 1. cbn [fold_left]. ring. Qed.

Lemma digits_val_bound b l : 2 <= b -> Forall (fun d => 0 <= d < b) l -> 0 <= digits_val b l < b ^ Z.of_nat (length l).
Proof.
  intros Hb H. induction H as [|d l Hd H IH]; [cbn; lia|].
  rewrite digits_val_cons. cbn [length]. rewrite Nat2Z.inj_succ, Z.pow_succ_r by lia. nia.
Qed.

Lemma log2_div b n : 2 <= b -> b <= n -> Z.log2 (n / b) < Z.log2 n.
Proof.
  intros Hb Hn.
  assert (H : Z.log2 (n / b) <= Z.log2 (n / 2)).
  { apply Z.log2_le_mono. apply Z.div_le_compat_l; lia. }
  assert (H2 : Z.log2 (n / 2) = Z.log2 n - 1).
  { rewrite <- Z.div2_div, Z.div2_spec, Z.log2_shiftr by lia. 
    rewrite Z.max_r; [lia|]. assert (1 <= Z.log2 n); [|lia]. change 1 with (Z.log2 2). apply Z.log2_le_mono. lia. }
  lia.
Qed.

Lemma digs_spec b : 2 <= b -> forall f n, 0 <= n -> (Z.to_nat (Z.log2 n) <= f)%nat ->
  digits_val b (digs f b n) = n /\ Forall (fun d => 0 <= d < b) (digs f b n) /\
  (0 < n -> exists d l, digs f b n = d :: l /\ 0 < d) /\ digs f b n <> [].
Proof.
  intros Hb. induction f as [|f IH]; intros n Hn Hf; cbn [digs].
  - assert (n < 2). { destruct (Z_lt_le_dec n 2); [lia|]. pose proof (Z.log2_le_mono 2 n). change (Z.log2 2) with 1 in *. lia. }
    repeat split; try discriminate; [constructor; [lia|constructor]|intros; exists n, []; split; [reflexivity|lia]].
  - destruct (Z.ltb_spec n b) as [H|H].
    + repeat split; try discriminate; [constructor; [lia|constructor]|intros; exists n, []; split; [reflexivity|lia]].
    + pose proof (log2_div b n Hb H) as HL.
      assert (Hpos : 0 < n / b) by (apply Z.div_str_pos; lia).
      assert (Hnn : 0 <= Z.log2 (n / b)) by apply Z.log2_nonneg.
      destruct (IH (n / b) ltac:(lia) ltac:(lia)) as (H1 & H2 & H3 & H4).
      rewrite digits_val_snoc, H1. repeat split.
      * rewrite (Z.mul_comm (n / b) b). symmetry. apply Z.div_mod. lia.
      * apply Forall_app. split; [assumption|]. constructor; [apply Z.mod_pos_bound; lia|constructor].
      * intros _. destruct (H3 ltac:(lia)) as (d & l & E & Hd). rewrite E. exists d, (l ++ [n mod b]). auto.
      * destruct (digs f b (n / b)); discriminate.
Qed.

Lemma digits_spec b n : 2 <= b -> 0 <= n ->
  digits_val b (digits b n) = n /\ Forall (fun d => 0 <= d < b) (digits b n) /\
  (0 < n -> exists d l, digits b n = d :: l /\ 0 < d) /\ digits b n <> [].
Proof. intros. apply digs_spec; auto. Qed.

Lemma digits_0 b : 2 <= b -> digits b 0 = [0].
Proof. intros. reflexivity. Qed.

(** Canonical digit lists are determined by their value. *)
Lemma digits_val_inj_len b l1 l2 : 2 <= b -> Forall (fun d => 0 <= d < b) l1 -> Forall (fun d => 0 <= d < b) l2 ->
  length l1 = length l2 -> digits_val b l1 = digits_val b l2 -> l1 = l2.
Proof.
  intros Hb H1. revert l2. induction H1 as [|d l1 Hd H1 IH]; intros [|e l2] H2 HL HV; try discriminate; auto.
  inversion H2 as [|? ? He H2']; subst. rewrite !digits_val_cons in HV. injection HL as HL. rewrite HL in HV.
  pose proof (digits_val_bound b l1 Hb H1) as B1. pose proof (digits_val_bound b l2 Hb H2') as B2.
  rewrite HL in B1. assert (d = e) by nia. subst e. f_equal. apply IH; auto. nia.
Qed.

Lemma digits_val_inj b l1 l2 : 2 <= b -> Forall (fun d => 0 <= d < b) l1 -> Forall (fun d => 0 <= d < b) l2 ->
  (exists d r, l1 = d :: r /\ 0 < d) -> (exists d r, l2 = d :: r /\ 0 < d) ->
  digits_val b l1 = digits_val b l2 -> l1 = l2.
Proof.
  intros Hb H1 H2 (d & r & -> & Hd) (e & q & -> & He) HV.
  apply (digits_val_inj_len b); auto. cbn [length]. f_equal.
  assert (Hr : Forall (fun d => 0 <= d < b) r) by now inversion H1.
  assert (Hq : Forall (fun d => 0 <= d < b) q) by now inversion H2.
  pose proof (digits_val_bound b r Hb Hr) as B1. pose proof (digits_val_bound b q Hb Hq) as B2.
  pose proof (digits_val_bound b _ Hb H1) as B3. pose proof (digits_val_bound b _ Hb H2) as B4.
  rewrite !digits_val_cons in *. cbn [length] in *.
  destruct (Nat.lt_trichotomy (length r) (length q)) as [HL|[HL|HL]]; auto; exfalso.
  - assert (b ^ Z.of_nat (S (length r)) <= b ^ Z.of_nat (length q)) by (apply Z.pow_le_mono_r; lia). nia.
  - assert (b ^ Z.of_nat (S (length q)) <= b ^ Z.of_nat (length r)) by (apply Z.pow_le_mono_r; lia). nia.
Qed.

(** Number of digits. *)
Lemma digits_length b n k : 2 <= b -> 0 <= n < b ^ Z.of_nat k -> (1 <= k)%nat -> (length (digits b n) <= k)%nat.
Proof.
  intros Hb Hn Hk. destruct (Z.eq_dec n 0) as [->|Hnz]; [cbn; lia|].
  destruct (digits_spec b n Hb ltac:(lia)) as (H1 & H2 & H3 & _).
  destruct (H3 ltac:(lia)) as (d & l & E & Hd). rewrite E in *. cbn [length].
  assert (Hl : Forall (fun d => 0 <= d < b) l) by now inversion H2.
  pose proof (digits_val_bound b l Hb Hl) as B. rewrite digits_val_cons in H1.
  destruct (le_lt_dec (S (length l)) k) as [|HG]; [lia|exfalso].
  assert (b ^ Z.of_nat k <= b ^ Z.of_nat (length l)) by (apply Z.pow_le_mono_r; lia). nia.
Qed.

(** ** Decimal text *)
Lemma dec_val_map l : dec_val (map (fun d => 48 + d) l) = digits_val 10 l.
Proof.
  unfold dec_val. rewrite map_map. f_equal. rewrite <- (map_id l) at 2. apply map_ext. intros; lia.
Qed.

Lemma dec_text_val n : 0 <= n -> dec_val (dec_text n) = n.
Proof. intros Hn. unfold dec_text. rewrite dec_val_map. apply digits_spec; lia. Qed.

Lemma dec_text_digits n : 0 <= n -> Forall (fun c => isdigit c = true) (dec_text n).
Proof.
  intros Hn. unfold dec_text. apply Forall_map. destruct (digits_spec 10 n ltac:(lia) Hn) as (_ & H & _).
  eapply Forall_impl; [|exact H]. intros d Hd. unfold isdigit. cbv beta in *. lia.
Qed.

Lemma dec_text_nonempty n : 0 <= n -> dec_text n <> [].
Proof.
  intros Hn. unfold dec_text. destruct (digits_spec 10 n ltac:(lia) Hn) as (_ & _ & _ & H).
  destruct (digits 10 n); [congruence|discriminate].
Qed.

Lemma dec_text_head n : 0 < n -> exists c r, dec_text n = c :: r /\ 49 <= c <= 57.
Proof.
  intros Hn. unfold dec_text. destruct (digits_spec 10 n ltac:(lia) ltac:(lia)) as (_ & HF & H & _).
  destruct (H Hn) as (d & l & E & Hd). rewrite E in *. exists (48 + d), (map (fun d => 48 + d) l).
  inversion HF; subst. split; [reflexivity|lia].
Qed.

Lemma dec_text_bytes n : 0 <= n -> bytes (dec_text n).
Proof.
  intros Hn. eapply Forall_impl; [|apply dec_text_digits, Hn]. unfold isdigit, is_byte. intros c H; cbv beta in *. lia.
Qed.

Lemma dec_val_app a b : dec_val (a ++ b) = dec_val a * 10 ^ Z.of_nat (length b) + dec_val b.
Proof. unfold dec_val. rewrite map_app, digits_val_app, map_length. reflexivity. Qed.

Lemma dec_val_snoc a c : dec_val (a ++ [c]) = dec_val a * 10 + (c - 48).
Proof. rewrite dec_val_app. cbn [length]. change (10 ^ Z.of_nat 1) with 10. f_equal. Qed.

Lemma dec_val_bound a : Forall (fun c => isdigit c = true) a -> 0 <= dec_val a < 10 ^ Z.of_nat (length a).
Proof.
  intros H. unfold dec_val. rewrite <- (map_length (fun c => c - 48) a). apply digits_val_bound; [lia|].
  apply Forall_map. eapply Forall_impl; [|exact H]. unfold isdigit. intros; cbv beta in *; lia.
Qed.

(** ** spanb *)
Lemma spanb_app p a b : Forall (fun c => p c = true) a -> (forall c r, b = c :: r -> p c = false) -> spanb p (a ++ b) = (a, b).
Proof.
  intros Ha Hb. induction Ha as [|c a Hc Ha IH]; cbn [spanb app].
  - destruct b as [|c r]; [reflexivity|]. cbn [spanb]. now rewrite (Hb c r eq_refl).
  - now rewrite Hc, IH.
Qed.

Lemma spanb_spec p s : s = fst (spanb p s) ++ snd (spanb p s) /\ Forall (fun c => p c = true) (fst (spanb p s)) /\
  (forall c r, snd (spanb p s) = c :: r -> p c = false).
Proof.
  induction s as [|c s IH]; cbn [spanb]; [cbn; repeat split; [constructor|intros; discriminate]|].
  destruct (p c) eqn:E.
  - destruct (spanb p s) as [a b]. cbn [fst snd] in *. destruct IH as (H1 & H2 & H3). repeat split; auto.
    + cbn. now rewrite <- H1.
  - cbn. repeat split; auto. intros c' r' H. injection H as <- <-. exact E.
Qed.
