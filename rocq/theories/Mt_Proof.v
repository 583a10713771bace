(** Block regeneration in place follows the recurrence. *)
From Verif Require Import Common CommonLemmas Mt_Spec Mt_Model.
Local Open Scope Z_scope.

Definition word (x : Z) : Prop := 0 <= x < 2 ^ 32.
Lemma word_bits x : word x <-> 0 <= x /\ forall n, 32 <= n -> Z.testbit x n = false.
Proof.
  split.
  - intros H. split; [apply H|]. intros n Hn. destruct (Z.eq_dec x 0) as [->|E]; [apply Z.bits_0|].
    apply Z.bits_above_log2; [apply H|]. assert (Z.log2 x < 32); [|lia]. apply Z.log2_lt_pow2; unfold word in H; lia.
  - intros [H0 H]. split; [exact H0|]. assert (E : x = x mod 2 ^ 32).
    { apply Z.bits_inj'. intros n Hn.
      destruct (Z.lt_ge_cases n 32) as [L|L]; [now rewrite Z.mod_pow2_bits_low by lia|]. rewrite Z.mod_pow2_bits_high by lia. now apply H. }
    rewrite E. apply Z.mod_pos_bound. lia.
Qed.
Lemma word_lxor x y : word x -> word y -> word (Z.lxor x y).
Proof.
  rewrite !word_bits. intros [H1 H2] [H3 H4]. split; [apply Z.lxor_nonneg; tauto|]. intros n Hn. now rewrite Z.lxor_spec, H2, H4.
Qed.
Lemma word_land x y : word y -> word (Z.land x y).
Proof.
  rewrite !word_bits. intros [H3 H4]. split; [apply Z.land_nonneg; tauto|]. intros n Hn. rewrite Z.land_spec, H4 by lia. apply andb_false_r.
Qed.
Lemma word_div x k : 0 <= k -> word x -> word (x / 2 ^ k).
Proof.
  unfold word. intros Hk H. split; [apply Z.div_pos; lia|]. apply Z.le_lt_trans with x; [|lia]. apply Z.div_le_upper_bound; [lia|]. nia.
Qed.
Lemma u32_word x : word x -> u32 x = x.
Proof. intros H. apply Z.mod_small. exact H. Qed.
Lemma land_u32 x m : word m -> Z.land (u32 x) m = Z.land x m.
Proof.
  intros H. apply Z.bits_inj'. intros n Hn. rewrite !Z.land_spec. unfold u32. destruct (Z.lt_ge_cases n 32).
  - now rewrite Z.mod_pow2_bits_low by lia.
  - apply word_bits in H as [_ H]. rewrite H by lia. now rewrite !andb_false_r.
Qed.
Lemma tempering_spec y : word y -> tempering y = temper y.
Proof.
  intros H. unfold tempering, temper. rewrite Z.shiftr_div_pow2 by lia. cbv zeta.
  set (y1 := Z.lxor y (y / 2 ^ 11)). assert (H1 : word y1) by (apply word_lxor; [|apply word_div]; auto; lia).
  rewrite land_u32 by (unfold word; lia). rewrite Z.shiftl_mul_pow2 by lia.
  set (y2 := Z.lxor y1 (Z.land (y1 * 2 ^ 7) 2636928640)). assert (H2 : word y2) by (apply word_lxor; [auto|apply word_land; unfold word; lia]).
  rewrite (u32_word y2 H2). rewrite land_u32 by (unfold word; lia). rewrite Z.shiftl_mul_pow2 by lia.
  set (y3 := Z.lxor y2 (Z.land (y2 * 2 ^ 15) 4022730752)). assert (H3 : word y3) by (apply word_lxor; [auto|apply word_land; unfold word; lia]).
  rewrite (u32_word y3 H3). now rewrite Z.shiftr_div_pow2 by lia.
Qed.

Lemma upper_mask p : word p -> Z.land p UPPER_MASK = p / 2 ^ 31 * 2 ^ 31.
Proof.
  intros H. apply word_bits in H as [H0 H]. rewrite <- Z.shiftl_mul_pow2, <- Z.shiftr_div_pow2 by lia. change UPPER_MASK with (2 ^ 31).
  apply Z.bits_inj'. intros n Hn. rewrite Z.land_spec, Z.shiftl_spec, Z.pow2_bits_eqb by lia. destruct (Z.eqb_spec 31 n) as [<-|E].
  - rewrite Z.shiftr_spec by lia. now rewrite andb_true_r.
  - rewrite andb_false_r. destruct (Z.lt_ge_cases n 31); [now rewrite Z.testbit_neg_r by lia|]. rewrite Z.shiftr_spec by lia.
    symmetry. replace (n - 31 + 31) with n by lia. apply H. lia.
Qed.
Lemma lower_mask q : Z.land q LOWER_MASK = q mod 2 ^ 31.
Proof. change LOWER_MASK with (Z.ones 31). now apply Z.land_ones. Qed.
Lemma mixed p q : word p -> Z.lor (Z.land p UPPER_MASK) (Z.land q LOWER_MASK) = p / 2 ^ 31 * 2 ^ 31 + q mod 2 ^ 31.
Proof.
  intros H. rewrite upper_mask, lower_mask by exact H.
  assert (D : Z.land (p / 2 ^ 31 * 2 ^ 31) (q mod 2 ^ 31) = 0).
  { rewrite <- Z.shiftl_mul_pow2 by lia. apply Z.bits_inj'. intros n Hn. rewrite Z.land_spec, Z.bits_0. destruct (Z.lt_ge_cases n 31).
    - now rewrite Z.shiftl_spec_low by lia.
    - rewrite Z.mod_pow2_bits_high by lia. apply andb_false_r. }
  rewrite <- Z.lxor_lor by exact D. symmetry. now apply Z.add_nocarry_lxor.
Qed.
Lemma twist_value r y : 0 <= y -> Z.lxor (Z.lxor r (Z.shiftr y 1)) (mag01 (Z.land y 1)) = Z.lxor r (times_A y).
Proof.
  intros Hy. rewrite Z.lxor_assoc. f_equal. unfold times_A, mag01. rewrite Z.shiftr_div_pow2 by lia. change (2 ^ 1) with 2.
  change 1 with (Z.ones 1) at 1. rewrite Z.land_ones by lia. change (2 ^ 1) with 2. rewrite Zmod_odd. destruct (Z.odd y).
  - reflexivity.
  - cbn [Z.eqb]. apply Z.lxor_0_r.
Qed.
Lemma word_times_A y : word y -> word (times_A y).
Proof.
  intros H. pose proof (word_div y 1 ltac:(lia) H) as H2. change (2 ^ 1) with 2 in H2. unfold times_A. destruct (Z.odd y); [|exact H2].
  apply word_lxor; [exact H2|unfold word; lia].
Qed.
Lemma word_mixed p q : word p -> word (p / 2 ^ 31 * 2 ^ 31 + q mod 2 ^ 31).
Proof.
  unfold word. intros H. pose proof (Z.mod_pos_bound q (2 ^ 31) ltac:(lia)). pose proof (Z.div_mod p (2 ^ 31) ltac:(lia)).
  pose proof (Z.mod_pos_bound p (2 ^ 31) ltac:(lia)). assert (0 <= p / 2 ^ 31 < 2).
  { split; [apply Z.div_pos; lia|]. apply Z.div_lt_upper_bound; lia. }
  lia.
Qed.

(** Every term is a word. *)
Lemma mt_words seed x : word seed -> mt19937 seed x -> forall k, word (x k).
Proof.
  intros Hs [H1 H2 H3]. assert (G : forall n k, (k < n)%nat -> word (x k)); [|intros k; apply (G (S k)); lia].
  induction n as [|n IH]; intros k Hk; [lia|]. destruct (Nat.lt_ge_cases k 624) as [L|L].
  - destruct (Nat.eq_dec k 0) as [->|E]; [now rewrite H1|]. rewrite H2 by lia. apply Z.mod_pos_bound. lia.
  - replace k with (k - 624 + 624)%nat by lia. rewrite H3. apply word_lxor; [apply IH; lia|]. apply word_times_A, word_mixed, IH. lia.
Qed.

Lemma nth_error_put {A} (a : list A) i v j : (i < length a)%nat ->
  nth_error (firstn i a ++ v :: skipn (S i) a) j = if Nat.eqb j i then Some v else nth_error a j.
Proof.
  intros H. assert (L : length (firstn i a) = i) by (rewrite firstn_length; lia). destruct (Nat.eqb_spec j i) as [->|E].
  - rewrite nth_error_app2 by lia. rewrite L, Nat.sub_diag. reflexivity.
  - destruct (Nat.lt_ge_cases j i).
    + rewrite nth_error_app1 by lia. rewrite <- (firstn_skipn i a) at 2. now rewrite nth_error_app1 by lia.
    + rewrite nth_error_app2 by lia. rewrite L. destruct (j - i)%nat as [|m] eqn:Em; [lia|]. cbn [nth_error].
      rewrite <- (firstn_skipn (S i) a) at 2. rewrite nth_error_app2 by (rewrite firstn_length; lia). f_equal. rewrite firstn_length. lia.
Qed.
Lemma put_length {A} (a : list A) i v : (i < length a)%nat -> length (firstn i a ++ v :: skipn (S i) a) = length a.
Proof. intros H. rewrite app_length, firstn_length. cbn [length]. rewrite skipn_length. lia. Qed.

Section seq.
Context (seed : Z) (Hseed : word seed) (x : nat -> Z) (X : mt19937 seed x).
(** The array at position k of a regeneration from x_b. *)
Definition window (b k : nat) (a : list Z) : Prop :=
  length a = 624%nat /\ forall i, (i < 624)%nat -> nth_error a i = Some (x (b + (if Nat.ltb i k then 624 else 0) + i)%nat).
Lemma get_window b k a i j : window b k a -> (i < 624)%nat -> j = (b + (if Nat.ltb i k then 624 else 0) + i)%nat -> get a i = Ok (x j).
Proof. intros [_ H] Hi ->. unfold get. now rewrite H. Qed.
Lemma put_window b k a : (k < 624)%nat -> window b k a -> exists a', put a k (x (b + 624 + k)%nat) = Ok a' /\ window b (S k) a'.
Proof.
  intros Hk [L H]. unfold put. rewrite L, (proj2 (Nat.ltb_lt k 624) Hk). eexists. split; [reflexivity|]. split; [rewrite put_length; lia|].
  intros i Hi. rewrite nth_error_put by lia. destruct (Nat.eqb_spec i k) as [->|E].
  - rewrite (proj2 (Nat.ltb_lt k (S k))) by lia. reflexivity.
  - rewrite H by exact Hi. replace (Nat.ltb i (S k)) with (Nat.ltb i k); [reflexivity|].
    destruct (Nat.ltb_spec i k), (Nat.ltb_spec i (S k)); try reflexivity; lia.
Qed.
Lemma twist_window b k a k1 km : (k < 624)%nat -> window b k a -> get a k1 = Ok (x (b + k + 1)%nat) -> get a km = Ok (x (b + k + 397)%nat) ->
  exists a', twist a k k1 km = Ok a' /\ window b (S k) a'.
Proof.
  intros Hk W G1 Gm. unfold twist.
  rewrite (get_window b k a k (b + k)%nat W Hk) by (rewrite Nat.ltb_irrefl; lia). rewrite G1. cbn [obind]. rewrite Gm. cbn [obind].
  pose proof (mt_words seed x Hseed X) as Wd. rewrite mixed by apply Wd. rewrite twist_value by apply (word_mixed _ _ (Wd _)).
  pose proof (mt_step seed x X (b + k)) as S. rewrite <- S. replace (b + k + 624)%nat with (b + 624 + k)%nat by lia. now apply put_window.
Qed.
Lemma loop1_window b n : forall k a, (k + n <= 227)%nat -> window b k a -> exists a', loop1 n k a = Ok a' /\ window b (k + n) a'.
Proof.
  induction n as [|n IH]; intros k a Hk W; cbn [loop1]; [exists a; now rewrite Nat.add_0_r|].
  destruct (twist_window b k a (k + 1) (k + M)) as (a' & E & W'); [lia|exact W| | |].
  - apply (get_window b k); [exact W|lia|]. rewrite (proj2 (Nat.ltb_ge _ _)); lia.
  - change M with 397%nat. apply (get_window b k); [exact W|lia|]. rewrite (proj2 (Nat.ltb_ge _ _)); lia.
  - rewrite E. cbn [obind]. destruct (IH (S k) a') as (a'' & E'' & W''); [lia|exact W'|]. exists a''. split; [exact E''|].
    now replace (k + S n)%nat with (S k + n)%nat by lia.
Qed.
Lemma loop2_window b n : forall k a, (227 <= k)%nat -> (k + n <= 623)%nat -> window b k a -> exists a', loop2 n k a = Ok a' /\ window b (k + n) a'.
Proof.
  induction n as [|n IH]; intros k a Hk Hn W; cbn [loop2]; [exists a; now rewrite Nat.add_0_r|].
  destruct (twist_window b k a (k + 1) (k + M - N)) as (a' & E & W'); [lia|exact W| | |].
  - apply (get_window b k); [exact W|lia|]. rewrite (proj2 (Nat.ltb_ge _ _)); lia.
  - change M with 397%nat. change N with 624%nat. apply (get_window b k); [exact W|lia|]. rewrite (proj2 (Nat.ltb_lt _ _)); lia.
  - rewrite E. cbn [obind]. destruct (IH (S k) a') as (a'' & E'' & W''); [lia|lia|exact W'|]. exists a''. split; [exact E''|].
    now replace (k + S n)%nat with (S k + n)%nat by lia.
Qed.
Lemma regenerate_window b a : window b 0 a -> exists a', regenerate a = Ok a' /\ window (b + 624) 0 a'.
Proof.
  intros W. unfold regenerate. change (N - M)%nat with 227%nat. change (N - 1 - 227)%nat with 396%nat. change (N - 1)%nat with 623%nat. change (M - 1)%nat with 396%nat.
  destruct (loop1_window b 227 0 a ltac:(lia) W) as (a1 & -> & W1). cbn [obind]. change (0 + 227)%nat with 227%nat in W1.
  destruct (loop2_window b 396 227 a1 ltac:(lia) ltac:(lia) W1) as (a2 & -> & W2). cbn [obind]. change (227 + 396)%nat with 623%nat in W2.
  destruct (twist_window b 623 a2 0 396) as (a3 & E & W3); [lia|exact W2| | |].
  - apply (get_window b 623); [exact W2|lia|]. rewrite (proj2 (Nat.ltb_lt _ _)); lia.
  - apply (get_window b 623); [exact W2|lia|]. rewrite (proj2 (Nat.ltb_lt _ _)); lia.
  - exists a3. split; [exact E|]. destruct W3 as [L H]. split; [exact L|]. intros i Hi. rewrite H by exact Hi.
    rewrite (proj2 (Nat.ltb_lt i 624) Hi). cbn [Nat.ltb Nat.leb]. do 2 f_equal. lia.
Qed.

Lemma init_loop_window n : forall i a, (1 <= i)%nat -> (i + n = 624)%nat -> length a = 624%nat ->
  (forall j, (j < i)%nat -> nth_error a j = Some (x j)) -> exists a', init_loop n i a = Ok a' /\ window 0 0 a'.
Proof.
  induction n as [|n IH]; intros i a H1 Hi L H; cbn [init_loop].
  - exists a. split; [reflexivity|]. split; [exact L|]. intros j Hj. rewrite H by lia. cbn [Nat.ltb Nat.leb]. do 2 f_equal.
  - unfold get. rewrite H by lia. cbn [obind]. unfold put. rewrite L, (proj2 (Nat.ltb_lt i 624)) by lia. cbn [obind].
    assert (E : Z.land (u32 (u64 (1812433253 * Z.lxor (x (i - 1)) (Z.shiftr (x (i - 1)) 30) + Z.of_nat i))) 4294967295 = x i).
    { rewrite (mt_seeded seed x X i) by lia. rewrite Z.shiftr_div_pow2 by lia. change 4294967295 with (Z.ones 32). rewrite Z.land_ones by lia.
      unfold u32, u64. rewrite Z.mod_mod by lia. set (v := _ + _). change (2 ^ 64) with (2 ^ 32 * 2 ^ 32). rewrite Z.rem_mul_r by lia.
      rewrite Z.mul_comm, Z.mod_add by lia. now rewrite Z.mod_mod by lia. }
    rewrite E. apply IH; [lia|lia|rewrite put_length; lia|]. intros j Hj. rewrite nth_error_put by lia. destruct (Nat.eqb_spec j i) as [->|F]; [reflexivity|].
    apply H. lia.
Qed.
(** The state after n draws. *)
Definition at_draw (n : nat) (g : mt) : Prop := exists b, (mti g <= 624 /\ b + mti g = n + 624)%nat /\ window b 0 (words g).
Lemma construct_at mem : length mem = 624%nat -> exists g, construct mem seed = Ok g /\ at_draw 0 g.
Proof.
  intros L. unfold construct, init, put. rewrite L. cbn [Nat.ltb Nat.leb obind]. change 4294967295 with (Z.ones 32). rewrite Z.land_ones by lia.
  rewrite Z.mod_small by exact Hseed. change (N - 1)%nat with 623%nat.
  destruct (init_loop_window 623 1 (firstn 0 mem ++ seed :: skipn 1 mem)) as (a & E & W); [lia|lia|rewrite put_length; lia| |].
  - intros j Hj. replace j with 0%nat by lia. cbn [firstn app nth_error]. now rewrite (mt_first seed x X).
  - rewrite E. cbn [obind]. eexists. split; [reflexivity|]. exists 0%nat. cbn [mti words]. split; [unfold N; lia|exact W].
Qed.
Lemma next_at n g : at_draw n g -> exists g', next g = Ok (temper (x (624 + n)%nat), g') /\ at_draw (S n) g'.
Proof.
  intros (b & [Hm Hb] & W). unfold next. change N with 624%nat. pose proof (mt_words seed x Hseed X) as Wd.
  destruct (Nat.leb_spec 624 (mti g)) as [H|H].
  - destruct (regenerate_window b (words g) W) as (a & -> & W'). cbn [obind words mti].
    rewrite (get_window (b + 624) 0 a 0 (624 + n)%nat W') by (try lia; cbn [Nat.ltb Nat.leb]; lia). cbn [obind].
    eexists. rewrite tempering_spec by apply Wd. split; [reflexivity|]. exists (b + 624)%nat. cbn [mti words]. split; [lia|exact W'].
  - cbn [obind]. rewrite (get_window b 0 (words g) (mti g) (624 + n)%nat W) by (try lia; cbn [Nat.ltb Nat.leb]; lia). cbn [obind].
    eexists. rewrite tempering_spec by apply Wd. split; [reflexivity|]. exists b. cbn [mti words]. split; [lia|exact W].
Qed.
Lemma draw_at k : forall n g, at_draw n g -> exists g', draw k g = Ok (map (fun i => temper (x (624 + i)%nat)) (seq n k), g') /\ at_draw (n + k) g'.
Proof.
  induction k as [|k IH]; intros n g H; cbn [draw]; [exists g; split; [reflexivity|now rewrite Nat.add_0_r]|].
  destruct (next_at n g H) as (g1 & -> & H1). cbn [obind fst snd]. destruct (IH (S n) g1 H1) as (g2 & -> & H2). cbn [obind fst snd].
  exists g2. split; [reflexivity|]. now replace (n + S k)%nat with (S n + k)%nat by lia.
Qed.
End seq.

(** Every seed has a sequence: list the terms, newest first. *)
Fixpoint terms (seed : Z) (n : nat) : list Z :=
  match n with
  | O => []
  | S n => let l := terms seed n in
           (if Nat.eqb n 0 then seed
            else if Nat.ltb n 624 then let p := hd 0 l in (1812433253 * Z.lxor p (p / 2 ^ 30) + Z.of_nat n) mod 2 ^ 32
            else Z.lxor (nth 226 l 0) (times_A (nth 623 l 0 / 2 ^ 31 * 2 ^ 31 + nth 622 l 0 mod 2 ^ 31))) :: l
  end.
Definition sequence (seed : Z) (k : nat) : Z := hd 0 (terms seed (S k)).
Lemma terms_length seed n : length (terms seed n) = n.
Proof. induction n as [|n IH]; [reflexivity|]. cbn [terms length]. now rewrite IH. Qed.
Lemma terms_nth seed n i : (i < n)%nat -> nth i (terms seed n) 0 = sequence seed (n - 1 - i).
Proof.
  revert i. induction n as [|n IH]; intros i H; [lia|]. destruct i as [|i].
  - unfold sequence. replace (S (S n - 1 - 0)) with (S n) by lia. cbn [terms nth hd]. reflexivity.
  - cbn [terms nth]. rewrite IH by lia. f_equal. lia.
Qed.
Lemma sequence_eq seed n : sequence seed n =
  (if Nat.eqb n 0 then seed
   else if Nat.ltb n 624 then let p := hd 0 (terms seed n) in (1812433253 * Z.lxor p (p / 2 ^ 30) + Z.of_nat n) mod 2 ^ 32
   else Z.lxor (nth 226 (terms seed n) 0) (times_A (nth 623 (terms seed n) 0 / 2 ^ 31 * 2 ^ 31 + nth 622 (terms seed n) 0 mod 2 ^ 31))).
Proof. reflexivity. Qed.
Lemma sequence_mt seed : mt19937 seed (sequence seed).
Proof.
  split.
  - reflexivity.
  - intros i Hi. rewrite sequence_eq. rewrite (proj2 (Nat.eqb_neq i 0)), (proj2 (Nat.ltb_lt i 624)) by lia. cbv zeta.
    replace (hd 0 (terms seed i)) with (sequence seed (i - 1)); [reflexivity|]. unfold sequence. now replace (S (i - 1)) with i by lia.
  - intros k. rewrite sequence_eq. rewrite (proj2 (Nat.eqb_neq (k + 624) 0)), (proj2 (Nat.ltb_ge (k + 624) 624)) by lia.
    rewrite !terms_nth by lia. replace (k + 624 - 1 - 226)%nat with (k + 397)%nat by lia. replace (k + 624 - 1 - 623)%nat with k by lia.
    now replace (k + 624 - 1 - 622)%nat with (k + 1)%nat by lia.
Qed.
