(** Byte order. *)
From Verif Require Import Common CommonLemmas Endian_Spec Endian_Model.
Local Open Scope Z_scope.

Lemma conv_mod s n z : conv s n z mod 2 ^ (8 * Z.of_nat n) = z mod 2 ^ (8 * Z.of_nat n).
Proof.
  unfold conv. set (m := 2 ^ _). assert (0 < m) by (apply Z.pow_pos_nonneg; lia). destruct s.
  - rewrite Zminus_mod_idemp_l. f_equal. lia.
  - now rewrite Z.mod_mod by lia.
Qed.
Lemma half_pow n : (0 < n)%nat -> 2 ^ (8 * Z.of_nat n) / 2 = 2 ^ (8 * Z.of_nat n - 1) /\ 2 ^ (8 * Z.of_nat n) = 2 * 2 ^ (8 * Z.of_nat n - 1).
Proof.
  intros Hn. assert (E : 2 ^ (8 * Z.of_nat n) = 2 * 2 ^ (8 * Z.of_nat n - 1)).
  { rewrite <- Z.pow_succ_r by lia. f_equal. lia. }
  split; [|exact E]. rewrite E, Z.mul_comm. apply Z.div_mul. lia.
Qed.
Lemma conv_in s n z : (0 < n)%nat -> in_type s n (conv s n z).
Proof.
  intros Hn. unfold in_type, conv. destruct (half_pow n Hn) as [E1 E2]. rewrite E1.
  assert (0 < 2 ^ (8 * Z.of_nat n - 1)) by (apply Z.pow_pos_nonneg; lia).
  pose proof (Z.mod_pos_bound (z + 2 ^ (8 * Z.of_nat n - 1)) (2 ^ (8 * Z.of_nat n))).
  pose proof (Z.mod_pos_bound z (2 ^ (8 * Z.of_nat n))).
  destruct s; lia.
Qed.
Lemma in_type_unique s n a b : (0 < n)%nat -> in_type s n a -> in_type s n b ->
  a mod 2 ^ (8 * Z.of_nat n) = b mod 2 ^ (8 * Z.of_nat n) -> a = b.
Proof.
  intros Hn. unfold in_type. destruct (half_pow n Hn) as [_ E2].
  set (m := 2 ^ (8 * Z.of_nat n)) in *. set (h := 2 ^ (8 * Z.of_nat n - 1)) in *.
  assert (Hh : 0 < h) by (apply Z.pow_pos_nonneg; lia). intros Ha Hb E.
  assert (Hd : a - b = m * (a / m - b / m)).
  { rewrite (Z.div_mod a m), (Z.div_mod b m) at 1 by lia. rewrite E. ring. }
  destruct s; assert (a / m - b / m = 0) by nia; lia.
Qed.

(** le and little_order agree. *)
Lemma byte_S v i : byte v (S i) = byte (v / 256) i.
Proof.
  unfold byte. change 256 with (2 ^ 8) at 2. rewrite Z.div_div by (try apply Z.pow_pos_nonneg; lia). rewrite <- Z.pow_add_r by lia.
  do 3 f_equal. lia.
Qed.
Lemma little_le n : forall v, little_order n v = le n v.
Proof.
  unfold little_order. induction n as [|n IH]; intros v; [reflexivity|]. cbn [seq map le]. f_equal.
  - unfold byte. cbn. now rewrite Z.div_1_r.
  - rewrite <- seq_shift, map_map, <- IH. apply map_ext. intros i. apply byte_S.
Qed.
Lemma le_length n : forall v, length (le n v) = n.
Proof. induction n; intros; cbn [le length]; auto. Qed.
Lemma le_val_le n : forall v, le_val (le n v) = v mod 2 ^ (8 * Z.of_nat n).
Proof.
  induction n as [|n IH]; intros v; cbn [le le_val]; [symmetry; apply Z.mod_1_r|]. rewrite IH.
  replace (8 * Z.of_nat (S n)) with (8 + 8 * Z.of_nat n) by lia. rewrite Z.pow_add_r by lia. change (2 ^ 8) with 256.
  rewrite Z.rem_mul_r by (try apply Z.pow_pos_nonneg; lia). reflexivity.
Qed.
Lemma le_le_val l : bytes l -> le (length l) (le_val l) = l.
Proof.
  induction l as [|b l IH]; intros H; [reflexivity|]. apply bytes_cons in H as [Hb Hl]. cbn [length le le_val]. unfold is_byte in Hb.
  rewrite (Z.mul_comm 256), Z.mod_add, Z.div_add, Z.mod_small, Z.div_small by lia. f_equal. now apply IH.
Qed.
Lemma le_mod n : forall v w, v mod 2 ^ (8 * Z.of_nat n) = w mod 2 ^ (8 * Z.of_nat n) -> le n v = le n w.
Proof.
  intros v w E. rewrite <- !le_val_le in E. 
  assert (H : forall v, bytes (le n v)).
  { clear. induction n as [|n IH]; intros v; cbn [le]; [constructor|]. apply bytes_cons. split; [|apply IH].
    unfold is_byte. pose proof (Z.mod_pos_bound v 256). lia. }
  rewrite <- (le_le_val (le n v)), <- (le_le_val (le n w)) by apply H. rewrite !le_length. now rewrite E.
Qed.
Lemma le_bytes_ok n : forall v, bytes (le n v).
Proof.
  induction n as [|n IH]; intros v; cbn [le]; [constructor|]. apply bytes_cons. split; [|apply IH].
  unfold is_byte. pose proof (Z.mod_pos_bound v 256). lia.
Qed.
Lemma le_inj s n v w : (0 < n)%nat -> in_type s n v -> in_type s n w -> le n v = le n w -> v = w.
Proof. intros Hn Hv Hw E. apply (in_type_unique s n); try assumption. now rewrite <- !le_val_le, E. Qed.

(** ** Arrays *)
Lemma set_nth_length i x : forall p, length (set_nth i x p) = length p.
Proof. induction i as [|i IH]; intros [|a p]; cbn [set_nth length]; auto. Qed.
Lemma nth_set_nth i x : forall p j, (i < length p)%nat -> nth j (set_nth i x p) 0 = if (j =? i)%nat then x else nth j p 0.
Proof.
  induction i as [|i IH]; intros [|a p] j H; cbn [length] in H; try lia; destruct j as [|j]; cbn [set_nth nth Nat.eqb]; auto.
  apply IH. lia.
Qed.
Lemma nth_swap i j p k : (i < length p)%nat -> (j < length p)%nat ->
  nth k (swap i j p) 0 = if (k =? j)%nat then nth i p 0 else if (k =? i)%nat then nth j p 0 else nth k p 0.
Proof.
  intros Hi Hj. unfold swap. rewrite nth_set_nth by now rewrite set_nth_length. destruct (k =? j)%nat; [reflexivity|]. now apply nth_set_nth.
Qed.
Lemma swap_length i j p : length (swap i j p) = length p.
Proof. unfold swap. now rewrite !set_nth_length. Qed.
Lemma reverse_array_rev p : reverse_array p (length p) = rev p.
Proof.
  unfold reverse_array. set (n := length p).
  assert (H : forall k, (2 * k <= n)%nat -> let q := fold_left (fun p i => swap i (n - 1 - i) p) (seq 0 k) p in
    length q = n /\ forall j, (j < n)%nat -> nth j q 0 = if (j <? k)%nat || (n - k <=? j)%nat then nth (n - 1 - j) p 0 else nth j p 0).
  { induction k as [|k IH]; intros Hk; cbv zeta.
    - split; [reflexivity|]. intros j Hj. cbn [seq fold_left]. replace (j <? 0)%nat with false by (symmetry; apply Nat.ltb_ge; lia).
      replace (n - 0 <=? j)%nat with false by (symmetry; apply Nat.leb_gt; lia). reflexivity.
    - rewrite seq_S, fold_left_app. cbn [fold_left Nat.add]. destruct IH as [L IH]; [lia|]. split; [now rewrite swap_length|].
      intros j Hj. rewrite nth_swap by lia. rewrite !IH by lia.
      destruct (Nat.eqb_spec j (n - 1 - k)) as [E1|E1].
      + replace ((j <? S k)%nat || (n - S k <=? j)%nat) with true by (symmetry; apply orb_true_iff; right; apply Nat.leb_le; lia).
        replace ((k <? k)%nat || (n - k <=? k)%nat) with false by (symmetry; apply orb_false_iff; split; [apply Nat.ltb_ge|apply Nat.leb_gt]; lia).
        f_equal. lia.
      + destruct (Nat.eqb_spec j k) as [E2|E2].
        * subst j. replace ((k <? S k)%nat) with true by (symmetry; apply Nat.ltb_lt; lia). cbn [orb].
          replace ((n - 1 - k <? k)%nat || (n - k <=? n - 1 - k)%nat) with false by (symmetry; apply orb_false_iff; split; [apply Nat.ltb_ge|apply Nat.leb_gt]; lia).
          reflexivity.
        * replace ((j <? S k)%nat) with (j <? k)%nat by (destruct (Nat.ltb_spec j k), (Nat.ltb_spec j (S k)); lia || reflexivity).
          replace (n - S k <=? j)%nat with (n - k <=? j)%nat by (destruct (Nat.leb_spec (n - k) j), (Nat.leb_spec (n - S k) j); lia || reflexivity).
          reflexivity. }
  destruct (H (n / 2)%nat) as [L Hn].
  { pose proof (Nat.div_mod n 2). lia. }
  apply (nth_ext _ _ 0 0); [now rewrite rev_length|]. intros j Hj. rewrite L in Hj. rewrite Hn by exact Hj. rewrite rev_nth by exact Hj.
  fold n. destruct ((j <? n / 2)%nat || (n - n / 2 <=? j)%nat) eqn:E; [f_equal; lia|].
  apply orb_false_iff in E as [E1 E2]. apply Nat.ltb_ge in E1. apply Nat.leb_gt in E2. f_equal.
  pose proof (Nat.div_mod n 2). pose proof (Nat.mod_upper_bound n 2). lia.
Qed.
Lemma reverse_mem_rev p : reverse_mem (length p) p = rev p.
Proof.
  unfold reverse_mem.
  destruct p as [|a [|b [|c [|d [|e [|f [|g [|h [|i p]]]]]]]]]; try reflexivity; try exact (reverse_array_rev _).
Qed.

(** ** Bits *)
Lemma bit_mod n a b : a mod 2 ^ (8 * Z.of_nat n) = b mod 2 ^ (8 * Z.of_nat n) -> forall j, 0 <= j < 8 * Z.of_nat n -> Z.testbit a j = Z.testbit b j.
Proof.
  intros E j Hj. rewrite <- (Z.mod_pow2_bits_low a (8 * Z.of_nat n)), <- (Z.mod_pow2_bits_low b (8 * Z.of_nat n)) by lia. now rewrite E.
Qed.
Lemma bit_conv s n z j : 0 <= j < 8 * Z.of_nat n -> Z.testbit (conv s n z) j = Z.testbit z j.
Proof. apply bit_mod, conv_mod. Qed.
Lemma le_rev_bits n v w : (forall j, 0 <= j < 8 * Z.of_nat n -> Z.testbit w j = Z.testbit v (8 * (Z.of_nat n - 1 - j / 8) + j mod 8)) ->
  le n w = rev (le n v).
Proof.
  intros H. rewrite <- !little_le. unfold little_order.
  apply (nth_ext _ _ 0 0); [now rewrite rev_length, !map_length|]. intros i Hi. rewrite map_length, seq_length in Hi.
  rewrite rev_nth by (rewrite map_length, seq_length; lia). rewrite map_length, seq_length.
  rewrite !(nth_indep _ 0 (byte w 0)) by (rewrite map_length, seq_length; lia). rewrite map_nth.
  rewrite (nth_indep _ (byte w 0) (byte v 0)) by (rewrite map_length, seq_length; lia). rewrite map_nth.
  rewrite !seq_nth by lia. cbn [Nat.add]. unfold byte. change 256 with (2 ^ 8).
  apply Z.bits_inj'. intros k Hk. destruct (Z_lt_le_dec k 8) as [Hk8|Hk8].
  - rewrite !Z.mod_pow2_bits_low, !Z.div_pow2_bits by lia. rewrite H by lia. f_equal.
    replace (k + 8 * Z.of_nat i) with (k + Z.of_nat i * 8) by lia. rewrite Z.div_add, Z.mod_add by lia.
    rewrite Z.div_small, Z.mod_small by lia. lia.
  - now rewrite !Z.mod_pow2_bits_high by lia.
Qed.

Lemma bits_upto n (P : Z -> Prop) : Forall P (map Z.of_nat (seq 0 n)) -> forall j, 0 <= j < Z.of_nat n -> P j.
Proof.
  intros H j Hj. rewrite Forall_forall in H. apply H. apply in_map_iff. exists (Z.to_nat j). split; [lia|]. apply in_seq. lia.
Qed.
Lemma shl_hi a k j : 0 <= k <= j -> Z.testbit (Z.shiftl a k) j = Z.testbit a (j - k).
Proof. intros H. apply Z.shiftl_spec. lia. Qed.
Lemma shl_lo a k j : 0 <= j < k -> Z.testbit (Z.shiftl a k) j = false.
Proof. intros H. apply Z.shiftl_spec_low. lia. Qed.
Lemma high_bits n v j : in_type false n v -> 8 * Z.of_nat n <= j -> Z.testbit v j = false.
Proof.
  unfold in_type. intros Hv Hj. rewrite <- (Z.mod_small v (2 ^ (8 * Z.of_nat n))) by lia. apply Z.mod_pow2_bits_high. lia.
Qed.
Ltac bstep :=
  match goal with
  | |- context [Z.testbit (Z.lor ?a ?b) ?j] => rewrite (Z.lor_spec a b j)
  | |- context [Z.testbit (Z.land ?a ?b) ?j] =>
      rewrite (Z.land_spec a b j); let t := eval vm_compute in (Z.testbit b j) in change (Z.testbit b j) with t;
      rewrite ?andb_false_r, ?andb_true_r
  | |- context [Z.testbit (Z.shiftl ?a ?k) ?j] => first [rewrite (shl_hi a k j) by lia | rewrite (shl_lo a k j) by lia]
  | |- context [Z.testbit (Z.shiftr ?a ?k) ?j] => rewrite (Z.shiftr_spec a k j) by lia
  | |- context [Z.testbit (conv ?s ?n ?z) ?j] => rewrite (bit_conv s n z j) by lia
  | H : in_type false ?n ?v |- context [Z.testbit ?v ?j] => rewrite (high_bits n v j H) by lia
  end.
Ltac all_bits := apply bits_upto; cbn [seq map Z.of_nat Pos.of_succ_nat Pos.succ]; repeat constructor;
  repeat bstep; rewrite ?orb_false_r, ?orb_false_l; reflexivity.

Lemma short_bits v : le 2 (reverse true Short v) = rev (le 2 v).
Proof. apply le_rev_bits. unfold reverse. change (8 * Z.of_nat 2) with (Z.of_nat 16). all_bits. Qed.
Lemma ushort_bits v : in_type false 2 v -> le 2 (reverse true UShort v) = rev (le 2 v).
Proof. intros H. apply le_rev_bits. unfold reverse. change (8 * Z.of_nat 2) with (Z.of_nat 16). all_bits. Qed.
Lemma int_bits v : le 4 (reverse true Int v) = rev (le 4 v).
Proof. apply le_rev_bits. unfold reverse, int32. cbv zeta. change (8 * Z.of_nat 4) with (Z.of_nat 32). all_bits. Qed.
Lemma uint_bits v : in_type false 4 v -> le 4 (reverse true UInt v) = rev (le 4 v).
Proof. intros H. apply le_rev_bits. unfold reverse, uint32. cbv zeta. change (8 * Z.of_nat 4) with (Z.of_nat 32). all_bits. Qed.

(** ** Ranges *)
Lemma in_s32 x : in_type true 4 x <-> Z.shiftr x 31 = 0 \/ Z.shiftr x 31 = -1.
Proof.
  unfold in_type. change (2 ^ (8 * Z.of_nat 4 - 1)) with 2147483648. rewrite Z.shiftr_div_pow2 by lia. change (2 ^ 31) with 2147483648.
  pose proof (Z.div_mod x 2147483648). pose proof (Z.mod_pos_bound x 2147483648). lia.
Qed.
Lemma in_u32 x : in_type false 4 x <-> Z.shiftr x 32 = 0.
Proof.
  unfold in_type. change (2 ^ (8 * Z.of_nat 4)) with 4294967296. rewrite Z.shiftr_div_pow2 by lia. change (2 ^ 32) with 4294967296.
  pose proof (Z.div_mod x 4294967296). pose proof (Z.mod_pos_bound x 4294967296). lia.
Qed.
Lemma int_range v : in_type true 4 (reverse true Int v).
Proof.
  unfold reverse. cbv zeta. apply in_s32. rewrite Z.shiftr_lor, Z.shiftr_land. change (Z.shiftr 16711935 31) with 0. rewrite Z.land_0_r, Z.lor_0_r.
  apply in_s32, conv_in. lia.
Qed.
Lemma uint_range v : in_type false 4 (reverse true UInt v).
Proof.
  unfold reverse. cbv zeta. apply in_u32. rewrite Z.shiftr_lor, !Z.shiftr_land, Z.shiftr_shiftr by lia. rewrite Z.shiftr_shiftr by lia.
  change (Z.shiftr 4278255360 (8 + 32)) with 0. rewrite Z.land_0_r, Z.lor_0_r. apply in_u32, conv_in. lia.
Qed.

Definition ok_type (t : ty) : Prop := (0 < size t)%nat.
Lemma size_conv_in t z : ok_type t -> in_type (sgn t) (size t) (conv (sgn t) (size t) z).
Proof. apply conv_in. Qed.
Lemma store_length little n v : length (store little n v) = n.
Proof. unfold store. destruct little; rewrite ?rev_length; apply le_length. Qed.
Lemma load_le little s p : bytes p -> le (length p) (load little s p) = if little then p else rev p.
Proof.
  intros Hp. unfold load. rewrite (le_mod _ _ (le_val (if little then p else rev p))) by apply conv_mod.
  destruct little; [now apply le_le_val|]. rewrite <- (rev_length p). apply le_le_val. unfold bytes in *. now apply Forall_rev.
Qed.
Lemma reverse_ok little t v : ok_type t -> in_type (sgn t) (size t) v ->
  le (size t) (reverse little t v) = rev (le (size t) v) /\ in_type (sgn t) (size t) (reverse little t v).
Proof.
  intros Ht Hv. destruct t as [s| | | | |s n]; cbn [size sgn] in *.
  - split; [reflexivity|exact Hv].
  - split; [exact (short_bits v)|apply conv_in; lia].
  - split; [exact (ushort_bits v Hv)|apply conv_in; lia].
  - split; [exact (int_bits v)|exact (int_range v)].
  - split; [exact (uint_bits v Hv)|exact (uint_range v)].
  - unfold reverse.
    assert (E : reverse_mem n (store little n v) = rev (store little n v)).
    { pose proof (reverse_mem_rev (store little n v)) as H. now rewrite store_length in H. }
    rewrite E. assert (L : length (rev (store little n v)) = n) by now rewrite rev_length, store_length.
    assert (Hb : bytes (rev (store little n v))).
    { unfold bytes. apply Forall_rev. unfold store. destruct little; [|apply Forall_rev]; apply le_bytes_ok. }
    split.
    + rewrite <- L at 1. rewrite load_le by exact Hb. unfold store. destruct little; now rewrite ?rev_involutive.
    + unfold load. rewrite L. now apply conv_in.
Qed.
Lemma is_little_ok little : is_little little = little.
Proof. destruct little; reflexivity. Qed.
Lemma reverse_twice little t v : ok_type t -> in_type (sgn t) (size t) v -> reverse little t (reverse little t v) = v.
Proof.
  intros Ht Hv. destruct (reverse_ok little t v Ht Hv) as [E1 H1]. destruct (reverse_ok little t _ Ht H1) as [E2 H2].
  apply (le_inj (sgn t) (size t)); try assumption. now rewrite E2, E1, rev_involutive.
Qed.
