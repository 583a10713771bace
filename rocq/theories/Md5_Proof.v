From Verif Require Import Common CommonLemmas Md5_Model Md5_Spec.
Local Open Scope Z_scope.

(** ** Bit functions *)
Lemma bitwise_spec f x y z i : 0 <= i < 32 -> Z.testbit (bitwise f x y z) i = f (Z.testbit x i) (Z.testbit y i) (Z.testbit z i).
Proof.
  intros Hi. unfold bitwise.
  assert (G : forall n g, (forall j, 0 <= g j <= 1) ->
     let v := fold_right (fun i acc => g i * 2 ^ i + acc) 0 (range0 n) in 0 <= v < 2 ^ Z.of_nat n /\
       forall i, 0 <= i < Z.of_nat n -> Z.testbit v i = (g i =? 1)).
  { induction n as [|n IH]; intros g Hg; cbv zeta.
    - cbn. split; [lia|]. intros; lia.
    - unfold range0 in *. rewrite seq_S, map_app, fold_right_app. cbn [map fold_right plus]. rewrite Z.add_0_r.
      set (v := fold_right (fun i acc => g i * 2 ^ i + acc) 0 (map Z.of_nat (seq 0 n))).
      assert (E : fold_right (fun i acc => g i * 2 ^ i + acc) (g (Z.of_nat n) * 2 ^ Z.of_nat n) (map Z.of_nat (seq 0 n)) = v + g (Z.of_nat n) * 2 ^ Z.of_nat n).
      { unfold v. generalize (map Z.of_nat (seq 0 n)). intros l0. induction l0 as [|a l0 IHl]; cbn [fold_right]; [lia|]. rewrite IHl. lia. }
      rewrite E. specialize (IH g Hg). cbv zeta in IH. fold v in IH. destruct IH as [Hv Ht].
      rewrite Nat2Z.inj_succ, Z.pow_succ_r by lia. specialize (Hg (Z.of_nat n)). assert (0 < 2 ^ Z.of_nat n) by (apply Z.pow_pos_nonneg; lia).
      split; [nia|]. intros j Hj. rewrite Z.add_comm. rewrite <- lor_add by lia. rewrite Z.lor_spec.
      destruct (Z.eq_dec j (Z.of_nat n)) as [->|Hne].
      + rewrite Z.mul_pow2_bits by lia. rewrite Z.sub_diag.
        assert (Bv : Z.testbit v (Z.of_nat n) = false).
        { destruct (Z.eq_dec v 0) as [E0|]; [rewrite E0; apply Z.bits_0|]. apply Z.bits_above_log2; [lia|]. apply Z.log2_lt_pow2; lia. }
        rewrite Bv.
        rewrite orb_false_r. assert (g (Z.of_nat n) = 0 \/ g (Z.of_nat n) = 1) as [->| ->] by lia; reflexivity.
      + rewrite Z.mul_pow2_bits_low by lia. cbn. apply Ht. lia. }
  specialize (G 32%nat (fun i => if f (Z.testbit x i) (Z.testbit y i) (Z.testbit z i) then 1 else 0)).
  cbv zeta in G. destruct G as [_ G]; [intros j; destruct (f _ _ _); lia|].
  specialize (G i ltac:(lia)). rewrite <- (Z.mul_1_l 0) in G. 
  replace (fold_right _ 0 (range0 32)) with (fold_right (fun i acc => (if f (Z.testbit x i) (Z.testbit y i) (Z.testbit z i) then 1 else 0) * 2 ^ i + acc) 0 (range0 32)).
  - rewrite Z.mul_0_r in G. rewrite G. destruct (f _ _ _); reflexivity.
  - clear. induction (range0 32) as [|a l IH]; cbn [fold_right]; [reflexivity|]. rewrite IH. destruct (f _ _ _); lia.
Qed.
Lemma bitwise_range f x y z : 0 <= bitwise f x y z < 2 ^ 32.
Proof.
  unfold bitwise. assert (G : forall n, 0 <= fold_right (fun i acc => (if f (Z.testbit x i) (Z.testbit y i) (Z.testbit z i) then 2 ^ i else 0) + acc) 0 (range0 n) < 2 ^ Z.of_nat n); [|apply (G 32%nat)].
  induction n as [|n IH]; [cbn; lia|]. unfold range0 in *. rewrite seq_S, map_app, fold_right_app. cbn [map fold_right plus]. rewrite Z.add_0_r.
  set (e := if f _ _ _ then 2 ^ Z.of_nat n else 0).
  assert (E : forall l, fold_right (fun i acc => (if f (Z.testbit x i) (Z.testbit y i) (Z.testbit z i) then 2 ^ i else 0) + acc) e l =
    fold_right (fun i acc => (if f (Z.testbit x i) (Z.testbit y i) (Z.testbit z i) then 2 ^ i else 0) + acc) 0 l + e).
  { induction l as [|a l IHl]; cbn [fold_right]; [lia|]. rewrite IHl. lia. }
  rewrite E. rewrite Nat2Z.inj_succ, Z.pow_succ_r by lia. assert (0 < 2 ^ Z.of_nat n) by (apply Z.pow_pos_nonneg; lia).
  assert (0 <= e <= 2 ^ Z.of_nat n) by (unfold e; destruct (f _ _ _); lia). lia.
Qed.

Definition w32 (x : Z) : Prop := 0 <= x < 2 ^ 32.
Lemma w32_bit x i : w32 x -> 32 <= i -> Z.testbit x i = false.
Proof.
  intros Hx Hi. destruct (Z.eq_dec x 0) as [->|]; [apply Z.bits_0|]. apply Z.bits_above_log2; [unfold w32 in Hx; lia|].
  assert (Z.log2 x < 32) by (apply Z.log2_lt_pow2; unfold w32 in Hx; lia). lia.
Qed.
Lemma bits_eq x y : (forall i, 0 <= i -> Z.testbit x i = Z.testbit y i) -> x = y.
Proof. intros H. apply Z.bits_inj'. exact H. Qed.
Lemma u32_bit x i : 0 <= i -> Z.testbit (Md5_Model.u32 x) i = (i <? 32) && Z.testbit x i.
Proof.
  intros. unfold Md5_Model.u32. destruct (Z.ltb_spec i 32).
  - rewrite Z.mod_pow2_bits_low by lia. reflexivity.
  - rewrite Z.mod_pow2_bits_high by lia. reflexivity.
Qed.

Ltac bitfun x y z := intros Hx Hy Hz; apply bits_eq; intros i Hi;
  destruct (Z.ltb_spec i 32) as [Hl|Hl];
  [rewrite bitwise_spec by lia|rewrite (w32_bit (bitwise _ _ _ _)) by (apply bitwise_range || lia)];
  unfold ff, gg, hh, ii; rewrite ?Z.lor_spec, ?Z.lxor_spec, ?Z.land_spec, ?Z.lor_spec, ?u32_bit, ?Z.lnot_spec by lia;
  [rewrite ?(proj2 (Z.ltb_lt i 32)) by lia; cbn [andb]|rewrite ?(proj2 (Z.ltb_ge i 32)) by lia; rewrite ?(w32_bit x), ?(w32_bit y), ?(w32_bit z) by (assumption || lia); cbn [andb]];
  destruct (Z.testbit x i), (Z.testbit y i), (Z.testbit z i); reflexivity.
Lemma ff_F x y z : w32 x -> w32 y -> w32 z -> ff x y z = F x y z.
Proof. unfold F. bitfun x y z. Qed.
Lemma gg_G x y z : w32 x -> w32 y -> w32 z -> gg x y z = G x y z.
Proof. unfold G. bitfun x y z. Qed.
Lemma hh_H x y z : w32 x -> w32 y -> w32 z -> hh x y z = H x y z.
Proof. unfold H. bitfun x y z. Qed.
Lemma ii_I x y z : w32 x -> w32 y -> w32 z -> ii x y z = I x y z.
Proof. unfold I. bitfun x y z. Qed.

Lemma rot_rotl x s : w32 x -> 0 < s < 32 -> rot x s = rotl x s.
Proof.
  intros Hx Hs. unfold rot, rotl, Md5_Model.u32. rewrite Z.shiftl_mul_pow2, Z.shiftr_div_pow2 by lia.
  assert (E : x * 2 ^ s mod 2 ^ 32 = (x mod 2 ^ (32 - s)) * 2 ^ s).
  { replace (2 ^ 32) with (2 ^ (32 - s) * 2 ^ s) by (rewrite <- Z.pow_add_r by lia; f_equal; lia).
    apply Z.mul_mod_distr_r; apply Z.pow_nonzero; lia. }
  rewrite E. apply lor_add; [lia|]. split; [apply Z.div_pos; [apply Hx|apply Z.pow_pos_nonneg; lia]|].
  apply Z.div_lt_upper_bound; [apply Z.pow_pos_nonneg; lia|]. rewrite <- Z.pow_add_r by lia. replace (32 - s + s) with 32 by lia. apply Hx.
Qed.

(** ** The sixty-four steps *)
Definition mac (j : nat) : macro := if (j <? 16)%nat then R1 else if (j <? 32)%nat then R2 else if (j <? 48)%nat then R3 else R4.
Definition prm (j : nat) : perm := match Nat.modulo j 4 with 0 => ABCD | 1 => DABC | 2 => CDAB | _ => BCDA end%nat.
Lemma ops_regular : ops = map (fun j => (mac j, prm j, kround j, sround j, S j)) (seq 0 64).
Proof. vm_compute. reflexivity. Qed.

(** The register file of the code seen in the rotated roles of step [j]. *)
Definition view (j : nat) (r : regs) : regs :=
  let '(a, b, c, d) := r in
  match Nat.modulo j 4 with 0 => (a, b, c, d) | 1 => (d, a, b, c) | 2 => (c, d, a, b) | _ => (b, c, d, a) end%nat.
Definition rok (r : regs) : Prop := let '(a, b, c, d) := r in w32 a /\ w32 b /\ w32 c /\ w32 d.

Lemma mfun_fround j x y z : w32 x -> w32 y -> w32 z -> mfun (mac j) x y z = fround j x y z.
Proof.
  intros. unfold mac, fround. destruct (j <? 16)%nat; [now apply ff_F|]. destruct (j <? 32)%nat; [now apply gg_G|].
  destruct (j <? 48)%nat; [now apply hh_H|now apply ii_I].
Qed.
Lemma sround_range j : 0 < sround j < 32.
Proof.
  unfold sround. assert (Nat.modulo j 4 < 4)%nat by (apply Nat.mod_upper_bound; lia).
  destruct (Nat.modulo j 4) as [|[|[|[|]]]]; try lia;
  destruct (j <? 16)%nat; try (cbn; lia); destruct (j <? 32)%nat; try (cbn; lia); destruct (j <? 48)%nat; cbn; lia.
Qed.
Lemma u32_w32 x : w32 (Md5_Model.u32 x).
Proof. apply Z.mod_pos_bound. lia. Qed.

Lemma step_view x T j r : rok r ->
  view (S j) (step x T r (mac j, prm j, kround j, sround j, S j)) = rfc_step T x (view j r) j /\
  rok (step x T r (mac j, prm j, kround j, sround j, S j)).
Proof.
  destruct r as [[[a b] c] d]. intros (Ha & Hb & Hc & Hd).
  assert (A : forall p q u v, w32 p -> w32 q -> w32 u -> w32 v ->
    assign (mac j) x T p q u v (kround j) (sround j) (S j) =
    (q + rotl ((p + fround j q u v + x (kround j) + T (S j)) mod 2 ^ 32) (sround j)) mod 2 ^ 32).
  { intros p q u v Hp Hq Hu Hv. unfold assign. rewrite mfun_fround by assumption. rewrite rot_rotl by (apply u32_w32 || apply sround_range). reflexivity. }
  assert (W : forall p q u v, w32 (assign (mac j) x T p q u v (kround j) (sround j) (S j))) by (intros; apply u32_w32).
  unfold view, step, prm, rfc_step.
  assert (M : Nat.modulo (S j) 4 = match Nat.modulo j 4 with 0 => 1 | 1 => 2 | 2 => 3 | _ => 0 end%nat).
  { assert (Hj : (Nat.modulo j 4 < 4)%nat) by (apply Nat.mod_upper_bound; lia).
    replace (S j) with (j + 1)%nat by lia. rewrite <- Nat.add_mod_idemp_l by lia.
    destruct (Nat.modulo j 4) as [|[|[|[|]]]]; try lia; reflexivity. }
  rewrite M. assert (Hj : (Nat.modulo j 4 < 4)%nat) by (apply Nat.mod_upper_bound; lia).
  destruct (Nat.modulo j 4) as [|[|[|[|]]]]; try lia; (split; [rewrite A by assumption; reflexivity|unfold rok; repeat match goal with |- _ /\ _ => split end; first [assumption|apply W]]).
Qed.

Lemma steps_view x T n : forall j r, rok r ->
  let r' := fold_left (step x T) (map (fun j => (mac j, prm j, kround j, sround j, S j)) (seq j n)) r in
  view (j + n) r' = fold_left (rfc_step T x) (seq j n) (view j r) /\ rok r'.
Proof.
  induction n as [|n IH]; intros j r Hr; cbv zeta.
  - cbn. rewrite Nat.add_0_r. auto.
  - cbn [seq map fold_left]. destruct (step_view x T j r Hr) as [E Hr']. specialize (IH (S j) _ Hr'). cbv zeta in IH.
    rewrite <- E. replace (j + S n)%nat with (S j + n)%nat by lia. exact IH.
Qed.

Lemma compress_ok T r blk : rok r -> compress T r (fun k => nth k blk 0) = rfc_block T r blk /\ rok (compress T r (fun k => nth k blk 0)).
Proof.
  intros Hr. unfold compress, rfc_block. rewrite ops_regular.
  destruct (steps_view (fun k => nth k blk 0) T 64 0 r Hr) as [E _]. cbv zeta in E. change (0 + 64)%nat with 64%nat in E.
  change (view 0 r) with (let '(a, b, c, d) := r in (a, b, c, d)) in E.
  destruct r as [[[aa bb] cc] dd]. cbv zeta iota in E. rewrite <- E.
  destruct (fold_left (step _ T) _ _) as [[[a b] c] d]. unfold view. change (Nat.modulo 64 4) with 0%nat. cbv iota.
  unfold Md5_Model.u32. rewrite !(Z.add_comm _ aa), !(Z.add_comm _ bb), !(Z.add_comm _ cc), !(Z.add_comm _ dd). split; [reflexivity|].
  repeat split; apply Z.mod_pos_bound; lia.
Qed.

(** ** The block reader *)
(** Taking [n] bytes. *)
Fixpoint get_bytes (n : nat) (s : buf) : list Z * buf :=
  match n with O => ([], s) | S m => let (b, s) := get_byte s in let (bs, s) := get_bytes m s in (b :: bs, s) end.
Definition okb (s : buf) : Prop := bytes (left s) /\ is_byte (ovr s).
Lemma get_byte_ok s : okb s -> is_byte (fst (get_byte s)) /\ okb (snd (get_byte s)).
Proof.
  intros [Hl Ho]. unfold get_byte. destruct (left s) as [|c r] eqn:E; cbn; unfold okb; cbn.
  - split; [assumption|]. split; [constructor|unfold is_byte; lia].
  - apply bytes_cons in Hl as [Hc Hr]. auto.
Qed.
Lemma word_val a b c d : is_byte a -> is_byte b -> is_byte c -> is_byte d ->
  Z.lor (Z.lor (Z.lor a (Z.shiftl b 8)) (Z.shiftl c 16)) (Z.shiftl d 24) = a + 2 ^ 8 * b + 2 ^ 16 * c + 2 ^ 24 * d.
Proof.
  unfold is_byte. intros Ha Hb Hc Hd. rewrite (Z.lor_comm a), lor_shiftl_add by lia.
  rewrite (Z.lor_comm _ (Z.shiftl c 16)), lor_shiftl_add by lia.
  rewrite (Z.lor_comm _ (Z.shiftl d 24)), lor_shiftl_add by lia. lia.
Qed.
Lemma get_words_bytes n : forall s, okb s -> get_words n s = (words (fst (get_bytes (4 * n) s)), snd (get_bytes (4 * n) s)) /\ okb (snd (get_bytes (4 * n) s)).
Proof.
  induction n as [|n IH]; intros s Hs; [cbn; auto|].
  replace (4 * S n)%nat with (S (S (S (S (4 * n))))) by lia. cbn [get_words get_bytes]. unfold get_word.
  destruct (get_byte_ok s Hs) as [B1 O1]. destruct (get_byte s) as [a s1]. cbn [fst snd] in *.
  destruct (get_byte_ok s1 O1) as [B2 O2]. destruct (get_byte s1) as [b s2]. cbn [fst snd] in *.
  destruct (get_byte_ok s2 O2) as [B3 O3]. destruct (get_byte s2) as [c s3]. cbn [fst snd] in *.
  destruct (get_byte_ok s3 O3) as [B4 O4]. destruct (get_byte s3) as [d s4]. cbn [fst snd] in *.
  destruct (IH s4 O4) as [E O5]. rewrite E. destruct (get_bytes (4 * n) s4) as [l s5]. cbn [fst snd words] in *.
  rewrite word_val by assumption. auto.
Qed.

Lemma get_bytes_within n : forall l o f c, (n <= length l)%nat -> 0 <= c -> c + Z.of_nat n < 2 ^ 64 ->
  get_bytes n (mkBuf l o f c) = (firstn n l, mkBuf (skipn n l) o f (c + Z.of_nat n)).
Proof.
  induction n as [|n IH]; intros l o f c Hn Hc0 Hc; [cbn; now rewrite Z.add_0_r|].
  destruct l as [|x l]; [cbn in Hn; lia|]. cbn [get_bytes]. unfold get_byte at 1. cbn [left ovr fin cnt].
  rewrite Z.mod_small by lia. rewrite IH by (cbn in Hn; lia). cbn [firstn skipn]. do 2 f_equal. lia.
Qed.
Lemma get_bytes_zero n : forall f c, get_bytes n (mkBuf [] 0 f c) = (repeat 0 n, mkBuf [] 0 f c).
Proof. induction n as [|n IH]; intros f c; [reflexivity|]. cbn [get_bytes]. unfold get_byte at 1. cbn [left ovr fin cnt]. rewrite IH. reflexivity. Qed.
Lemma get_bytes_app n m s : get_bytes (n + m) s = (fst (get_bytes n s) ++ fst (get_bytes m (snd (get_bytes n s))), snd (get_bytes m (snd (get_bytes n s)))).
Proof.
  revert s. induction n as [|n IH]; intros s; cbn [plus get_bytes].
  - cbn. destruct (get_bytes m s); reflexivity.
  - destruct (get_byte s) as [b s1]. rewrite IH. destruct (get_bytes n s1) as [bs s2]. cbn [fst snd]. destruct (get_bytes m s2). reflexivity.
Qed.
Lemma get_bytes_past n l o f c : (length l < n)%nat -> 0 <= c -> c + Z.of_nat (length l) < 2 ^ 64 ->
  get_bytes n (mkBuf l o f c) = (l ++ [o] ++ repeat 0 (n - length l - 1), mkBuf [] 0 f (c + Z.of_nat (length l))).
Proof.
  intros Hn Hc0 Hc. replace n with (length l + (1 + (n - length l - 1)))%nat at 1 by lia. rewrite get_bytes_app.
  rewrite get_bytes_within by lia. cbn [fst snd]. rewrite firstn_all, skipn_all. cbn [plus get_bytes]. unfold get_byte. cbn [left ovr fin cnt].
  rewrite get_bytes_zero. reflexivity.
Qed.

Lemma words_app n : forall a b, length a = (4 * n)%nat -> words (a ++ b) = words a ++ words b.
Proof.
  induction n as [|n IH]; intros a b L.
  - destruct a; [reflexivity|cbn in L; lia].
  - destruct a as [|x [|y [|z [|w a]]]]; try (cbn in L; lia). cbn [app words]. rewrite IH by (cbn in L; lia). reflexivity.
Qed.
Lemma words_len n : forall a, length a = (4 * n)%nat -> length (words a) = n.
Proof.
  induction n as [|n IH]; intros a L.
  - destruct a; [reflexivity|cbn in L; lia].
  - destruct a as [|x [|y [|z [|w a]]]]; try (cbn in L; lia). cbn [words length]. rewrite IH by (cbn in L; lia). reflexivity.
Qed.

Lemma get_bytes_len n : forall s, length (fst (get_bytes n s)) = n.
Proof. induction n as [|n IH]; intros s; [reflexivity|]. cbn [get_bytes]. destruct (get_byte s) as [b s1]. specialize (IH s1). destruct (get_bytes n s1). cbn in *. lia. Qed.

(** A block that is not the last one is the next 64 bytes. *)
Lemma get_block_more s : okb s -> (forall s1, s1 = snd (get_bytes 56 s) -> left s1 <> [] \/ ovr s1 <> 0) ->
  get_block s = (words (fst (get_bytes 64 s)), snd (get_bytes 64 s)).
Proof.
  intros Hs Hm. unfold get_block. destruct (get_words_bytes 14 s Hs) as [E O]. rewrite E. change (4 * 14)%nat with 56%nat in *.
  specialize (Hm _ eq_refl). change 64%nat with (56 + 8)%nat. rewrite get_bytes_app. cbn [fst snd].
  set (s1 := snd (get_bytes 56 s)) in *.
  assert (E2 : (let (l, s0) := get_words 2 s1 in (words (fst (get_bytes 56 s)) ++ l, s0)) =
    (words (fst (get_bytes 56 s) ++ fst (get_bytes 8 s1)), snd (get_bytes 8 s1))).
  { destruct (get_words_bytes 2 s1 O) as [E2 _]. rewrite E2. change (4 * 2)%nat with 8%nat. rewrite (words_app 14) by apply get_bytes_len. reflexivity. }
  destruct (left s1) eqn:El; [|exact E2]. destruct (Z.eqb_spec (ovr s1) 0) as [E0|]; [|exact E2]. destruct Hm; congruence.
Qed.
Lemma get_block_last s : okb s -> left (snd (get_bytes 56 s)) = [] -> ovr (snd (get_bytes 56 s)) = 0 ->
  let c := cnt (snd (get_bytes 56 s)) in
  get_block s = (words (fst (get_bytes 56 s)) ++ [Md5_Model.u32 (Z.shiftl c 3 mod 2 ^ 64); Md5_Model.u32 (Z.shiftr c 29)], mkBuf [] 0 true c).
Proof.
  intros Hs Hl Ho. cbv zeta. unfold get_block. destruct (get_words_bytes 14 s Hs) as [E O]. rewrite E. change (4 * 14)%nat with 56%nat in *.
  rewrite Hl, Ho. reflexivity.
Qed.

(** The two length words. *)
Lemma length_words n : 0 <= n < 2 ^ 64 ->
  [Md5_Model.u32 (Z.shiftl n 3 mod 2 ^ 64); Md5_Model.u32 (Z.shiftr n 29)] = words (le_bytes 8 (8 * n)).
Proof.
  intros Hn. cbn [le_bytes words]. rewrite Z.shiftl_mul_pow2, Z.shiftr_div_pow2 by lia. unfold Md5_Model.u32.
  assert (P : forall m, 0 <= m -> m mod 2 ^ 32 = m mod 256 + 2 ^ 8 * (m / 256 mod 256) + 2 ^ 16 * (m / 256 / 256 mod 256) + 2 ^ 24 * (m / 256 / 256 / 256 mod 256)).
  { intros m Hm. rewrite !Z.div_div by lia. cbn [Z.mul Pos.mul].
    replace (2 ^ 32) with (256 * (256 * (256 * 256))) by reflexivity. rewrite !Z.rem_mul_r by lia. rewrite !Z.div_div by lia. lia. }
  f_equal; [|f_equal].
  - rewrite <- P by lia. rewrite <- Znumtheory.Zmod_div_mod; [f_equal; lia|lia|lia|]. exists (2 ^ 32). reflexivity.
  - rewrite <- P by (apply Z.div_pos; [|lia]; repeat (apply Z.div_pos; [|lia]); lia). f_equal.
    rewrite !Z.div_div by lia. change (256 * (256 * (256 * 256))) with (8 * 2 ^ 29) || change (256 * 256 * 256 * 256) with (8 * 2 ^ 29). rewrite Z.div_mul_cancel_l by lia. reflexivity.
Qed.

Lemma calc_loop_S f T r s : calc_loop (S f) T r s = if fin s then Ok r else let (ws, s) := get_block s in calc_loop f T (compress T r (fun k => nth k ws 0)) s.
Proof. reflexivity. Qed.
Lemma le_bytes_len n : forall z, length (le_bytes n z) = n.
Proof. induction n; intros; cbn; auto. Qed.

(** The remaining blocks when [l] bytes are left of a message of [N] bytes. *)
Definition tail (l : list Z) (N : Z) : list Z :=
  l ++ [128] ++ repeat 0 (Z.to_nat ((55 - Z.of_nat (length l)) mod 64)) ++ le_bytes 8 (8 * N).
Definition rest_digest (T : nat -> Z) (l : list Z) (N : Z) (r : regs) : regs :=
  let ws := words (tail l N) in fold_left (rfc_block T) (blocks (Nat.div (length ws) 16) ws) r.

Lemma blocks_step T b ws r : length b = 16%nat -> Nat.modulo (length ws) 16 = 0%nat ->
  fold_left (rfc_block T) (blocks (Nat.div (length (b ++ ws)) 16) (b ++ ws)) r =
  fold_left (rfc_block T) (blocks (Nat.div (length ws) 16) ws) (rfc_block T r b).
Proof.
  intros Hb Hw. rewrite app_length, Hb. replace (Nat.div (16 + length ws) 16) with (S (Nat.div (length ws) 16)).
  - cbn [blocks fold_left]. rewrite firstn_app, skipn_app, Hb, Nat.sub_diag, <- Hb, firstn_all, skipn_all. cbn. now rewrite app_nil_r.
  - replace (16 + length ws)%nat with (length ws + 1 * 16)%nat by lia. rewrite Nat.div_add by lia. lia.
Qed.
Lemma tail_len l N : exists n, length (tail l N) = (64 * n)%nat.
Proof.
  unfold tail. rewrite !app_length, repeat_length, le_bytes_len. cbn [length].
  exists (Z.to_nat ((Z.of_nat (length l) + 9 + (55 - Z.of_nat (length l)) mod 64) / 64)). lia.
Qed.

Lemma calc_tail T N : 0 <= N < 2 ^ 64 -> forall l c r fuel, bytes l -> rok r -> 0 <= c -> c + Z.of_nat (length l) = N ->
  (2 + length l <= fuel)%nat ->
  calc_loop fuel T r (mkBuf l 128 false c) = Ok (rest_digest T l N r).
Proof.
  intros HN. refine (list_len_ind _ _). intros l IH c r fuel Hl Hr Hc0 Hc Hf.
  destruct fuel as [|fuel]; [lia|]. rewrite calc_loop_S. cbn [fin].
  assert (Hob : okb (mkBuf l 128 false c)) by (split; [exact Hl|unfold is_byte; cbn; lia]).
  destruct (Nat.le_gt_cases 64 (length l)) as [H64|H64].
  - (* a full block of message *)
    rewrite get_block_more; [|exact Hob|].
    2: { intros s1 ->. rewrite get_bytes_within by lia. cbn [snd left]. left. intros E. apply (f_equal (@length Z)) in E. rewrite skipn_length in E. cbn [length] in E. lia. }
    rewrite get_bytes_within by lia. cbn [fst snd].
    destruct (compress_ok T r (words (firstn 64 l)) Hr) as [E Hr']. rewrite E in Hr'. rewrite E.
    rewrite IH; try assumption.
    + f_equal. unfold rest_digest. cbv zeta. assert (Et : tail l N = firstn 64 l ++ tail (skipn 64 l) N).
      { unfold tail. rewrite (app_assoc (firstn 64 l)), firstn_skipn. f_equal. f_equal. f_equal. f_equal. f_equal. rewrite skipn_length.
        replace (55 - Z.of_nat (length l - 64)) with (55 - Z.of_nat (length l) + 1 * 64) by lia. now rewrite Z.mod_add by lia. }
      rewrite Et, (words_app 16) by (rewrite firstn_length; lia). rewrite blocks_step; [reflexivity|apply words_len; rewrite firstn_length; lia|].
      destruct (tail_len (skipn 64 l) N) as (n & Ln). rewrite (words_len (16 * n)) by lia. rewrite Nat.mul_comm, Nat.mod_mul by lia. reflexivity.
    + rewrite skipn_length. lia.
    + apply Forall_forall. intros x Hx. unfold bytes in Hl. rewrite Forall_forall in Hl. apply Hl. rewrite <- (firstn_skipn 64 l). apply in_or_app. now right.
    + lia.
    + rewrite skipn_length. lia.
    + rewrite skipn_length. lia.
  - destruct (Nat.le_gt_cases 56 (length l)) as [H56|H56].
    + (* the padding does not fit: two blocks *)
      rewrite get_block_more; [|exact Hob|].
      2: { intros s1 ->. rewrite get_bytes_within by lia. cbn [snd ovr]. right. lia. }
      rewrite get_bytes_past by lia. cbn [fst snd].
      set (b1 := l ++ [128] ++ repeat 0 (64 - length l - 1)).
      destruct (compress_ok T r (words b1) Hr) as [E Hr']. rewrite E in Hr'. rewrite E.
      destruct fuel as [|fuel]; [lia|]. rewrite calc_loop_S. cbn [fin].
      assert (Ho2 : okb (mkBuf [] 0 false (c + Z.of_nat (length l)))) by (split; [constructor|unfold is_byte; cbn; lia]).
      rewrite get_block_last; [|exact Ho2|rewrite get_bytes_zero; reflexivity|rewrite get_bytes_zero; reflexivity].
      rewrite get_bytes_zero. cbn [fst snd cnt]. rewrite Hc, length_words by exact HN.
      rewrite <- (words_app 14) by (rewrite repeat_length; reflexivity).
      destruct fuel as [|fuel]; [lia|]. rewrite calc_loop_S. cbn [fin]. f_equal.
      destruct (compress_ok T (rfc_block T r (words b1)) (words (repeat 0 56 ++ le_bytes 8 (8 * N))) Hr') as [E2 _]. rewrite E2.
      unfold rest_digest. cbv zeta.
      assert (Et : tail l N = b1 ++ (repeat 0 56 ++ le_bytes 8 (8 * N)) ++ []).
      { unfold tail, b1. rewrite app_nil_r, <- !app_assoc. do 2 f_equal. rewrite app_assoc, <- repeat_app. do 2 f_equal. lia. }
      assert (L1 : length b1 = 64%nat) by (unfold b1; rewrite !app_length, repeat_length; cbn [length]; lia).
      rewrite Et, (words_app 16 b1) by exact L1. rewrite blocks_step; [|apply words_len; exact L1|].
      * rewrite (words_app 16 (repeat 0 56 ++ le_bytes 8 (8 * N))) by (rewrite app_length, repeat_length, le_bytes_len; reflexivity). rewrite blocks_step; [reflexivity| |reflexivity].
        apply words_len. rewrite app_length, repeat_length, le_bytes_len. reflexivity.
      * rewrite (words_len 16); [reflexivity|]. rewrite app_nil_r, app_length, repeat_length, le_bytes_len. reflexivity.
    + (* the last block *)
      assert (G : get_bytes 56 (mkBuf l 128 false c) = (l ++ [128] ++ repeat 0 (56 - length l - 1), mkBuf [] 0 false (c + Z.of_nat (length l)))) by (apply get_bytes_past; lia).
      rewrite get_block_last; [|exact Hob|rewrite G; reflexivity|rewrite G; reflexivity].
      rewrite G. cbn [fst snd cnt]. rewrite Hc, length_words by exact HN.
      set (b1 := l ++ [128] ++ repeat 0 (56 - length l - 1)).
      assert (L1 : length b1 = 56%nat) by (unfold b1; rewrite !app_length, repeat_length; cbn [length]; lia).
      rewrite <- (words_app 14) by exact L1.
      destruct fuel as [|fuel]; [lia|]. rewrite calc_loop_S. cbn [fin]. f_equal.
      destruct (compress_ok T r (words (b1 ++ le_bytes 8 (8 * N))) Hr) as [E2 _]. rewrite E2.
      unfold rest_digest. cbv zeta.
      assert (Et : tail l N = (b1 ++ le_bytes 8 (8 * N)) ++ []).
      { unfold tail, b1. rewrite app_nil_r, <- !app_assoc. do 4 f_equal. lia. }
      rewrite Et, (words_app 16 (b1 ++ le_bytes 8 (8 * N))) by (rewrite app_length, L1, le_bytes_len; reflexivity). rewrite blocks_step; [reflexivity| |reflexivity].
      apply words_len. rewrite app_length, L1, le_bytes_len. reflexivity.
Qed.

Theorem md5_rfc T s : bytes s -> Z.of_nat (length s) < 2 ^ 64 -> md5sum T s = Ok (rfc1321 T s).
Proof.
  intros Hs Hn. unfold md5sum, buf_init. rewrite (calc_tail T (Z.of_nat (length s))); try lia; auto.
  repeat split; unfold w32; lia.
Qed.

(** The printed form. *)
Lemma hexword_ok w : 0 <= w < 2 ^ 32 -> hexword w = flat_map hex2 (le_bytes 4 w).
Proof.
  intros Hw. unfold hexword. cbn [le_bytes flat_map].
  change 255 with (Z.ones 8). rewrite !Z.land_ones by lia. rewrite !Z.shiftr_div_pow2 by lia. rewrite !Z.div_div by lia.
  rewrite app_nil_r. reflexivity.
Qed.
Lemma rfc_block_range T r b : rok (rfc_block T r b).
Proof. unfold rfc_block. destruct r as [[[a0 b0] c0] d0]. destruct (fold_left _ _ _) as [[[a1 b1] c1] d1]. repeat split; apply Z.mod_pos_bound; lia. Qed.
Lemma rfc_range T s : rok (rfc1321 T s).
Proof.
  unfold rfc1321. cbv zeta. set (bl := blocks _ _). clearbody bl.
  assert (G : forall r, rok r -> rok (fold_left (rfc_block T) bl r)); [|apply G; repeat split; unfold w32; lia].
  induction bl as [|b bl IH]; intros r Hr; cbn [fold_left]; [exact Hr|]. apply IH, rfc_block_range.
Qed.
Theorem md5_print_ok T s : md5_print (rfc1321 T s) = flat_map hex2 (digest_bytes (rfc1321 T s)).
Proof.
  pose proof (rfc_range T s) as H. destruct (rfc1321 T s) as [[[a b] c] d]. destruct H as (Ha & Hb & Hc & Hd).
  unfold md5_print, digest_bytes. rewrite !flat_map_app, !hexword_ok by assumption. reflexivity.
Qed.

Theorem md5_lt_total x y : (md5_lt x y = true \/ x = y \/ md5_lt y x = true) /\ md5_lt x x = false /\ (md5_lt x y = true -> md5_lt y x = false).
Proof.
  destruct x as [[[a b] c] d], y as [[[a' b'] c'] d']. unfold md5_lt.
  split; [|split].
  - destruct (Z.eqb_spec a a'), (Z.eqb_spec a' a), (Z.eqb_spec b b'), (Z.eqb_spec b' b), (Z.eqb_spec c c'), (Z.eqb_spec c' c); cbn [negb]; try lia.
    all: try (destruct (Z.lt_total d d') as [?|[?|?]]; [left; lia|right; left; congruence|right; right; lia]).
    all: lia.
  - rewrite !Z.eqb_refl. cbn. lia.
  - destruct (Z.eqb_spec a a'), (Z.eqb_spec a' a), (Z.eqb_spec b b'), (Z.eqb_spec b' b), (Z.eqb_spec c c'), (Z.eqb_spec c' c); cbn [negb]; lia.
Qed.
Theorem md5_lt_trans x y z : md5_lt x y = true -> md5_lt y z = true -> md5_lt x z = true.
Proof.
  destruct x as [[[a b] c] d], y as [[[a' b'] c'] d'], z as [[[a2 b2] c2] d2]. unfold md5_lt.
  destruct (Z.eqb_spec a a'), (Z.eqb_spec a' a2), (Z.eqb_spec a a2); cbn [negb]; try lia.
  destruct (Z.eqb_spec b b'), (Z.eqb_spec b' b2), (Z.eqb_spec b b2); cbn [negb]; try lia.
  destruct (Z.eqb_spec c c'), (Z.eqb_spec c' c2), (Z.eqb_spec c c2); cbn [negb]; lia.
Qed.

Lemma hex2_hexadecimal n : 0 <= n < 256 -> hex2 n = hexadecimal n.
Proof.
  assert (D : forall d, 0 <= d < 16 -> hexdigit d = nth (Z.to_nat d) digits 0).
  { intros d Hd. assert (E : forallb (fun k => hexdigit (Z.of_nat k) =? nth k digits 0) (seq 0 16) = true) by (vm_compute; reflexivity).
    rewrite forallb_forall in E. specialize (E (Z.to_nat d) ltac:(apply in_seq; lia)). rewrite Z2Nat.id in E by lia. now apply Z.eqb_eq. }
  intros H. unfold hex2, hexadecimal. rewrite !D; [reflexivity|apply Z.mod_pos_bound; lia|]. split; [apply Z.div_pos; lia|apply Z.div_lt_upper_bound; lia].
Qed.
Lemma le_bytes_byte n : forall z, Forall (fun b => 0 <= b < 256) (le_bytes n z).
Proof. induction n as [|n IH]; intros z; cbn [le_bytes]; constructor; [apply Z.mod_pos_bound; lia|apply IH]. Qed.
Theorem md5_print_hexadecimal T s : md5_print (rfc1321 T s) = flat_map hexadecimal (digest_bytes (rfc1321 T s)).
Proof.
  rewrite md5_print_ok. assert (H : Forall (fun b => 0 <= b < 256) (digest_bytes (rfc1321 T s))).
  { unfold digest_bytes. destruct (rfc1321 T s) as [[[a b] c] d]. rewrite !Forall_app. repeat split; apply le_bytes_byte. }
  induction H as [|b l Hb _ IH]; [reflexivity|]. cbn [flat_map]. now rewrite IH, hex2_hexadecimal.
Qed.
