From Verif Require Import Common CommonLemmas Code_Model Code_Spec.
Local Open Scope Z_scope.

(** ** Powers of two *)
Lemma p2pos n : 0 <= n -> 0 < 2 ^ n.
Proof. intros. apply Z.pow_pos_nonneg; lia. Qed.
Lemma p2add a b : 0 <= a -> 0 <= b -> 2 ^ (a + b) = 2 ^ a * 2 ^ b.
Proof. intros. apply Z.pow_add_r; assumption. Qed.
Lemma p2le a b : 0 <= a <= b -> 2 ^ a <= 2 ^ b.
Proof. intros. apply Z.pow_le_mono_r; lia. Qed.

(** ** Values of byte sequences *)
Fixpoint rval (l : list Z) : Z :=
  match l with [] => 0 | b :: r => b * 2 ^ (8 * Z.of_nat (length r)) + rval r end.

Lemma le_val_app a b : le_val (a ++ b) = le_val a + 2 ^ (8 * Z.of_nat (length a)) * le_val b.
Proof.
  induction a as [|x a IH]; [cbn [app length]; change (le_val []) with 0; change (2 ^ (8 * Z.of_nat 0)) with 1; lia|]. cbn [app le_val length]. rewrite IH.
  replace (8 * Z.of_nat (S (length a))) with (8 + 8 * Z.of_nat (length a)) by lia.
  rewrite p2add by lia. change (2 ^ 8) with 256. ring.
Qed.

Lemma le_val_rev l : le_val (rev l) = rval l.
Proof.
  induction l as [|x l IH]; [reflexivity|]. cbn [rev rval]. rewrite le_val_app, IH, rev_length. cbn [le_val]. ring.
Qed.

Lemma rval_bound l : bytes l -> 0 <= rval l < 2 ^ (8 * Z.of_nat (length l)).
Proof.
  induction 1 as [|x l Hx H IH]; [cbn; lia|]. cbn [rval length].
  replace (8 * Z.of_nat (S (length l))) with (8 + 8 * Z.of_nat (length l)) by lia.
  rewrite p2add by lia. change (2 ^ 8) with 256. unfold is_byte in Hx. nia.
Qed.

Lemma le_val_bound l : bytes l -> 0 <= le_val l < 2 ^ (8 * Z.of_nat (length l)).
Proof.
  intros H. rewrite <- (rev_involutive l) at 1 2. rewrite le_val_rev. rewrite <- (rev_length l). apply rval_bound.
  now apply Forall_rev.
Qed.

(** ** Extension: [M] agrees with [N] below bit [P]. *)
Definition ext (M N P : Z) : Prop := M mod 2 ^ P = N.

Lemma ext_split M N P w l : 0 <= P -> 0 <= l -> 0 <= N < 2 ^ P -> 0 <= w < 2 ^ l ->
  ext M (N + w * 2 ^ P) (P + l) -> ext M N P /\ (M / 2 ^ P) mod 2 ^ l = w.
Proof.
  unfold ext. intros HP Hl HN Hw E. pose proof (p2pos P HP). pose proof (p2pos l Hl).
  rewrite p2add in E by lia. rewrite Z.rem_mul_r in E by lia.
  assert (B : 0 <= M mod 2 ^ P < 2 ^ P) by (apply Z.mod_pos_bound; lia).
  set (a := M mod 2 ^ P) in *. set (b := (M / 2 ^ P) mod 2 ^ l) in *.
  destruct (Z.div_mod_unique (2 ^ P) b w a N) as [E1 E2]; [left; lia|left; lia|lia|]. split; assumption.
Qed.

Lemma ext_lower M N P N' P' : 0 <= P <= P' -> ext M N' P' -> N' mod 2 ^ P = N -> ext M N P.
Proof.
  unfold ext. intros HP E E'. rewrite <- E', <- E. replace P' with (P + (P' - P)) by lia.
  pose proof (p2pos P ltac:(lia)). pose proof (p2pos (P' - P) ltac:(lia)).
  rewrite p2add by lia. rewrite Z.rem_mul_r by lia.
  rewrite Z.mul_comm, Z_mod_plus_full. now rewrite Zmod_mod.
Qed.

(** ** Encoder invariant *)
Definition epos (e : enc) : Z :=
  8 * Z.of_nat (length (rbytes e)) - (if ebit e =? 0 then 0 else 8 - ebit e).

Definition einv (e : enc) : Prop :=
  0 <= ebit e < 8 /\ bytes (rbytes e) /\
  (ebit e <> 0 -> exists b r, rbytes e = b :: r /\ b < 2 ^ ebit e).

Lemma einv_pos e : einv e -> 0 <= epos e.
Proof.
  intros (H1 & H2 & H3). unfold epos. destruct (ebit e =? 0) eqn:E; [lia|].
  destruct H3 as (b & r & Hr & _); [lia|]. rewrite Hr. cbn [length]. lia.
Qed.

Lemma einv_val e : einv e -> 0 <= rval (rbytes e) < 2 ^ epos e.
Proof.
  intros (H1 & H2 & H3). unfold epos. destruct (ebit e =? 0) eqn:E.
  - rewrite Z.sub_0_r. now apply rval_bound.
  - destruct H3 as (b & r & Hr & Hb); [lia|]. rewrite Hr in *. cbn [rval length].
    apply bytes_cons in H2 as [Hb' Hr']. apply rval_bound in Hr'. unfold is_byte in Hb'.
    replace (8 * Z.of_nat (S (length r)) - (8 - ebit e)) with (ebit e + 8 * Z.of_nat (length r)) by lia.
    rewrite p2add by lia. pose proof (p2pos (ebit e)). pose proof (p2pos (8 * Z.of_nat (length r))). nia.
Qed.

Lemma epos_mod e : einv e -> epos e mod 8 = ebit e.
Proof.
  intros (H1 & _ & H3). unfold epos. destruct (ebit e =? 0) eqn:E; [lia|].
  destruct H3 as (b & r & Hr & Hb); [lia|]. rewrite Hr. cbn [length]. lia.
Qed.

Lemma small_pow k : 0 <= k <= 8 -> 1 <= 2 ^ k <= 256.
Proof. intros. pose proof (p2pos k). pose proof (p2le k 8). change (2 ^ 8) with 256 in *. lia. Qed.

Lemma land_pow v c : 0 <= c -> Z.land v (Z.shiftl 1 c - 1) = v mod 2 ^ c.
Proof. intros. rewrite Z.shiftl_mul_pow2, Z.mul_1_l by lia. now apply land_mod. Qed.

(** One iteration of the writing loop. *)
Lemma wwl_step e v c : einv e -> 0 < c <= 8 - ebit e ->
  let bs := if ebit e =? 0 then 0 :: rbytes e else rbytes e in
  exists b r, bs = b :: r /\
  let e' := mkEnc (Z.land (ebit e + c) 7) (Z.lor b (Z.shiftl (Z.land v (Z.shiftl 1 c - 1)) (ebit e)) mod 256 :: r) in
  einv e' /\ epos e' = epos e + c /\ rval (rbytes e') = rval (rbytes e) + (v mod 2 ^ c) * 2 ^ epos e.
Proof.
  intros He Hc. destruct He as (H1 & H2 & H3). cbv zeta.
  set (vv := Z.land v (Z.shiftl 1 c - 1)).
  assert (Evv : vv = v mod 2 ^ c) by (unfold vv; apply land_pow; lia).
  assert (Hvv : 0 <= vv < 2 ^ c) by (rewrite Evv; apply Z.mod_pos_bound; apply p2pos; lia).
  assert (Hbit : Z.land (ebit e + c) 7 = (ebit e + c) mod 8) by (change 7 with (2 ^ 3 - 1); rewrite land_mod by lia; reflexivity).
  assert (HX : exists b r, (if ebit e =? 0 then 0 :: rbytes e else rbytes e) = b :: r /\ 0 <= b < 2 ^ ebit e /\
            bytes r /\ epos e = 8 * Z.of_nat (length r) + ebit e /\ rval (rbytes e) = b * 2 ^ (8 * Z.of_nat (length r)) + rval r).
  { unfold epos. destruct (ebit e =? 0) eqn:E.
    - exists 0, (rbytes e). replace (ebit e) with 0 by lia. change (2 ^ 0) with 1. repeat split; auto; lia.
    - destruct H3 as (b & r & Hr & Hb); [lia|]. exists b, r. rewrite Hr in *. apply bytes_cons in H2 as [Hb' Hr'].
      unfold is_byte in Hb'. repeat split; auto; try lia. cbn [length]. lia. }
  destruct HX as (b & r & Hbs & Hb & Hr & Hpos & Hval). exists b, r. split; [exact Hbs|].
  assert (Hb' : Z.lor b (Z.shiftl vv (ebit e)) = vv * 2 ^ ebit e + b).
  { rewrite Z.lor_comm. apply lor_shiftl_add; lia. }
  assert (Hpc : 2 ^ (c + ebit e) = 2 ^ c * 2 ^ ebit e) by (apply p2add; lia).
  pose proof (p2pos (ebit e)) as Pe. pose proof (p2pos c) as Pc.
  assert (Hlt : vv * 2 ^ ebit e + b < 2 ^ (c + ebit e)) by nia.
  assert (H256 : 2 ^ (c + ebit e) <= 256) by (pose proof (small_pow (c + ebit e)); lia).
  rewrite Hb', Z.mod_small by nia. rewrite Hbit.
  assert (HB : is_byte (vv * 2 ^ ebit e + b)) by (unfold is_byte; nia).
  repeat split; cbn [ebit rbytes].
  - lia.
  - lia.
  - apply bytes_cons. auto.
  - intros Hne. exists (vv * 2 ^ ebit e + b), r. split; [reflexivity|].
    replace ((ebit e + c) mod 8) with (c + ebit e) by lia. exact Hlt.
  - unfold epos at 1. cbn [ebit rbytes length]. rewrite Hpos. destruct (((ebit e + c) mod 8) =? 0) eqn:E; lia.
  - cbn [rval]. rewrite Hval, Hpos, <- Evv. rewrite (p2add (8 * Z.of_nat (length r)) (ebit e)) by lia. ring.
Qed.

Lemma mod_split v c l : 0 <= c <= l -> v mod 2 ^ l = v mod 2 ^ c + 2 ^ c * ((v / 2 ^ c) mod 2 ^ (l - c)).
Proof.
  intros H. replace l with (c + (l - c)) at 1 by lia. rewrite p2add by lia.
  apply Z.rem_mul_r; [|apply p2pos; lia]. pose proof (p2pos c). lia.
Qed.

Lemma wwl_loop_spec f : forall e v len rest, einv e -> 0 <= len <= Z.of_nat f -> rest = 8 - ebit e \/ len = 0 ->
  exists e', wwl_loop f rest v len e = Ok e' /\ einv e' /\ epos e' = epos e + len /\
    rval (rbytes e') = rval (rbytes e) + (v mod 2 ^ len) * 2 ^ epos e.
Proof.
  induction f as [|f IH]; intros e v len rest He Hl Hrest.
  - replace len with 0 by lia. exists e. cbn [wwl_loop]. change (0 =? 0) with true. cbv iota.
    change (2 ^ 0) with 1. rewrite Z.mod_1_r. repeat split; try apply He; lia.
  - cbn [wwl_loop]. destruct (len =? 0) eqn:El.
    { exists e. replace len with 0 by lia. change (2 ^ 0) with 1. rewrite Z.mod_1_r. repeat split; try apply He; lia. }
    assert (Hrest' : rest = 8 - ebit e) by lia. clear Hrest. destruct (He) as (Hb & _ & _).
    set (c := Z.min rest len).
    assert (Hc : 0 < c <= 8 - ebit e) by lia.
    destruct (wwl_step e v c He Hc) as (b & r & Hbs & He' & Hp' & Hv'). cbv zeta in *.
    rewrite Hbs.
    match goal with |- context [wwl_loop f 8 ?v' ?l' ?e'] => destruct (IH e' v' l' 8) as (e2 & H1 & H2 & H3 & H4) end.
    + exact He'.
    + lia.
    + cbn [ebit]. change 7 with (2 ^ 3 - 1). rewrite land_mod by lia. change (2 ^ 3) with 8.
      destruct (Z_le_dec rest len); [left; lia|right; lia].
    + exists e2. split; [exact H1|]. split; [exact H2|]. split; [lia|].
      rewrite H4, Hv', Hp'. rewrite (mod_split v c len) by lia. rewrite Z.shiftr_div_pow2 by lia.
      rewrite p2add by (pose proof (einv_pos e He); lia). ring.
Qed.

Lemma enc_word_spec e v len : einv e -> 0 <= len ->
  exists e', enc_word v len e = Ok e' /\ einv e' /\ epos e' = epos e + len /\
    rval (rbytes e') = rval (rbytes e) + (v mod 2 ^ len) * 2 ^ epos e.
Proof. intros He Hl. apply wwl_loop_spec; [assumption|lia|now left]. Qed.

(** ** Decoder *)
Definition at_pos (buf : list Z) (P : Z) : dec := mkDec buf (P / 8) (P mod 8).

Lemma skipn_val n buf : bytes buf -> le_val (skipn n buf) = le_val buf / 2 ^ (8 * Z.of_nat n).
Proof.
  revert buf. induction n as [|n IH]; intros buf Hb.
  - cbn [skipn]. change (8 * Z.of_nat 0) with 0. change (2 ^ 0) with 1. now rewrite Z.div_1_r.
  - destruct buf as [|x buf]; [cbn [skipn]; change (le_val []) with 0; symmetry; apply Z.div_0_l; pose proof (p2pos (8 * Z.of_nat (S n)) ltac:(lia)); lia|].
    apply bytes_cons in Hb as [Hx Hb]. cbn [skipn le_val]. rewrite IH by assumption.
    replace (8 * Z.of_nat (S n)) with (8 + 8 * Z.of_nat n) by lia. rewrite p2add by lia.
    change (2 ^ 8) with 256. rewrite <- Z.div_div by (pose proof (p2pos (8 * Z.of_nat n)); lia).
    f_equal. unfold is_byte in Hx. lia.
Qed.

Lemma firstn_val n buf : bytes buf -> (n <= length buf)%nat -> le_val (firstn n buf) = le_val buf mod 2 ^ (8 * Z.of_nat n).
Proof.
  intros Hb Hn. rewrite <- (firstn_skipn n buf) at 2. rewrite le_val_app, firstn_length_le by assumption.
  rewrite Z.mul_comm, Z_mod_plus_full. symmetry. apply Z.mod_small.
  assert (Hf : bytes (firstn n buf)) by (rewrite <- (firstn_skipn n buf) in Hb; now apply bytes_app in Hb as [Hb _]).
  apply le_val_bound in Hf. rewrite firstn_length_le in Hf by assumption. exact Hf.
Qed.

Lemma rd64_spec buf P : bytes buf -> 0 <= P -> P / 8 + 8 <= Z.of_nat (length buf) ->
  exists x, rd64 (at_pos buf P) = Ok x /\ forall j, 0 <= j < 64 -> Z.testbit x j = Z.testbit (le_val buf) (8 * (P / 8) + j).
Proof.
  intros Hb HP Hl. unfold rd64, at_pos. cbn [dpos dbuf].
  replace ((0 <=? P / 8) && (P / 8 + 8 <=? Z.of_nat (length buf))) with true by lia.
  set (p := Z.to_nat (P / 8)).
  assert (Hs : bytes (skipn p buf)) by (rewrite <- (firstn_skipn p buf) in Hb; now apply bytes_app in Hb as [_ Hb]).
  assert (Hu : le_val (firstn 8 (skipn p buf)) = (le_val buf / 2 ^ (8 * (P / 8))) mod 2 ^ 64).
  { rewrite firstn_val by (try assumption; rewrite skipn_length; lia). rewrite skipn_val by assumption.
    change (8 * Z.of_nat 8) with 64. unfold p. rewrite Z2Nat.id by lia. reflexivity. }
  rewrite Hu. set (u := (le_val buf / 2 ^ (8 * (P / 8))) mod 2 ^ 64).
  assert (Hbit : forall j, 0 <= j < 64 -> Z.testbit u j = Z.testbit (le_val buf) (8 * (P / 8) + j)).
  { intros j Hj. unfold u. rewrite Z.mod_pow2_bits_low by lia. rewrite Z.div_pow2_bits by lia. f_equal. lia. }
  eexists. split; [reflexivity|]. intros j Hj. rewrite <- Hbit by assumption.
  destruct (u <? 2 ^ 63); [reflexivity|].
  assert (Em : (u - 2 ^ 64) mod 2 ^ 64 = u mod 2 ^ 64).
  { replace (u - 2 ^ 64) with (u + (-1) * 2 ^ 64) by lia. apply Z_mod_plus_full. }
  rewrite <- (Z.mod_pow2_bits_low (u - 2 ^ 64) 64 j) by lia. rewrite Em. apply Z.mod_pow2_bits_low. lia.
Qed.

Lemma advance_at buf P n : 0 <= P -> 0 <= n -> advance (at_pos buf P) n = at_pos buf (P + n).
Proof.
  intros HP Hn. unfold advance, at_pos. cbn [dbit dbuf dpos].
  rewrite Z.shiftr_div_pow2 by lia. change 7 with (2 ^ 3 - 1). rewrite land_mod by lia. change (2 ^ 3) with 8.
  f_equal; lia.
Qed.

Lemma dec_word_spec buf P len : bytes buf -> 0 <= P -> P / 8 + 8 <= Z.of_nat (length buf) -> 0 <= len <= 32 ->
  dec_word len (at_pos buf P) = Ok ((le_val buf / 2 ^ P) mod 2 ^ len, at_pos buf (P + len)).
Proof.
  intros Hb HP Hl Hlen. destruct (rd64_spec buf P Hb HP Hl) as (x & Hx & Hbit).
  unfold dec_word. rewrite Hx. cbn [obind]. rewrite advance_at by lia. do 2 f_equal.
  rewrite land_pow by lia. cbn [dbit at_pos]. unfold u32.
  apply Z.bits_inj'. intros i Hi.
  destruct (Z_lt_le_dec i len) as [Hlt|Hge].
  - rewrite !Z.mod_pow2_bits_low by lia. rewrite Z.div_pow2_bits by lia.
    rewrite Z.shiftr_spec by lia. rewrite Hbit by lia. f_equal. lia.
  - rewrite !Z.mod_pow2_bits_high by lia. reflexivity.
Qed.

Lemma ctz_spec f : forall i v p, (forall j, i <= j < p -> Z.testbit v j = false) -> Z.testbit v p = true -> i <= p < i + Z.of_nat f ->
  ctz f i v = Ok p.
Proof.
  induction f as [|f IH]; intros i v p Hz Hp Hr; [lia|]. cbn [ctz].
  destruct (Z.eq_dec i p) as [->|Hne].
  - now rewrite Hp.
  - rewrite Hz by lia. apply IH; [intros j Hj; apply Hz; lia|assumption|lia].
Qed.

(** ** One operation written and read back *)
Definition room (buf : list Z) (P : Z) : Prop := P / 8 + 8 <= Z.of_nat (length buf).

Definition op_ok (o : op) (e : enc) : Prop :=
  exists e', enc_op o e = Ok e' /\ einv e' /\ epos e <= epos e' /\
    epos e' mod 8 = next_off o (epos e mod 8) /\ (bit_code o -> epos e' = epos e + bits_of o) /\
    forall buf, bytes buf -> room buf (epos e') -> ext (le_val buf) (rval (rbytes e')) (epos e') ->
      ext (le_val buf) (rval (rbytes e)) (epos e) /\
      dec_kind (kind_of o) (at_pos buf (epos e)) = Ok (value_of o, at_pos buf (epos e')).

Lemma room_le buf P P' : 0 <= P <= P' -> room buf P' -> room buf P.
Proof. unfold room. intros. assert (P / 8 <= P' / 8) by (apply Z.div_le_mono; lia). lia. Qed.

(** The same for the word primitive, in a form that composes. *)
Lemma word_ok e v len : einv e -> 0 <= len <= 32 -> 0 <= v < 2 ^ len ->
  exists e', enc_word v len e = Ok e' /\ einv e' /\ epos e' = epos e + len /\
    forall buf, bytes buf -> room buf (epos e') -> ext (le_val buf) (rval (rbytes e')) (epos e') ->
      ext (le_val buf) (rval (rbytes e)) (epos e) /\
      (le_val buf / 2 ^ epos e) mod 2 ^ len = v /\
      dec_word len (at_pos buf (epos e)) = Ok (v, at_pos buf (epos e')).
Proof.
  intros He Hl Hv. destruct (enc_word_spec e v len He ltac:(lia)) as (e' & H1 & H2 & H3 & H4).
  exists e'. split; [exact H1|]. split; [exact H2|]. split; [exact H3|].
  intros buf Hb Hr HE. pose proof (einv_pos e He) as HP.
  rewrite H3, H4 in HE. rewrite (Z.mod_small v) in HE by lia.
  apply ext_split in HE as [HE1 HE2]; [|lia|lia|now apply einv_val|assumption].
  split; [exact HE1|]. split; [exact HE2|].
  rewrite dec_word_spec; [rewrite HE2, H3; reflexivity|assumption|assumption| |lia].
  apply (room_le buf (epos e) (epos e')); [lia|assumption].
Qed.

Lemma get_len_spec v : 1 <= v < 2 ^ 32 -> exists p, get_len v = Ok (p + 1) /\ 0 <= p <= 31 /\ 2 ^ p <= v < 2 ^ (p + 1).
Proof.
  intros Hv. exists (Z.log2 v). unfold get_len. replace (v =? 0) with false by lia.
  split; [reflexivity|]. pose proof (Z.log2_spec v ltac:(lia)) as Hs. rewrite <- Z.add_1_r in Hs.
  split; [|exact Hs]. split; [apply Z.log2_nonneg|].
  assert (Z.log2 v < 32) by (apply Z.log2_lt_pow2; lia). lia.
Qed.

Lemma gamma_bits_nonneg v : 0 <= gamma_bits v.
Proof. unfold gamma_bits. pose proof (Z.log2_nonneg v). lia. Qed.
Lemma delta_bits_nonneg v : 0 <= delta_bits v.
Proof. unfold delta_bits. pose proof (Z.log2_nonneg v). pose proof (gamma_bits_nonneg (Z.log2 v + 1)). lia. Qed.

Lemma gamma_ok e v : einv e -> 1 <= v < 2 ^ 32 ->
  exists e', enc_gamma v e = Ok e' /\ einv e' /\ epos e' = epos e + gamma_bits v /\
    forall buf, bytes buf -> room buf (epos e') -> ext (le_val buf) (rval (rbytes e')) (epos e') ->
      ext (le_val buf) (rval (rbytes e)) (epos e) /\
      dec_gamma (at_pos buf (epos e)) = Ok (v, at_pos buf (epos e')).
Proof.
  intros He Hv. unfold enc_gamma.
  assert (HL : get_len v = Ok (Z.log2 v + 1) /\ 0 <= Z.log2 v <= 31 /\ 2 ^ Z.log2 v <= v < 2 ^ (Z.log2 v + 1)).
  { unfold get_len. replace (v =? 0) with false by lia.
    split; [reflexivity|]. pose proof (Z.log2_spec v ltac:(lia)) as Hs. rewrite <- Z.add_1_r in Hs.
    split; [|exact Hs]. split; [apply Z.log2_nonneg|].
    assert (Z.log2 v < 32) by (apply Z.log2_lt_pow2; lia). lia. }
  destruct HL as (-> & Hp & Hpv). set (p := Z.log2 v) in *. cbn [obind]. replace (p + 1 - 1) with p by lia.
  pose proof (p2pos p ltac:(lia)) as Pp.
  assert (E2 : 2 ^ (p + 1) = 2 * 2 ^ p) by (rewrite p2add by lia; change (2 ^ 1) with 2; ring).
  destruct (word_ok e 0 p He ltac:(lia) ltac:(lia)) as (e1 & W1 & I1 & P1 & D1). rewrite W1. cbn [obind].
  destruct (word_ok e1 1 1 I1 ltac:(lia) ltac:(change (2 ^ 1) with 2; lia)) as (e2 & W2 & I2 & P2 & D2). rewrite W2. cbn [obind].
  assert (E3 : u32 (v - Z.shiftl 1 p) = v - 2 ^ p).
  { rewrite Z.shiftl_mul_pow2, Z.mul_1_l by lia. unfold u32. apply Z.mod_small. lia. }
  rewrite E3.
  destruct (word_ok e2 (v - 2 ^ p) p I2 ltac:(lia) ltac:(lia)) as (e3 & W3 & I3 & P3 & D3). rewrite W3.
  exists e3. split; [reflexivity|]. split; [exact I3|]. split; [unfold gamma_bits; fold p; lia|].
  pose proof (einv_pos e He) as HP.
  assert (O2 : 0 <= epos e2 <= epos e3) by lia. assert (O1 : 0 <= epos e1 <= epos e3) by lia.
  assert (O0 : 0 <= epos e <= epos e3) by lia.
  intros buf Hb Hr HE.
  destruct (D3 buf Hb Hr HE) as (HE2 & _ & R3).
  assert (Hr2 : room buf (epos e2)) by (apply (room_le buf (epos e2) (epos e3)); assumption).
  destruct (D2 buf Hb Hr2 HE2) as (HE1 & V2 & _).
  assert (Hr1 : room buf (epos e1)) by (apply (room_le buf (epos e1) (epos e3)); assumption).
  destruct (D1 buf Hb Hr1 HE1) as (HE0 & V1 & _).
  assert (Hr0 : room buf (epos e)) by (apply (room_le buf (epos e) (epos e3)); assumption).
  split; [exact HE0|].
  unfold dec_gamma. destruct (rd64_spec buf (epos e) Hb HP Hr0) as (x & Hx & Hbit). rewrite Hx. cbn [obind].
  replace (dbit (at_pos buf (epos e))) with (epos e mod 8) by reflexivity.
  set (M := le_val buf) in *.
  assert (HZ : forall j, 0 <= j < p -> Z.testbit M (epos e + j) = false).
  { intros j Hj. assert (T : Z.testbit ((M / 2 ^ epos e) mod 2 ^ p) j = false) by (rewrite V1; apply Z.testbit_0_l).
    clear - T Hj HP.
    rewrite Z.mod_pow2_bits_low in T by lia. rewrite Z.div_pow2_bits in T by lia. rewrite <- T. f_equal. lia. }
  assert (HO : Z.testbit M (epos e + p) = true).
  { assert (T : Z.testbit ((M / 2 ^ epos e1) mod 2 ^ 1) 0 = true) by (rewrite V2; reflexivity).
    clear - T P1 O1. rewrite Z.mod_pow2_bits_low in T by lia. rewrite Z.div_pow2_bits in T by lia. rewrite <- T. f_equal. lia. }
  assert (HC : ctz 64 0 (Z.shiftr x (epos e mod 8)) = Ok p).
  { apply ctz_spec; [| |lia].
    - intros j Hj. rewrite Z.shiftr_spec by (clear - Hj; lia).
      rewrite Hbit by (clear - Hj Hp; lia). rewrite <- (HZ j) by (clear - Hj; lia). f_equal. clear; lia.
    - rewrite Z.shiftr_spec by (clear - Hp; lia). rewrite Hbit by (clear - Hp; lia). rewrite <- HO. f_equal. clear; lia. }
  rewrite HC. cbn [obind]. clear HC HO HZ Hbit Hx V1 V2 D1 D2 D3.
  rewrite advance_at by lia. replace (epos e + (p + 1)) with (epos e2) by lia.
  rewrite R3. cbn [obind]. do 2 f_equal. rewrite Z.shiftl_mul_pow2, Z.mul_1_l by lia. unfold u32. rewrite Z.mod_small by lia. lia.
Qed.

Lemma delta_ok e v : einv e -> 1 <= v < 2 ^ 32 ->
  exists e', enc_delta v e = Ok e' /\ einv e' /\ epos e' = epos e + delta_bits v /\
    forall buf, bytes buf -> room buf (epos e') -> ext (le_val buf) (rval (rbytes e')) (epos e') ->
      ext (le_val buf) (rval (rbytes e)) (epos e) /\
      dec_delta (at_pos buf (epos e)) = Ok (v, at_pos buf (epos e')).
Proof.
  intros He Hv. unfold enc_delta. destruct (get_len_spec v Hv) as (p & -> & Hp & Hpv). cbn [obind].
  assert (Elog : Z.log2 v = p) by (apply Z.log2_unique; rewrite <- ?Z.add_1_r; lia).
  replace (p + 1 - 1) with p by lia. pose proof (p2pos p ltac:(lia)) as Pp.
  assert (E2 : 2 ^ (p + 1) = 2 * 2 ^ p) by (rewrite p2add by lia; change (2 ^ 1) with 2; ring).
  assert (Hp1 : 1 <= p + 1 < 2 ^ 32) by (change (2 ^ 32) with 4294967296; lia).
  destruct (gamma_ok e (p + 1) He Hp1) as (e1 & W1 & I1 & P1 & D1). rewrite W1. cbn [obind].
  assert (E3 : u32 (v - Z.shiftl 1 p) = v - 2 ^ p).
  { rewrite Z.shiftl_mul_pow2, Z.mul_1_l by lia. unfold u32. apply Z.mod_small. lia. }
  rewrite E3.
  destruct (word_ok e1 (v - 2 ^ p) p I1 ltac:(lia) ltac:(lia)) as (e2 & W2 & I2 & P2 & D2). rewrite W2.
  pose proof (Z.log2_nonneg (p + 1)). pose proof (einv_pos e He) as HP.
  exists e2. split; [reflexivity|]. split; [exact I2|].
  split; [unfold delta_bits; rewrite Elog; lia|]. unfold gamma_bits in P1.
  intros buf Hb Hr HE. destruct (D2 buf Hb Hr HE) as (HE1 & _ & R2).
  assert (Hr1 : room buf (epos e1)) by (apply (room_le buf (epos e1) (epos e2)); [lia|assumption]).
  destruct (D1 buf Hb Hr1 HE1) as (HE0 & R1). split; [exact HE0|].
  unfold dec_delta. rewrite R1. cbn [obind]. replace (p + 1 - 1) with p by lia. rewrite R2. cbn [obind].
  do 2 f_equal. rewrite Z.shiftl_mul_pow2, Z.mul_1_l by lia. unfold u32. rewrite Z.mod_small by lia. lia.
Qed.

Lemma rice_ok e v k : einv e -> 0 <= v < 2 ^ 32 -> 0 <= k <= 30 -> (v < 2 ^ 32 - 1 \/ 0 < k) ->
  exists e', enc_rice v k e = Ok e' /\ einv e' /\ epos e' = epos e + rice_bits v k /\
    forall buf, bytes buf -> room buf (epos e') -> ext (le_val buf) (rval (rbytes e')) (epos e') ->
      ext (le_val buf) (rval (rbytes e)) (epos e) /\
      dec_rice k (at_pos buf (epos e)) = Ok (v, at_pos buf (epos e')).
Proof.
  intros He Hv Hk Hnov. unfold enc_rice. replace ((k <? 0) || (31 <=? k)) with false by lia.
  pose proof (p2pos k ltac:(lia)) as Pk. rewrite Z.shiftr_div_pow2 by lia.
  assert (Hq : 0 <= v / 2 ^ k < 2 ^ 32 - 1).
  { split; [apply Z.div_pos; lia|]. destruct Hnov as [Hn|Hn].
    - apply Z.div_lt_upper_bound; [lia|]. nia.
    - assert (2 <= 2 ^ k) by (change 2 with (2 ^ 1) at 1; apply p2le; lia).
      apply Z.div_lt_upper_bound; [lia|]. nia. }
  assert (E1 : u32 (v / 2 ^ k + 1) = v / 2 ^ k + 1) by (unfold u32; apply Z.mod_small; lia). rewrite E1.
  destruct (delta_ok e (v / 2 ^ k + 1) He ltac:(lia)) as (e1 & W1 & I1 & P1 & D1). rewrite W1. cbn [obind].
  rewrite land_pow by lia. pose proof (Z.mod_pos_bound v (2 ^ k) Pk) as Hm.
  destruct (word_ok e1 (v mod 2 ^ k) k I1 ltac:(lia) ltac:(lia)) as (e2 & W2 & I2 & P2 & D2). rewrite W2.
  pose proof (einv_pos e He) as HP.
  exists e2. split; [reflexivity|]. split; [exact I2|]. split; [unfold rice_bits; lia|].
  pose proof (delta_bits_nonneg (v / 2 ^ k + 1)).
  intros buf Hb Hr HE. destruct (D2 buf Hb Hr HE) as (HE1 & _ & R2).
  assert (Hr1 : room buf (epos e1)) by (apply (room_le buf (epos e1) (epos e2)); [lia|assumption]).
  destruct (D1 buf Hb Hr1 HE1) as (HE0 & R1). split; [exact HE0|].
  unfold dec_rice. rewrite R1. cbn [obind]. rewrite R2. cbn [obind]. do 2 f_equal.
  replace (v / 2 ^ k + 1 - 1) with (v / 2 ^ k) by lia. rewrite Z.shiftl_mul_pow2 by lia.
  pose proof (Z.div_mod v (2 ^ k) ltac:(lia)) as DM. unfold u32.
  rewrite (Z.mod_small (v / 2 ^ k * 2 ^ k)) by nia. rewrite Z.mod_small by nia. nia.
Qed.

(** ** Byte-aligned codes *)
Lemma rd1_spec buf p b N : bytes buf -> (p < length buf)%nat -> is_byte b -> 0 <= N < 2 ^ (8 * Z.of_nat p) ->
  ext (le_val buf) (N + b * 2 ^ (8 * Z.of_nat p)) (8 * Z.of_nat p + 8) -> forall q r,
  ext (le_val buf) N (8 * Z.of_nat p) /\ rd1 (mkDec buf q r) (Z.of_nat p) = Ok b.
Proof.
  intros Hb Hp Hby HN HE q r.
  apply ext_split in HE as [HE1 HE2]; [|lia|lia|assumption|exact Hby]. split; [exact HE1|].
  unfold rd1. cbn [dbuf]. replace ((0 <=? Z.of_nat p) && (Z.of_nat p <? Z.of_nat (length buf))) with true by lia.
  f_equal. rewrite Nat2Z.id. rewrite <- HE2. rewrite <- skipn_val by assumption.
  destruct (skipn p buf) as [|x t] eqn:Es.
  { pose proof (skipn_length p buf) as L. rewrite Es in L. cbn in L. lia. }
  rewrite <- (firstn_skipn p buf) at 1. rewrite Es. rewrite app_nth2; rewrite firstn_length_le by lia; [|lia].
  rewrite Nat.sub_diag. cbn [nth le_val]. change (2 ^ 8) with 256.
  assert (is_byte x). { rewrite <- (firstn_skipn p buf), Es in Hb. apply bytes_app in Hb as [_ Hb]. now apply bytes_cons in Hb as [? _]. }
  unfold is_byte in *. lia.
Qed.

Lemma byte_ext_step buf rb b : bytes buf -> bytes rb -> is_byte b -> (length rb < length buf)%nat ->
  ext (le_val buf) (rval (b :: rb)) (8 * Z.of_nat (length (b :: rb))) -> forall q r,
  ext (le_val buf) (rval rb) (8 * Z.of_nat (length rb)) /\ rd1 (mkDec buf q r) (Z.of_nat (length rb)) = Ok b.
Proof.
  intros Hb Hrb Hby Hl HE. apply rd1_spec; [assumption|assumption|assumption|now apply rval_bound|].
  cbn [rval length] in HE.
  replace (8 * Z.of_nat (S (length rb))) with (8 * Z.of_nat (length rb) + 8) in HE by lia.
  rewrite Z.add_comm in HE. exact HE.
Qed.

Lemma prefix_ok f : forall v rb, (1 <= f)%nat -> 0 <= v < 2 ^ (7 * Z.of_nat f) -> bytes rb ->
  exists rb', prefix_loop f v rb = Ok rb' /\ bytes rb' /\ (length rb < length rb')%nat /\
    forall buf, bytes buf -> (length rb' <= length buf)%nat ->
      ext (le_val buf) (rval rb') (8 * Z.of_nat (length rb')) ->
      ext (le_val buf) (rval rb) (8 * Z.of_nat (length rb)) /\
      forall fuel res k q r, (length rb' - length rb <= fuel)%nat ->
        dprefix_loop fuel res k (mkDec buf q r) (Z.of_nat (length rb)) = Ok (u32 (res + v * k), Z.of_nat (length rb')).
Proof.
  induction f as [|f IH]; intros v rb Hf Hv Hrb; [lia|]. cbn [prefix_loop].
  destruct (128 <=? v) eqn:Ev.
  - rewrite Z.shiftr_div_pow2 by lia. change (2 ^ 7) with 128. change 127 with (2 ^ 7 - 1). rewrite land_mod by lia. change (2 ^ 7) with 128.
    destruct f as [|f]; [change (2 ^ (7 * Z.of_nat 1)) with 128 in Hv; lia|].
    assert (Hv' : 0 <= v / 128 < 2 ^ (7 * Z.of_nat (S f))).
    { replace (7 * Z.of_nat (S (S f))) with (7 + 7 * Z.of_nat (S f)) in Hv by lia. rewrite p2add in Hv by lia.
      change (2 ^ 7) with 128 in Hv. split; [apply Z.div_pos; lia|]. apply Z.div_lt_upper_bound; lia. }
    assert (Hb : is_byte (v mod 128)) by (unfold is_byte; lia).
    destruct (IH (v / 128) (v mod 128 :: rb) ltac:(lia) Hv' ltac:(now apply bytes_cons)) as (rb' & H1 & H2 & H3 & H4).
    exists rb'. split; [exact H1|]. split; [exact H2|]. cbn [length] in H3. split; [lia|].
    intros buf Hbuf Hl HE. destruct (H4 buf Hbuf Hl HE) as (HE1 & HD).
    split; [exact (proj1 (byte_ext_step buf rb _ Hbuf Hrb Hb ltac:(lia) HE1 0 0))|].
    intros fuel res k q r Hfu. destruct fuel as [|fuel]; [lia|]. cbn [dprefix_loop].
    destruct (byte_ext_step buf rb _ Hbuf Hrb Hb ltac:(lia) HE1 q r) as (_ & ->). cbn [obind].
    assert (E0 : Z.land (v mod 128) 128 =? 0 = true).
    { apply Z.eqb_eq.
      assert (T : 0 <= v mod 128 < Z.of_nat 128) by lia.
      pose proof (sweep (fun x => Z.land x 128 =? 0) 128 eq_refl _ T) as S1. cbv beta in S1. lia. }
    rewrite E0. replace (Z.of_nat (length rb) + 1) with (Z.of_nat (length (v mod 128 :: rb))) by (cbn [length]; lia).
    rewrite HD by (cbn [length]; lia). do 2 f_equal. unfold u32. rewrite Z.shiftl_mul_pow2 by lia. change (2 ^ 7) with 128.
    rewrite <- (Zplus_mod_idemp_r (v / 128 * _)). rewrite Zmult_mod_idemp_r. rewrite Zplus_mod_idemp_r, Zplus_mod_idemp_l.
    f_equal. pose proof (Z.div_mod v 128 ltac:(lia)). nia.
  - assert (E1 : (v + 128) mod 256 = v + 128) by lia. rewrite E1.
    assert (Hb : is_byte (v + 128)) by (unfold is_byte; lia).
    exists (v + 128 :: rb). split; [reflexivity|]. split; [now apply bytes_cons|]. split; [cbn; lia|].
    intros buf Hbuf Hl HE. cbn [length] in Hl.
    split; [exact (proj1 (byte_ext_step buf rb _ Hbuf Hrb Hb ltac:(lia) HE 0 0))|].
    intros fuel res k q r Hfu. destruct fuel as [|fuel]; [cbn [length] in Hfu; lia|]. cbn [dprefix_loop].
    destruct (byte_ext_step buf rb _ Hbuf Hrb Hb ltac:(lia) HE q r) as (_ & ->). cbn [obind].
    assert (E0 : Z.land (v + 128) 128 =? 0 = false).
    { assert (T : 0 <= v < Z.of_nat 128) by lia.
      pose proof (sweep (fun x => negb (Z.land (x + 128) 128 =? 0)) 128 eq_refl _ T) as S1. cbv beta in S1. destruct (_ =? 0); [discriminate|reflexivity]. }
    rewrite E0. replace (v + 128 - 128) with v by lia. do 2 f_equal. cbn [length]. lia.
Qed.

(** Aligning: dropping the unused bits of the last byte keeps the extension. *)
Lemma align_ext e M : einv e -> ext M (rval (rbytes e)) (8 * Z.of_nat (length (rbytes e))) -> ext M (rval (rbytes e)) (epos e).
Proof.
  intros He HE. pose proof (einv_val e He). pose proof (einv_pos e He).
  apply (ext_lower M _ (epos e) _ _) with (2 := HE).
  - split; [assumption|]. unfold epos. destruct (ebit e =? 0); [lia|]. destruct He as (? & _); lia.
  - apply Z.mod_small. assumption.
Qed.

Lemma einv_aligned rb : bytes rb -> einv (mkEnc 0 rb) /\ epos (mkEnc 0 rb) = 8 * Z.of_nat (length rb).
Proof.
  intros H. split.
  - split; cbn [ebit rbytes]; [lia|]. split; [assumption|]. intros; congruence.
  - unfold epos. cbn [ebit rbytes]. change (0 =? 0) with true. lia.
Qed.

Lemma epos_div e : einv e -> Z.of_nat (length (rbytes e)) = if ebit e =? 0 then epos e / 8 else epos e / 8 + 1.
Proof.
  intros (H1 & _ & H3). unfold epos. destruct (ebit e =? 0) eqn:E; [lia|].
  destruct H3 as (b & r & Hr & Hb); [lia|]. rewrite Hr. cbn [length]. lia.
Qed.

Lemma epos_le8 e : einv e -> epos e <= 8 * Z.of_nat (length (rbytes e)).
Proof. intros (? & _). unfold epos. destruct (ebit e =? 0); lia. Qed.

Lemma op_ok_all o e : einv e -> valid_op o -> (match o with Byte _ => ebit e = 0 | _ => True end) -> op_ok o e.
Proof.
  intros He Hv Hal. unfold op_ok. pose proof (einv_pos e He) as HP. destruct o as [v len|v|v|v k|v|v]; cbn [enc_op kind_of value_of dec_kind next_off bits_of bit_code].
  - destruct Hv as (Hl & Hv). destruct (word_ok e v len He Hl Hv) as (e' & W & I & P & D).
    exists e'. split; [exact W|]. split; [exact I|]. split; [lia|]. split; [lia|]. split; [intros; exact P|]. intros buf Hb Hr HE.
    destruct (D buf Hb Hr HE) as (A & _ & C). auto.
  - destruct (gamma_ok e v He Hv) as (e' & W & I & P & D). pose proof (gamma_bits_nonneg v).
    exists e'. split; [exact W|]. split; [exact I|]. split; [lia|]. split; [lia|]. split; [intros; exact P|exact D].
  - destruct (delta_ok e v He Hv) as (e' & W & I & P & D). pose proof (delta_bits_nonneg v).
    exists e'. split; [exact W|]. split; [exact I|]. split; [lia|]. split; [lia|]. split; [intros; exact P|exact D].
  - destruct Hv as (Hv & Hk & Hn). destruct (rice_ok e v k He Hv Hk Hn) as (e' & W & I & P & D).
    pose proof (delta_bits_nonneg (v / 2 ^ k + 1)). unfold rice_bits in *.
    exists e'. split; [exact W|]. split; [exact I|]. split; [lia|]. split; [rewrite P; symmetry; apply (Zplus_mod_idemp_l)|]. split; [intros; exact P|exact D].
  - unfold enc_prefix. cbn [valid_op] in Hv.
    assert (Hv5 : 0 <= v < 2 ^ (7 * Z.of_nat 5)) by (change (2 ^ (7 * Z.of_nat 5)) with (2 ^ 35); pose proof (p2le 32 35); lia).
    destruct (prefix_ok 5 v (rbytes e) ltac:(lia) Hv5 ltac:(apply He)) as (rb' & H1 & H2 & H3 & H4).
    rewrite H1. cbn [obind]. destruct (einv_aligned rb' H2) as (I & P).
    exists (mkEnc 0 rb'). split; [reflexivity|]. split; [exact I|]. pose proof (epos_le8 e He). split; [lia|]. split; [lia|]. split; [tauto|].
    intros buf Hb Hr HE. rewrite P in *. cbn [rbytes] in HE.
    assert (Hlen : (length rb' <= length buf)%nat) by (unfold room in Hr; lia).
    destruct (H4 buf Hb Hlen HE) as (HE1 & HD). split; [now apply align_ext|].
    unfold dec_prefix. cbn [dbit dpos dbuf at_pos]. rewrite (epos_mod e He).
    assert (Ep : (if ebit e =? 0 then epos e / 8 else epos e / 8 + 1) = Z.of_nat (length (rbytes e))) by (symmetry; now apply epos_div).
    rewrite Ep. change (mkDec buf (epos e / 8) (epos e mod 8)) with (at_pos buf (epos e)). unfold at_pos. rewrite HD by lia. cbn [obind].
    do 2 f_equal; [|unfold at_pos; f_equal; lia]. unfold u32. replace (0 + v * 1) with v by lia. apply Z.mod_small. assumption.
  - cbn [valid_op] in Hv.
    assert (Hb' : bytes (v :: rbytes e)) by (apply bytes_cons; split; [assumption|apply He]).
    destruct (einv_aligned _ Hb') as (I & P). exists (enc_byte v e). unfold enc_byte. split; [reflexivity|]. split; [exact I|].
    pose proof (epos_le8 e He). cbn [length] in P. split; [lia|]. split; [lia|]. split; [tauto|].
    intros buf Hb Hr HE. rewrite P in *. cbn [rbytes] in HE.
    assert (Hlen : (length (rbytes e) < length buf)%nat) by (unfold room in Hr; lia).
    assert (Ee : epos e = 8 * Z.of_nat (length (rbytes e))) by (unfold epos; rewrite Hal; cbn; lia).
    destruct (byte_ext_step buf (rbytes e) v Hb ltac:(apply He) Hv Hlen HE (epos e / 8) (epos e mod 8)) as (A & B).
    split; [now rewrite Ee|].
    unfold dec_byte, at_pos. cbn [dpos dbuf dbit]. rewrite Ee in *.
    replace (8 * Z.of_nat (length (rbytes e)) / 8) with (Z.of_nat (length (rbytes e))) in * by lia. rewrite B. cbn [obind].
    do 3 f_equal; lia.
Qed.

(** ** Sequences *)
Lemma all_ok ops : forall e, einv e -> Forall valid_op ops -> bytes_on_boundary (epos e mod 8) ops ->
  exists e', enc_all ops e = Ok e' /\ einv e' /\ epos e <= epos e' /\
    (Forall bit_code ops -> epos e' = epos e + total_bits ops) /\
    forall buf, bytes buf -> room buf (epos e') -> ext (le_val buf) (rval (rbytes e')) (epos e') ->
      ext (le_val buf) (rval (rbytes e)) (epos e) /\
      dec_all (map kind_of ops) (at_pos buf (epos e)) = Ok (map value_of ops).
Proof.
  induction ops as [|o ops IH]; intros e He Hv Hal.
  - exists e. cbn. repeat split; try apply He; try lia; auto.
  - inversion Hv as [|? ? Hv1 Hv2]; subst. destruct Hal as [Hal1 Hal2].
    rewrite (epos_mod e He) in Hal1.
    destruct (op_ok_all o e He Hv1 Hal1) as (e1 & W1 & I1 & P1 & N1 & B1 & D1).
    rewrite <- N1 in Hal2.
    destruct (IH e1 I1 Hv2 Hal2) as (e2 & W2 & I2 & P2 & B2 & D2).
    exists e2. cbn [enc_all]. rewrite W1. cbn [obind]. split; [exact W2|]. split; [exact I2|]. split; [lia|].
    split. { intros F. inversion F as [|? ? F1 F2]; subst. cbn [total_bits]. rewrite (B2 F2), (B1 F1). lia. }
    intros buf Hb Hr HE. destruct (D2 buf Hb Hr HE) as (HE1 & R2). pose proof (einv_pos e1 I1).
    assert (Hr1 : room buf (epos e1)) by (apply (room_le buf (epos e1) (epos e2)); [lia|assumption]).
    destruct (D1 buf Hb Hr1 HE1) as (HE0 & R1). split; [exact HE0|].
    cbn [map dec_all]. rewrite R1. cbn [obind]. rewrite R2. reflexivity.
Qed.

Lemma le_val_zeros n : le_val (repeat 0 n) = 0.
Proof. induction n as [|n IH]; [reflexivity|]. cbn [repeat le_val]. rewrite IH. reflexivity. Qed.

Lemma codes_roundtrip_aligned ops : Forall valid_op ops -> bytes_on_boundary 0 ops ->
  exists e, enc_all ops enc_init = Ok e /\ bytes (get_bytes e) /\
    dec_all (map kind_of ops) (attach_stream (get_bytes e)) = Ok (map value_of ops) /\
    (Forall bit_code ops -> Z.of_nat (length (get_bytes e)) = (total_bits ops + 7) / 8).
Proof.
  intros Hv Hal.
  assert (I0 : einv enc_init) by (split; cbn; [lia|split; [constructor|congruence]]).
  destruct (all_ok ops enc_init I0 Hv Hal) as (e & W & I & P & B & D). exists e. split; [exact W|].
  assert (Hgb : bytes (get_bytes e)) by (apply Forall_rev; apply I). split; [exact Hgb|].
  assert (Hbuf : bytes (get_bytes e ++ repeat 0 8)).
  { apply bytes_app. split; [exact Hgb|]. apply Forall_forall. intros x Hx. apply repeat_spec in Hx. subst. unfold is_byte. lia. }
  split.
  - destruct (D (get_bytes e ++ repeat 0 8) Hbuf) as (_ & R).
    + unfold room. rewrite app_length, repeat_length. unfold get_bytes. rewrite rev_length.
      pose proof (epos_le8 e I). lia.
    + rewrite le_val_app, le_val_zeros, Z.mul_0_r, Z.add_0_r. unfold get_bytes. rewrite le_val_rev.
      unfold ext. apply Z.mod_small. now apply einv_val.
    + exact R.
  - intros F. apply B in F. change (epos enc_init) with 0 in F. unfold get_bytes. rewrite rev_length, (epos_div e I).
    pose proof (epos_mod e I). destruct (ebit e =? 0) eqn:E; lia.
Qed.

Lemma codes_roundtrip ops : Forall valid_op ops -> Forall no_byte ops ->
  exists e, enc_all ops enc_init = Ok e /\ bytes (get_bytes e) /\
    dec_all (map kind_of ops) (attach_stream (get_bytes e)) = Ok (map value_of ops).
Proof.
  intros Hv Hn. destruct (codes_roundtrip_aligned ops Hv) as (e & A & B & C & _); [|exists e; auto].
  clear Hv. generalize 0. induction Hn as [|o ops Ho Hn IH]; intros off; cbn [bytes_on_boundary]; [exact I|].
  split; [destruct o; cbn in Ho; tauto|]. apply IH.
Qed.

Lemma codes_length ops : Forall valid_op ops -> Forall bit_code ops ->
  exists e, enc_all ops enc_init = Ok e /\ Z.of_nat (length (get_bytes e)) = (total_bits ops + 7) / 8.
Proof.
  intros Hv Hn. destruct (codes_roundtrip_aligned ops Hv) as (e & A & B & C & D); [|exists e; auto].
  clear Hv. generalize 0. induction Hn as [|o ops Ho Hn IH]; intros off; cbn [bytes_on_boundary]; [exact I|].
  split; [destruct o; cbn in Ho; tauto|]. apply IH.
Qed.
