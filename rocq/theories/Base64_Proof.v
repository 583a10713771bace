From Verif Require Import Common CommonLemmas Base64_Model Base64_Spec.
Local Open Scope Z_scope.

Lemma val3 a b c : is_byte a -> is_byte b -> is_byte c ->
  Z.lor (Z.lor (Z.shiftl a 16) (Z.shiftl b 8)) c = a * 65536 + b * 256 + c.
Proof.
  unfold is_byte; intros.
  rewrite (lor_shiftl_add a (Z.shiftl b 8) 16) by (rewrite ?Z.shiftl_mul_pow2; lia).
  rewrite Z.shiftl_mul_pow2 by lia.
  replace (a * 2 ^ 16 + b * 2 ^ 8) with ((a * 256 + b) * 2 ^ 8) by lia.
  rewrite lor_add by lia. lia.
Qed.

Lemma val2 a b : is_byte a -> is_byte b ->
  Z.lor (Z.shiftl a 16) (Z.shiftl b 8) = a * 65536 + b * 256.
Proof.
  unfold is_byte; intros.
  rewrite (lor_shiftl_add a (Z.shiftl b 8) 16) by (rewrite ?Z.shiftl_mul_pow2; lia).
  rewrite Z.shiftl_mul_pow2 by lia. lia.
Qed.

Lemma g1 a b c : is_byte a -> is_byte b -> is_byte c ->
  Z.shiftr (a * 65536 + b * 256 + c) 18 = a / 4.
Proof. unfold is_byte; intros. rewrite Z.shiftr_div_pow2 by lia. change (2^18) with 262144. lia. Qed.
Lemma g2 a b c : is_byte a -> is_byte b -> is_byte c ->
  Z.land (Z.shiftr (a * 65536 + b * 256 + c) 12) 63 = (a mod 4) * 16 + b / 16.
Proof.
  unfold is_byte; intros. rewrite Z.shiftr_div_pow2 by lia.
  change 63 with (2^6-1). rewrite land_mod by lia. change (2^12) with 4096. change (2^6) with 64. lia.
Qed.
Lemma g3 a b c : is_byte a -> is_byte b -> is_byte c ->
  Z.land (Z.shiftr (a * 65536 + b * 256 + c) 6) 63 = (b mod 16) * 4 + c / 64.
Proof.
  unfold is_byte; intros. rewrite Z.shiftr_div_pow2 by lia.
  change 63 with (2^6-1). rewrite land_mod by lia. change (2^6) with 64. lia.
Qed.
Lemma g4 a b c : is_byte a -> is_byte b -> is_byte c ->
  Z.land (a * 65536 + b * 256 + c) 63 = c mod 64.
Proof.
  unfold is_byte; intros.
  change 63 with (2^6-1). rewrite land_mod by lia. change (2^6) with 64. lia.
Qed.

(** A step-by-three induction principle. *)
Lemma ind3 (P : list Z -> Prop) :
  P [] -> (forall a, P [a]) -> (forall a b, P [a; b]) ->
  (forall a b c r, P r -> P (a :: b :: c :: r)) -> forall s, P s.
Proof.
  intros H0 H1 H2 H3. induction s as [s IH] using list_len_ind.
  destruct s as [|a [|b [|c r]]]; auto. apply H3, IH. cbn; lia.
Qed.

Lemma enc3 a b c r : is_byte a -> is_byte b -> is_byte c ->
  base64_encode (a :: b :: c :: r) =
  tochar (a / 4) :: tochar ((a mod 4) * 16 + b / 16) :: tochar ((b mod 16) * 4 + c / 64) ::
  tochar (c mod 64) :: base64_encode r.
Proof.
  intros Ha Hb Hc. cbn [base64_encode].
  rewrite val3, g1, g2, g3, g4 by assumption. reflexivity.
Qed.
Lemma byte0 : is_byte 0. Proof. unfold is_byte; lia. Qed.
Lemma enc2 a b : is_byte a -> is_byte b ->
  base64_encode [a; b] =
  [tochar (a / 4); tochar ((a mod 4) * 16 + b / 16); tochar ((b mod 16) * 4); 61].
Proof.
  intros Ha Hb. cbn [base64_encode]. rewrite val2 by assumption.
  replace (a * 65536 + b * 256) with (a * 65536 + b * 256 + 0) by lia.
  rewrite g1, g2, g3 by (auto using byte0). change (0 / 64) with 0. rewrite Z.add_0_r. reflexivity.
Qed.
Lemma enc1 a : is_byte a ->
  base64_encode [a] = [tochar (a / 4); tochar ((a mod 4) * 16); 61; 61].
Proof.
  intros Ha. cbn [base64_encode]. rewrite Z.lor_0_r, Z.shiftl_mul_pow2 by lia.
  replace (a * 2 ^ 16) with (a * 65536 + 0 * 256 + 0) by lia.
  rewrite g1, g2 by (auto using byte0). change (0 / 16) with 0. rewrite Z.add_0_r. reflexivity.
Qed.

Lemma toint_tochar i : 0 <= i < 64 -> toint (tochar i) = Some i.
Proof.
  intros H.
  pose (P := fun i => match toint (tochar i) with Some j => j =? i | None => false end).
  assert (HP : P i = true) by (apply (sweep P 64); [vm_compute; reflexivity|lia]).
  unfold P in HP. destruct (toint (tochar i)); [|discriminate]. apply Z.eqb_eq in HP. now subst.
Qed.

Lemma d1 v1 v2 : 0 <= v1 < 64 -> 0 <= v2 < 64 ->
  (Z.lor (Z.shiftl v1 2) (Z.shiftr v2 4)) mod 256 = v1 * 4 + v2 / 16.
Proof.
  intros. rewrite lor_shiftl_add by (rewrite ?Z.shiftr_div_pow2 by lia; lia).
  rewrite Z.shiftr_div_pow2 by lia. change (2^2) with 4. change (2^4) with 16. lia.
Qed.
Lemma d2 v2 v3 : 0 <= v2 < 64 -> 0 <= v3 < 64 ->
  Z.land (Z.lor (Z.shiftl v2 4) (Z.shiftr v3 2)) 255 = (v2 mod 16) * 16 + v3 / 4.
Proof.
  intros. rewrite lor_shiftl_add by (rewrite ?Z.shiftr_div_pow2 by lia; lia).
  change 255 with (2^8-1). rewrite land_mod by lia.
  rewrite Z.shiftr_div_pow2 by lia. change (2^2) with 4. change (2^4) with 16. change (2^8) with 256. lia.
Qed.
Lemma d3 v3 v4 : 0 <= v3 < 64 -> 0 <= v4 < 64 ->
  Z.land (Z.lor (Z.shiftl v3 6) v4) 255 = (v3 mod 4) * 64 + v4.
Proof.
  intros. rewrite lor_shiftl_add by lia.
  change 255 with (2^8-1). rewrite land_mod by lia.
  change (2^6) with 64. change (2^8) with 256. lia.
Qed.

Lemma dec4 v1 v2 v3 v4 r : 0 <= v1 < 64 -> 0 <= v2 < 64 -> 0 <= v3 < 64 -> 0 <= v4 < 64 ->
  decode_blocks (tochar v1 :: tochar v2 :: tochar v3 :: tochar v4 :: r) =
  omap (fun l => v1 * 4 + v2 / 16 :: (v2 mod 16) * 16 + v3 / 4 :: (v3 mod 4) * 64 + v4 :: l)
       (decode_blocks r).
Proof.
  intros. cbn [decode_blocks]. rewrite !toint_tochar by assumption.
  replace ((v1 =? -1) || (v2 =? -1)) with false by lia.
  replace (v3 =? -1) with false by lia. replace (v4 =? -1) with false by lia.
  rewrite d1, d2, d3 by assumption. reflexivity.
Qed.

Lemma decode_encode_blocks s : bytes s -> decode_blocks (base64_encode s) = Ok s.
Proof.
  induction s as [|a|a b|a b c r IH] using ind3; intros Hs.
  - reflexivity.
  - apply bytes_cons in Hs as [Ha _]. rewrite enc1 by assumption. unfold is_byte in *.
    cbn [decode_blocks]. rewrite !toint_tochar by lia.
    replace ((a / 4 =? -1) || (a mod 4 * 16 =? -1)) with false by lia.
    change (toint 61) with (Some (-1)). cbv iota beta. change (-1 =? -1) with true. cbv iota.
    rewrite d1 by lia. do 2 f_equal. lia.
  - apply bytes_cons in Hs as [Ha Hs]. apply bytes_cons in Hs as [Hb _].
    rewrite enc2 by assumption. unfold is_byte in *.
    cbn [decode_blocks]. rewrite !toint_tochar by lia.
    replace ((a / 4 =? -1) || (a mod 4 * 16 + b / 16 =? -1)) with false by lia.
    replace (b mod 16 * 4 =? -1) with false by lia.
    change (toint 61) with (Some (-1)). cbv iota beta. change (-1 =? -1) with true. cbv iota.
    rewrite d1, d2 by lia. f_equal. f_equal; [lia|]. f_equal. lia.
  - apply bytes_cons in Hs as [Ha Hs]. apply bytes_cons in Hs as [Hb Hs].
    apply bytes_cons in Hs as [Hc Hs].
    rewrite enc3 by assumption. unfold is_byte in *. rewrite dec4 by lia.
    rewrite IH by assumption. cbn [omap].
    f_equal. f_equal; [lia|]. f_equal; [lia|]. f_equal; lia.
Qed.

Lemma encode_len s : length (base64_encode s) = (4 * ((length s + 2) / 3))%nat.
Proof.
  induction s as [|a|a b|a b c r IH] using ind3; try reflexivity.
  cbn [base64_encode length]. rewrite IH.
  replace (S (S (S (length r))) + 2)%nat with (length r + 2 + 1 * 3)%nat by lia.
  rewrite Nat.div_add by lia. lia.
Qed.

Lemma base64_roundtrip s : bytes s -> base64_decode (base64_encode s) = Ok s.
Proof.
  intros Hs. unfold base64_decode. rewrite encode_len.
  replace (Z.of_nat (4 * ((length s + 2) / 3)) mod 4 =? 0) with true.
  - cbn [negb]. now apply decode_encode_blocks.
  - symmetry. rewrite Nat2Z.inj_mul. change (Z.of_nat 4) with 4.
    rewrite Z.mul_comm, Z_mod_mult. reflexivity.
Qed.

(** ** Agreement with RFC 4648 *)
Lemma bits_g1 a : is_byte a -> bits_val (firstn 6 (bits8 a)) = a / 4.
Proof.
  intros H. apply Z.eqb_eq.
  apply (byte_sweep (fun a => bits_val (firstn 6 (bits8 a)) =? a / 4)); [vm_compute; reflexivity|exact H].
Qed.
Lemma bits_g2 a b : is_byte a -> is_byte b ->
  bits_val (skipn 6 (bits8 a) ++ firstn 4 (bits8 b)) = (a mod 4) * 16 + b / 16.
Proof.
  intros Ha Hb. apply Z.eqb_eq.
  apply (byte_sweep2 (fun a b => bits_val (skipn 6 (bits8 a) ++ firstn 4 (bits8 b)) =? (a mod 4) * 16 + b / 16));
    [vm_compute; reflexivity|exact Ha|exact Hb].
Qed.
Lemma bits_g3 a b : is_byte a -> is_byte b ->
  bits_val (skipn 4 (bits8 a) ++ firstn 2 (bits8 b)) = (a mod 16) * 4 + b / 64.
Proof.
  intros Ha Hb. apply Z.eqb_eq.
  apply (byte_sweep2 (fun a b => bits_val (skipn 4 (bits8 a) ++ firstn 2 (bits8 b)) =? (a mod 16) * 4 + b / 64));
    [vm_compute; reflexivity|exact Ha|exact Hb].
Qed.
Lemma bits_g4 a : is_byte a -> bits_val (skipn 2 (bits8 a)) = a mod 64.
Proof.
  intros H. apply Z.eqb_eq.
  apply (byte_sweep (fun a => bits_val (skipn 2 (bits8 a)) =? a mod 64)); [vm_compute; reflexivity|exact H].
Qed.

Definition specbody (s : list Z) :=
  let bs := flat_map bits8 s in
  map (fun g => nth (Z.to_nat (bits_val g)) rfc4648_alphabet 0) (groups6 (length bs) bs).

Lemma groups6_fuel f l : (length l <= 6 * f)%nat -> forall f', (length l <= 6 * f')%nat -> groups6 f l = groups6 f' l.
Proof.
  revert l. induction f as [|f IH]; intros l Hl f' Hf'.
  - destruct l; [|cbn in Hl; lia]. destruct f'; reflexivity.
  - destruct f' as [|f'].
    + destruct l; [reflexivity|cbn in Hf'; lia].
    + destruct l as [|x l]; [reflexivity|]. cbn [groups6]. f_equal.
      apply IH; rewrite skipn_length; lia.
Qed.

Lemma bits8_len a : length (bits8 a) = 8%nat. Proof. reflexivity. Qed.
Lemma flat_bits_len s : length (flat_map bits8 s) = (8 * length s)%nat.
Proof. induction s as [|a s IH]; [reflexivity|]. cbn [flat_map]. rewrite app_length, IH, bits8_len. cbn; lia. Qed.

Lemma nth_tochar i : 0 <= i < 64 -> nth (Z.to_nat i) rfc4648_alphabet 0 = tochar i.
Proof.
  intros H. apply Z.eqb_eq.
  apply (sweep (fun i => nth (Z.to_nat i) rfc4648_alphabet 0 =? tochar i) 64); [vm_compute; reflexivity|lia].
Qed.

Lemma specbody3 a b c r : is_byte a -> is_byte b -> is_byte c ->
  specbody (a :: b :: c :: r) =
  tochar (a / 4) :: tochar ((a mod 4) * 16 + b / 16) :: tochar ((b mod 16) * 4 + c / 64) ::
  tochar (c mod 64) :: specbody r.
Proof.
  intros Ha Hb Hc. unfold specbody. cbv zeta.
  assert (HF : groups6 (length (flat_map bits8 (a :: b :: c :: r))) (flat_map bits8 (a :: b :: c :: r)) =
               groups6 (4 + length (flat_map bits8 r)) (flat_map bits8 (a :: b :: c :: r))).
  { apply groups6_fuel; rewrite !flat_bits_len; cbn [length]; lia. }
  rewrite HF. clear HF.
  set (n := length (flat_map bits8 r)). cbn [Nat.add].
  cbn [flat_map]. set (rr := flat_map bits8 r) in *.
  unfold bits8 at 1 2 3. cbn [map app groups6 firstn skipn].
  pose proof (bits_g1 a Ha) as E1. pose proof (bits_g2 a b Ha Hb) as E2.
  pose proof (bits_g3 b c Hb Hc) as E3. pose proof (bits_g4 c Hc) as E4.
  unfold bits8 in E1, E2, E3, E4. cbn [map firstn skipn app] in E1, E2, E3, E4.
  rewrite E1, E2, E3, E4. unfold is_byte in *. rewrite !nth_tochar by lia. reflexivity.
Qed.

Lemma specbody2 a b : is_byte a -> is_byte b ->
  specbody [a; b] = [tochar (a / 4); tochar ((a mod 4) * 16 + b / 16); tochar ((b mod 16) * 4)].
Proof.
  intros Ha Hb. unfold specbody. cbv zeta.
  pose proof (bits_g1 a Ha) as E1. pose proof (bits_g2 a b Ha Hb) as E2.
  pose proof (bits_g3 b 0 Hb byte0) as E3.
  unfold bits8 in *. cbn [map firstn skipn app flat_map groups6 length repeat] in *.
  change (Z.testbit 0 7) with false in E3. change (Z.testbit 0 6) with false in E3.
  rewrite E1, E2, E3. change (0 / 64) with 0. rewrite Z.add_0_r.
  unfold is_byte in *. rewrite !nth_tochar by lia. reflexivity.
Qed.
Lemma specbody1 a : is_byte a -> specbody [a] = [tochar (a / 4); tochar ((a mod 4) * 16)].
Proof.
  intros Ha. unfold specbody. cbv zeta.
  pose proof (bits_g1 a Ha) as E1. pose proof (bits_g2 a 0 Ha byte0) as E2.
  unfold bits8 in *. cbn [map firstn skipn app flat_map groups6 length repeat] in *.
  change (Z.testbit 0 7) with false in E2. change (Z.testbit 0 6) with false in E2.
  change (Z.testbit 0 5) with false in E2. change (Z.testbit 0 4) with false in E2.
  rewrite E1, E2. change (0 / 16) with 0. rewrite Z.add_0_r.
  unfold is_byte in *. rewrite !nth_tochar by lia. reflexivity.
Qed.

Lemma base64_is_rfc4648 s : bytes s -> base64_encode s = rfc4648_encode s.
Proof.
  enough (H : bytes s -> base64_encode s = specbody s ++ repeat 61 (Nat.modulo (4 - Nat.modulo (length (specbody s)) 4) 4)) by exact H.
  induction s as [|a|a b|a b c r IH] using ind3; intros Hs.
  - reflexivity.
  - apply bytes_cons in Hs as [Ha _]. rewrite enc1, specbody1 by assumption. reflexivity.
  - apply bytes_cons in Hs as [Ha Hs]. apply bytes_cons in Hs as [Hb _].
    rewrite enc2, specbody2 by assumption. reflexivity.
  - apply bytes_cons in Hs as [Ha Hs]. apply bytes_cons in Hs as [Hb Hs].
    apply bytes_cons in Hs as [Hc Hs].
    rewrite enc3, specbody3 by assumption. cbn [app length]. rewrite IH by assumption.
    do 6 f_equal.
    replace (S (S (S (S (length (specbody r)))))) with (length (specbody r) + 1 * 4)%nat by lia.
    rewrite Nat.mod_add by lia. reflexivity.
Qed.

Lemma base64_injective s t : bytes s -> bytes t -> base64_encode s = base64_encode t -> s = t.
Proof.
  intros Hs Ht E. pose proof (base64_roundtrip s Hs) as Es. rewrite E, base64_roundtrip in Es by assumption.
  now injection Es.
Qed.

Definition b64char (c : Z) : Prop := In c rfc4648_alphabet.

Lemma tochar_in i : 0 <= i < 64 -> In (tochar i) rfc4648_alphabet.
Proof.
  intros H. rewrite <- nth_tochar by assumption. apply nth_In.
  change (length rfc4648_alphabet) with 64%nat. lia.
Qed.

Lemma base64_shape s : bytes s ->
  exists body pad, base64_encode s = body ++ repeat 61 pad /\ (pad <= 2)%nat /\
    Forall (fun c => In c rfc4648_alphabet) body.
Proof.
  induction s as [|a|a b|a b c r IH] using ind3; intros Hs.
  - exists [], 0%nat. repeat split; auto with arith.
  - apply bytes_cons in Hs as [Ha _]. unfold is_byte in *.
    exists [tochar (a / 4); tochar ((a mod 4) * 16)], 2%nat.
    rewrite enc1 by assumption. repeat split; auto.
    repeat apply Forall_cons; try apply Forall_nil; apply tochar_in; lia.
  - apply bytes_cons in Hs as [Ha Hs]. apply bytes_cons in Hs as [Hb _]. unfold is_byte in *.
    exists [tochar (a / 4); tochar ((a mod 4) * 16 + b / 16); tochar ((b mod 16) * 4)], 1%nat.
    rewrite enc2 by assumption. repeat split; auto.
    repeat apply Forall_cons; try apply Forall_nil; apply tochar_in; lia.
  - apply bytes_cons in Hs as [Ha Hs]. apply bytes_cons in Hs as [Hb Hs].
    apply bytes_cons in Hs as [Hc Hs]. destruct (IH Hs) as (body & pad & E & Hp & Hb').
    exists (tochar (a / 4) :: tochar ((a mod 4) * 16 + b / 16) :: tochar ((b mod 16) * 4 + c / 64) ::
            tochar (c mod 64) :: body), pad.
    rewrite enc3, E by assumption. unfold is_byte in *. repeat split; auto.
    repeat apply Forall_cons; try assumption; apply tochar_in; lia.
Qed.

(** ** What the decoder accepts *)
Lemma toint_some c v : toint c = Some v ->
  (c = 61 /\ v = -1) \/ (0 <= v < 64 /\ c = tochar v).
Proof.
  unfold toint. intros H.
  assert (HT : forall v, 0 <= v < 64 -> 
     tochar v = if v <? 26 then v + 65 else if v <? 52 then v + 71 else if v <? 62 then v - 4 else if v =? 62 then 43 else 47).
  { intros w Hw. apply Z.eqb_eq. apply (sweep (fun v => tochar v =? (if v <? 26 then v + 65 else if v <? 52 then v + 71 else if v <? 62 then v - 4 else if v =? 62 then 43 else 47)) 64); [vm_compute; reflexivity|lia]. }
  repeat match type of H with (if ?b then _ else _) = _ => destruct b eqn:? end;
    injection H as <- || discriminate H; try (left; split; [lia|reflexivity]); right;
    (split; [lia|]); rewrite HT by lia; 
    repeat match goal with |- context [if ?b then _ else _] => destruct b eqn:? end; lia.
Qed.

Definition okchar (c : Z) : Prop := In c rfc4648_alphabet.

Lemma ind4 (P : list Z -> Prop) :
  P [] -> (forall a, P [a]) -> (forall a b, P [a; b]) -> (forall a b c, P [a; b; c]) ->
  (forall a b c d r, P r -> P (a :: b :: c :: d :: r)) -> forall s, P s.
Proof.
  intros H0 H1 H2 H3 H4. induction s as [s IH] using list_len_ind.
  destruct s as [|a [|b [|c [|d r]]]]; auto. apply H4, IH. cbn; lia.
Qed.

(** No undefined behaviour: the decoder never reads past the end. *)
Lemma decode_blocks_no_ub s : (length s mod 4 = 0)%nat -> decode_blocks s <> UB /\ decode_blocks s <> Fuel.
Proof.
  induction s as [|a|a b|a b c|c1 c2 c3 c4 r IH] using ind4; intros Hl; try (cbn in Hl; discriminate Hl).
  - split; discriminate.
  - assert (Hr : (length r mod 4 = 0)%nat).
    { cbn [length] in Hl. replace (S (S (S (S (length r))))) with (length r + 1 * 4)%nat in Hl by lia.
      now rewrite Nat.mod_add in Hl by lia. }
    destruct (IH Hr) as [H1 H2]. cbn [decode_blocks].
    destruct (toint c1); [|split; discriminate]. destruct (toint c2); [|split; discriminate].
    destruct ((z =? -1) || (z0 =? -1)); [split; discriminate|].
    destruct (toint c3) as [v3|]; [|split; discriminate]. destruct (v3 =? -1); [split; discriminate|].
    destruct (toint c4) as [v4|]; [|split; discriminate]. destruct (v4 =? -1); [split; discriminate|].
    destruct (decode_blocks r); cbn; split; congruence.
Qed.

Lemma base64_decode_safe s : base64_decode s <> UB /\ base64_decode s <> Fuel.
Proof.
  unfold base64_decode. destruct (Z.of_nat (length s) mod 4 =? 0) eqn:E; cbn [negb].
  - apply decode_blocks_no_ub. apply Z.eqb_eq in E.
    change 4 with (Z.of_nat 4) in E. rewrite <- Nat2Z.inj_mod in E. lia.
  - split; discriminate.
Qed.

(** Unpadded input: accepted exactly when it is the encoding of its result. *)
Lemma decode_blocks_nopad s t : ~ In 61 s -> decode_blocks s = Ok t -> bytes t /\ base64_encode t = s.
Proof.
  revert t. induction s as [|a|a b|a b c|c1 c2 c3 c4 r IH] using ind4; intros t Hn E; try discriminate E.
  - injection E as <-. split; [constructor|reflexivity].
  - cbn [decode_blocks] in E.
    destruct (toint c1) as [v1|] eqn:E1; [|discriminate]. destruct (toint c2) as [v2|] eqn:E2; [|discriminate].
    destruct ((v1 =? -1) || (v2 =? -1)); [discriminate|].
    destruct (toint c3) as [v3|] eqn:E3; [|discriminate]. 
    apply toint_some in E1 as [[-> _]|[H1 ->]]; [exfalso; apply Hn; cbn; tauto|].
    apply toint_some in E2 as [[-> _]|[H2 ->]]; [exfalso; apply Hn; cbn; tauto|].
    apply toint_some in E3 as [[-> _]|[H3 ->]]; [exfalso; apply Hn; cbn; tauto|].
    replace (v3 =? -1) with false in E by lia.
    destruct (toint c4) as [v4|] eqn:E4; [|discriminate].
    apply toint_some in E4 as [[-> _]|[H4 ->]]; [exfalso; apply Hn; cbn; tauto|].
    replace (v4 =? -1) with false in E by lia.
    rewrite d1, d2, d3 in E by assumption.
    destruct (decode_blocks r) as [u| | |] eqn:Er; try discriminate E. cbn [omap] in E. injection E as <-.
    destruct (IH u) as [Hb He]; [intros Hin; apply Hn; cbn; tauto|reflexivity|].
    split.
    + repeat constructor; try assumption; unfold is_byte; lia.
    + rewrite enc3 by (unfold is_byte; lia). rewrite He.
      f_equal; [f_equal; lia|]. f_equal; [f_equal; lia|]. f_equal; [f_equal; lia|]. f_equal. f_equal. lia.
Qed.

Lemma base64_decode_nopad_exact s t : ~ In 61 s ->
  (base64_decode s = Ok t <-> bytes t /\ base64_encode t = s).
Proof.
  intros Hn. split.
  - unfold base64_decode. destruct (negb _); [discriminate|]. now apply decode_blocks_nopad.
  - intros [Hb <-]. now apply base64_roundtrip.
Qed.

(** General acceptance: whole input is a multiple of four; some prefix of whole
    alphabet blocks, and then either nothing or one padded block followed by
    arbitrary bytes. *)
Lemma decode_blocks_bad_first s pre c r : (* a non-alphabet char before any '=' is rejected *)
  s = pre ++ c :: r -> Forall okchar pre -> c <> 61 -> ~ okchar c -> forall t, decode_blocks s <> Ok t.
Proof.
  intros -> Hpre Hc Hnot. revert c r Hc Hnot. 
  induction pre as [|a|a b|a b d|c1 c2 c3 c4 pre IH] using ind4; intros c r Hc Hnot t.
  1,2,3,4: assert (HT : toint c = None) by
    (destruct (toint c) eqn:E; [|reflexivity]; apply toint_some in E as [[-> _]|[? ->]];
      [congruence|exfalso; apply Hnot, tochar_in; assumption]).
  - cbn [app]. destruct r as [|? [|? [|? r]]]; cbn [decode_blocks]; rewrite ?HT; discriminate.
  - cbn [app]. destruct r as [|? [|? r]]; cbn [decode_blocks]; rewrite ?HT; try discriminate.
    destruct (toint a); discriminate.
  - cbn [app]. destruct r as [|? r]; cbn [decode_blocks]; rewrite ?HT; try discriminate.
    destruct (toint a); [|discriminate]. destruct (toint b); [|discriminate]. destruct (_ || _); discriminate.
  - cbn [app]. cbn [decode_blocks]; rewrite ?HT.
    inversion Hpre as [|? ? _ Hp2]; subst. inversion Hp2 as [|? ? _ Hp3]; subst. inversion Hp3 as [|? ? Hd _]; subst.
    destruct (toint a); [|discriminate]. destruct (toint b); [|discriminate]. destruct (_ || _); [discriminate|].
    destruct (toint d) as [vd|] eqn:Ed; [|discriminate].
    destruct (vd =? -1) eqn:Evd; [|discriminate].
    apply Z.eqb_eq in Evd. subst vd. apply toint_some in Ed as [[-> _]|[? _]]; [|lia].
    exfalso. revert Hd. vm_compute. intuition discriminate.
  - cbn [app decode_blocks].
    inversion Hpre as [|? ? _ Hp2]; subst. inversion Hp2 as [|? ? _ Hp3]; subst. inversion Hp3 as [|? ? Hd Hp4]; subst.
    inversion Hp4 as [|? ? Hd4 Hp5]; subst.
    destruct (toint c1); [|discriminate]. destruct (toint c2); [|discriminate]. destruct (_ || _); [discriminate|].
    destruct (toint c3) as [vd|] eqn:Ed; [|discriminate].
    destruct (vd =? -1) eqn:Evd.
    { apply Z.eqb_eq in Evd. subst vd. apply toint_some in Ed as [[-> _]|[? _]]; [|lia].
      exfalso. revert Hd. vm_compute. intuition discriminate. }
    destruct (toint c4) as [v4|] eqn:E4; [|discriminate].
    destruct (v4 =? -1) eqn:Ev4.
    { apply Z.eqb_eq in Ev4. subst v4. apply toint_some in E4 as [[-> _]|[? _]]; [|lia].
      exfalso. revert Hd4. vm_compute. intuition discriminate. }
    specialize (IH Hp5 c r Hc Hnot). destruct (decode_blocks (pre ++ c :: r)); cbn; try discriminate.
    exfalso. now apply (IH a).
Qed.

Lemma base64_decode_rejects pre c r t :
  Forall (fun x => In x rfc4648_alphabet) pre -> c <> 61 -> ~ In c rfc4648_alphabet ->
  base64_decode (pre ++ c :: r) <> Ok t.
Proof.
  intros. unfold base64_decode. destruct (negb _); [discriminate|].
  eapply decode_blocks_bad_first; eauto.
Qed.

(** Everything the decoder accepts: whole alphabet blocks, then at most one
    block with padding in its third or fourth place, then anything. *)
Lemma decode_accepts s t : decode_blocks s = Ok t ->
  exists pre tail, s = pre ++ tail /\ Forall okchar pre /\ (length pre mod 4 = 0)%nat /\
    (tail = [] \/
     (exists x y d r, tail = x :: y :: 61 :: d :: r /\ okchar x /\ okchar y) \/
     (exists x y z r, tail = x :: y :: z :: 61 :: r /\ okchar x /\ okchar y /\ okchar z)).
Proof.
  revert t. induction s as [|a|a b|a b c|c1 c2 c3 c4 r IH] using ind4; intros t E; try discriminate E.
  - exists [], []. repeat split; auto; constructor.
  - cbn [decode_blocks] in E.
    destruct (toint c1) as [v1|] eqn:E1; [|discriminate]. destruct (toint c2) as [v2|] eqn:E2; [|discriminate].
    destruct ((v1 =? -1) || (v2 =? -1)) eqn:E12; [discriminate|].
    destruct (toint c3) as [v3|] eqn:E3; [|discriminate].
    apply toint_some in E1 as [[-> Hv]|[H1 ->]]; [exfalso; lia|].
    apply toint_some in E2 as [[-> Hv]|[H2 ->]]; [exfalso; lia|].
    apply toint_some in E3 as [[-> ->]|[H3 ->]].
    { exists [], (tochar v1 :: tochar v2 :: 61 :: c4 :: r).
      repeat split; [constructor|]. right. left. do 4 eexists. split; [reflexivity|]. split; apply tochar_in; assumption. }
    replace (v3 =? -1) with false in E by lia.
    destruct (toint c4) as [v4|] eqn:E4; [|discriminate].
    apply toint_some in E4 as [[-> ->]|[H4 ->]].
    { exists [], (tochar v1 :: tochar v2 :: tochar v3 :: 61 :: r).
      repeat split; [constructor|]. right. right. do 4 eexists. split; [reflexivity|]. repeat split; apply tochar_in; assumption. }
    replace (v4 =? -1) with false in E by lia.
    destruct (decode_blocks r) as [u| | |] eqn:Er; try discriminate E.
    destruct (IH u eq_refl) as (pre & tail & -> & Hp & Hl & Ht).
    exists (tochar v1 :: tochar v2 :: tochar v3 :: tochar v4 :: pre), tail.
    split; [reflexivity|]. split; [repeat apply Forall_cons; try assumption; apply tochar_in; assumption|].
    split; [|exact Ht]. cbn [length].
    replace (S (S (S (S (length pre))))) with (length pre + 1 * 4)%nat by lia.
    now rewrite Nat.mod_add by lia.
Qed.

Lemma base64_decode_accepts s t : base64_decode s = Ok t ->
  (length s mod 4 = 0)%nat /\
  exists pre tail, s = pre ++ tail /\ Forall okchar pre /\ (length pre mod 4 = 0)%nat /\
    (tail = [] \/
     (exists x y d r, tail = x :: y :: 61 :: d :: r /\ okchar x /\ okchar y) \/
     (exists x y z r, tail = x :: y :: z :: 61 :: r /\ okchar x /\ okchar y /\ okchar z)).
Proof.
  unfold base64_decode. destruct (Z.of_nat (length s) mod 4 =? 0) eqn:E; cbn [negb]; [|discriminate].
  intros H. split; [|now apply decode_accepts with t].
  apply Z.eqb_eq in E. change 4 with (Z.of_nat 4) in E. rewrite <- Nat2Z.inj_mod in E. lia.
Qed.

Lemma base64_strict_refuted : exists s t, base64_decode s = Ok t /\ ~ (exists u, bytes u /\ base64_encode u = s).
Proof.
  exists (str "QQ==QQ=="), (str "A"). split; [vm_compute; reflexivity|].
  intros (u & Hu & E). pose proof (base64_roundtrip u Hu) as R. rewrite E in R.
  vm_compute in R. injection R as <-. vm_compute in E. discriminate E.
Qed.
