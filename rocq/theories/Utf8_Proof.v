From Verif Require Import Common CommonLemmas Utf8_Model Utf8_Spec.
Local Open Scope Z_scope.

Ltac bsweep f H := 
  match goal with |- ?l = ?r => idtac end;
  apply Bool.eqb_prop; apply (byte_sweep f); [vm_compute; reflexivity|exact H].

Lemma b_land128 b : is_byte b -> (Z.land b 128 =? 0) = (b <? 128).
Proof. intros H. bsweep (fun b => Bool.eqb (Z.land b 128 =? 0) (b <? 128)) H. Qed.
Lemma b_cont b : is_byte b -> (Z.land b 192 =? 128) = (128 <=? b) && (b <? 192).
Proof. intros H. bsweep (fun b => Bool.eqb (Z.land b 192 =? 128) ((128 <=? b) && (b <? 192))) H. Qed.
Lemma b_192 b : is_byte b -> (Z.land b 192 =? 192) = (192 <=? b).
Proof. intros H. bsweep (fun b => Bool.eqb (Z.land b 192 =? 192) (192 <=? b)) H. Qed.
Lemma b_224 b : is_byte b -> (Z.land b 224 =? 192) = (192 <=? b) && (b <? 224).
Proof. intros H. bsweep (fun b => Bool.eqb (Z.land b 224 =? 192) ((192 <=? b) && (b <? 224))) H. Qed.
Lemma b_240 b : is_byte b -> (Z.land b 240 =? 224) = (224 <=? b) && (b <? 240).
Proof. intros H. bsweep (fun b => Bool.eqb (Z.land b 240 =? 224) ((224 <=? b) && (b <? 240))) H. Qed.
Lemma b_248 b : is_byte b -> (Z.land b 248 =? 240) = (240 <=? b) && (b <? 248).
Proof. intros H. bsweep (fun b => Bool.eqb (Z.land b 248 =? 240) ((240 <=? b) && (b <? 248))) H. Qed.

Definition lead_val (c : Z) : Z * Z :=
  if c <? 224 then (c - 192, 2) else if c <? 240 then (c - 224, 3) else if c <? 248 then (c - 240, 4)
  else if c <? 252 then (c - 248, 5) else (c - 252, 6).
Lemma lead_spec c : 192 <= c <= 253 -> lead_loop c head_masks tail_masks flag_bits 0 = lead_val c.
Proof.
  intros H.
  pose (P := fun c => implb ((192 <=? c) && (c <=? 253))
     (let '(a, b) := lead_loop c head_masks tail_masks flag_bits 0 in
      let '(a', b') := lead_val c in (a =? a') && (b =? b'))).
  assert (HP : P c = true) by (apply (byte_sweep P); [vm_compute; reflexivity|unfold is_byte; lia]).
  unfold P in HP. replace ((192 <=? c) && (c <=? 253)) with true in HP by lia. cbn [implb] in HP.
  destruct (lead_loop c head_masks tail_masks flag_bits 0), (lead_val c). f_equal; lia.
Qed.

Lemma cont_step n ret b s : is_byte b -> 0 <= ret < 2 ^ 26 ->
  cont_loop (S n) ret (b :: s) =
  if (128 <=? b) && (b <? 192) then cont_loop n (ret * 64 + (b - 128)) s else inr (b :: s).
Proof.
  intros Hb Hr. cbn [cont_loop]. rewrite b_cont by assumption.
  destruct ((128 <=? b) && (b <? 192)) eqn:E; cbn [negb]; [|reflexivity]. f_equal.
  rewrite Z.shiftl_mul_pow2 by lia.
  change (2 ^ 26) with 67108864 in Hr. change (2 ^ 6) with 64. change (2 ^ 32) with 4294967296.
  rewrite Z.mod_small by lia. change 63 with (2 ^ 6 - 1). rewrite land_mod by lia.
  change (Z.lor (ret * 64) (b mod 2 ^ 6)) with (Z.lor (ret * 2 ^ 6) (b mod 2 ^ 6)).
  rewrite (lor_add ret (b mod 2 ^ 6) 6) by (change (2 ^ 6) with 64; lia).
  change (2 ^ 6) with 64. unfold is_byte in Hb. lia.
Qed.

(** ** Encoding *)
Lemma lor_high a k x : 0 <= k -> 0 <= x < 2 ^ k -> Z.lor x (a * 2 ^ k) = a * 2 ^ k + x.
Proof. intros. rewrite Z.lor_comm. now apply lor_add. Qed.

Lemma lor_tail x : 0 <= x -> Z.lor (Z.land x 63) 128 = 128 + x mod 64.
Proof.
  intros. change 63 with (2 ^ 6 - 1). rewrite land_mod by lia.
  change 128 with (2 * 2 ^ 6). rewrite lor_high by (change (2 ^ 6) with 64; lia). reflexivity.
Qed.

Lemma encode_char c : scalar c -> utf8_char c (uchar_to_chars c).
Proof.
  intros Hc. unfold uchar_to_chars, scalar in *.
  destruct (c <=? 127) eqn:E1; [constructor; lia|].
  destruct ((128 <=? c) && (c <=? 2047)) eqn:E2.
  { rewrite Z.shiftr_div_pow2, lor_tail by lia. change (2 ^ 6) with 64.
    change 192 with (6 * 2 ^ 5) at 1. rewrite lor_high by (change (2 ^ 5) with 32; lia).
    apply u2. lia. }
  destruct ((2048 <=? c) && (c <=? 65535)) eqn:E3.
  { rewrite !Z.shiftr_div_pow2 by lia. change (2 ^ 6) with 64. change (2 ^ 12) with 4096.
    rewrite !lor_tail by lia.
    change 224 with (14 * 2 ^ 4) at 1. rewrite lor_high by (change (2 ^ 4) with 16; lia).
    apply u3; unfold scalar; lia. }
  replace ((65536 <=? c) && (c <=? 1114111)) with true by lia.
  rewrite !Z.shiftr_div_pow2 by lia. change (2 ^ 6) with 64. change (2 ^ 12) with 4096. change (2 ^ 18) with 262144.
  rewrite !lor_tail by lia.
  change 240 with (15 * 2 ^ 4) at 1. rewrite lor_high by (change (2 ^ 4) with 16; lia).
  apply u4. lia.
Qed.

Lemma utf8_char_bytes c e : utf8_char c e -> bytes e.
Proof. intros H; destruct H; repeat constructor; unfold is_byte, scalar in *; lia. Qed.

Lemma utf8_char_scalar c e : utf8_char c e -> scalar c.
Proof. intros H; destruct H; unfold scalar in *; lia. Qed.

Lemma utf8_char_fun c e1 e2 : utf8_char c e1 -> utf8_char c e2 -> e1 = e2.
Proof. intros H1 H2; destruct H1; inversion H2; subst; reflexivity || lia. Qed.

(** ** Decoding *)
Lemma impl_lead c r : is_byte c -> 192 <= c <= 253 ->
  chars_to_uchar_impl (c :: r) =
  let '(ret, nbytes) := lead_val c in
  match cont_loop (Z.to_nat (nbytes - 1)) ret r with
  | inr rest => Bad (taken (c :: r) rest) rest
  | inl (ret, rest) =>
      if 5 <=? nbytes then Bad (taken (c :: r) rest) rest
      else if (ret <? mins nbytes) || (maxs nbytes <? ret) then Bad (taken (c :: r) rest) rest
      else if 1114111 <? ret then Bad (taken (c :: r) rest) rest
      else if (55296 <=? ret) && (ret <=? 57343) then Bad (taken (c :: r) rest) rest
      else Val ret rest
  end.
Proof.
  intros Hb H. unfold chars_to_uchar_impl. rewrite b_land128 by assumption.
  replace (c <? 128) with false by lia. replace ((c <? 192) || (253 <? c)) with false by lia.
  rewrite lead_spec by assumption. reflexivity.
Qed.

Lemma decode_encoded c e r : utf8_char c e -> chars_to_uchar_impl (e ++ r) = Val c r.
Proof.
  intros H; destruct H as [c H|c H|c H Hs|c H]; cbn [app].
  - unfold chars_to_uchar_impl. rewrite b_land128 by (unfold is_byte; lia).
    replace (c <? 128) with true by lia. reflexivity.
  - rewrite impl_lead by (unfold is_byte; lia). unfold lead_val.
    replace (192 + c / 64 <? 224) with true by lia.
    change (Z.to_nat (2 - 1)) with 1%nat.
    rewrite cont_step by (unfold is_byte; lia).
    replace ((128 <=? 128 + c mod 64) && (128 + c mod 64 <? 192)) with true by lia.
    cbn [cont_loop]. replace ((192 + c / 64 - 192) * 64 + (128 + c mod 64 - 128)) with c by lia.
    change (mins 2) with 128; change (maxs 2) with 2047; change (5 <=? 2) with false; cbv iota.
    replace ((c <? 128) || (2047 <? c)) with false by lia.
    replace (1114111 <? c) with false by lia. replace ((55296 <=? c) && (c <=? 57343)) with false by lia. reflexivity.
  - rewrite impl_lead by (unfold is_byte; lia). unfold lead_val.
    replace (224 + c / 4096 <? 224) with false by lia. replace (224 + c / 4096 <? 240) with true by lia.
    change (Z.to_nat (3 - 1)) with 2%nat.
    rewrite cont_step by (unfold is_byte; lia).
    replace ((128 <=? 128 + (c / 64) mod 64) && (128 + (c / 64) mod 64 <? 192)) with true by lia.
    rewrite cont_step by (unfold is_byte; lia).
    replace ((128 <=? 128 + c mod 64) && (128 + c mod 64 <? 192)) with true by lia.
    cbn [cont_loop].
    replace (((224 + c / 4096 - 224) * 64 + (128 + (c / 64) mod 64 - 128)) * 64 + (128 + c mod 64 - 128)) with c by lia.
    change (mins 3) with 2048; change (maxs 3) with 65535; change (5 <=? 3) with false; cbv iota.
    unfold scalar in Hs.
    replace ((c <? 2048) || (65535 <? c)) with false by lia.
    replace (1114111 <? c) with false by lia. replace ((55296 <=? c) && (c <=? 57343)) with false by lia. reflexivity.
  - rewrite impl_lead by (unfold is_byte; lia). unfold lead_val.
    replace (240 + c / 262144 <? 224) with false by lia. replace (240 + c / 262144 <? 240) with false by lia.
    replace (240 + c / 262144 <? 248) with true by lia.
    change (Z.to_nat (4 - 1)) with 3%nat.
    rewrite cont_step by (unfold is_byte; lia).
    replace ((128 <=? 128 + (c / 4096) mod 64) && (128 + (c / 4096) mod 64 <? 192)) with true by lia.
    rewrite cont_step by (unfold is_byte; lia).
    replace ((128 <=? 128 + (c / 64) mod 64) && (128 + (c / 64) mod 64 <? 192)) with true by lia.
    rewrite cont_step by (unfold is_byte; lia).
    replace ((128 <=? 128 + c mod 64) && (128 + c mod 64 <? 192)) with true by lia.
    cbn [cont_loop].
    replace ((((240 + c / 262144 - 240) * 64 + (128 + (c / 4096) mod 64 - 128)) * 64 + (128 + (c / 64) mod 64 - 128)) * 64 + (128 + c mod 64 - 128)) with c by lia.
    change (mins 4) with 65536; change (maxs 4) with 2097151; change (5 <=? 4) with false; cbv iota.
    replace ((c <? 65536) || (2097151 <? c)) with false by lia.
    replace (1114111 <? c) with false by lia. replace ((55296 <=? c) && (c <=? 57343)) with false by lia. reflexivity.
Qed.

Lemma decode_val s c r : bytes s -> chars_to_uchar_impl s = Val c r -> exists e, s = e ++ r /\ utf8_char c e.
Proof.
  intros Hs E. destruct s as [|b s]; [discriminate|]. apply bytes_cons in Hs as [Hb Hs].
  destruct (Z_lt_le_dec b 128) as [Hlt|Hge].
  { unfold chars_to_uchar_impl in E. rewrite b_land128 in E by assumption. replace (b <? 128) with true in E by lia.
    injection E as -> ->. exists [c]. split; [reflexivity|]. constructor. unfold is_byte in Hb. lia. }
  destruct (Z_le_dec 192 b) as [H192|H192].
  2:{ unfold chars_to_uchar_impl in E. rewrite b_land128 in E by assumption. replace (b <? 128) with false in E by lia.
      replace ((b <? 192) || (253 <? b)) with true in E by lia. discriminate. }
  destruct (Z_le_dec b 253) as [H253|H253].
  2:{ unfold chars_to_uchar_impl in E. rewrite b_land128 in E by assumption. replace (b <? 128) with false in E by lia.
      replace ((b <? 192) || (253 <? b)) with true in E by lia. discriminate. }
  rewrite impl_lead in E by auto. unfold lead_val in E. unfold is_byte in Hb.
  destruct (b <? 224) eqn:E1; [|destruct (b <? 240) eqn:E2; [|destruct (b <? 248) eqn:E3; [|destruct (b <? 252) eqn:E4]]].
  - change (Z.to_nat (2 - 1)) with 1%nat in E. destruct s as [|b1 s]; [discriminate|].
    apply bytes_cons in Hs as [Hb1 Hs]. rewrite cont_step in E by (unfold is_byte in *; lia).
    destruct ((128 <=? b1) && (b1 <? 192)) eqn:C1; [|discriminate].
    cbn [cont_loop] in E. change (mins 2) with 128 in E; change (maxs 2) with 2047 in E; change (5 <=? 2) with false in E; cbv iota in E.
    destruct (_ || _) eqn:M in E; [discriminate|]. destruct (1114111 <? _) eqn:M1 in E; [discriminate|].
    destruct (_ && _) eqn:M2 in E; [discriminate|]. injection E as E ->.
    exists [b; b1]. split; [reflexivity|].
    replace [b; b1] with [192 + c / 64; 128 + c mod 64] by (f_equal; [lia|f_equal; lia]). apply u2. lia.
  - change (Z.to_nat (3 - 1)) with 2%nat in E. destruct s as [|b1 s]; [discriminate|].
    apply bytes_cons in Hs as [Hb1 Hs]. rewrite cont_step in E by (unfold is_byte in *; lia).
    destruct ((128 <=? b1) && (b1 <? 192)) eqn:C1; [|discriminate].
    destruct s as [|b2 s]; [discriminate|]. apply bytes_cons in Hs as [Hb2 Hs].
    rewrite cont_step in E by (unfold is_byte in *; lia).
    destruct ((128 <=? b2) && (b2 <? 192)) eqn:C2; [|discriminate].
    cbn [cont_loop] in E. change (mins 3) with 2048 in E; change (maxs 3) with 65535 in E; change (5 <=? 3) with false in E; cbv iota in E.
    destruct (_ || _) eqn:M in E; [discriminate|]. destruct (1114111 <? _) eqn:M1 in E; [discriminate|].
    destruct (_ && _) eqn:M2 in E; [discriminate|]. injection E as E ->.
    exists [b; b1; b2]. split; [reflexivity|].
    replace [b; b1; b2] with [224 + c / 4096; 128 + (c / 64) mod 64; 128 + c mod 64] by (f_equal; [lia|f_equal; [lia|f_equal; lia]]).
    apply u3; [lia|unfold scalar; lia].
  - change (Z.to_nat (4 - 1)) with 3%nat in E. destruct s as [|b1 s]; [discriminate|].
    apply bytes_cons in Hs as [Hb1 Hs]. rewrite cont_step in E by (unfold is_byte in *; lia).
    destruct ((128 <=? b1) && (b1 <? 192)) eqn:C1; [|discriminate].
    destruct s as [|b2 s]; [discriminate|]. apply bytes_cons in Hs as [Hb2 Hs].
    rewrite cont_step in E by (unfold is_byte in *; lia).
    destruct ((128 <=? b2) && (b2 <? 192)) eqn:C2; [|discriminate].
    destruct s as [|b3 s]; [discriminate|]. apply bytes_cons in Hs as [Hb3 Hs].
    rewrite cont_step in E by (unfold is_byte in *; lia).
    destruct ((128 <=? b3) && (b3 <? 192)) eqn:C3; [|discriminate].
    cbn [cont_loop] in E. change (mins 4) with 65536 in E; change (maxs 4) with 2097151 in E; change (5 <=? 4) with false in E; cbv iota in E.
    destruct (_ || _) eqn:M in E; [discriminate|]. destruct (1114111 <? _) eqn:M1 in E; [discriminate|].
    destruct (_ && _) eqn:M2 in E; [discriminate|]. injection E as E ->.
    exists [b; b1; b2; b3]. split; [reflexivity|].
    replace [b; b1; b2; b3] with [240 + c / 262144; 128 + (c / 4096) mod 64; 128 + (c / 64) mod 64; 128 + c mod 64]
      by (f_equal; [lia|f_equal; [lia|f_equal; [lia|f_equal; lia]]]).
    apply u4; lia.
  - change (5 <=? 5) with true in E. destruct (cont_loop _ _ _) as [[? ?]|?]; discriminate.
  - change (5 <=? 6) with true in E. destruct (cont_loop _ _ _) as [[? ?]|?]; discriminate.
Qed.

(** ** Progress: every call consumes at least one byte and stays inside. *)
Lemma cont_suffix n ret s :
  match cont_loop n ret s with inl (_, r) | inr r => exists p, s = p ++ r end.
Proof.
  revert ret s. induction n as [|n IH]; intros ret s; cbn [cont_loop]; [exists []; reflexivity|].
  destruct s as [|b s]; [exists []; reflexivity|].
  destruct (negb _); [exists []; reflexivity|].
  specialize (IH (Z.lor (Z.shiftl ret 6 mod 2 ^ 32) (Z.land b 63)) s).
  destruct (cont_loop _ _ _) as [[? r]|r]; destruct IH as [p ->]; exists (b :: p); reflexivity.
Qed.

Definition rest_of (d : decoded) : list Z := match d with Val _ r => r | Bad _ r => r end.

Lemma impl_rest c s : exists p, c :: s = (c :: p) ++ rest_of (chars_to_uchar_impl (c :: s)).
Proof.
  unfold chars_to_uchar_impl. destruct (_ =? 0); [exists []; reflexivity|].
  destruct (_ || _); [exists []; reflexivity|].
  destruct (lead_loop _ _ _ _ _) as [ret nb].
  pose proof (cont_suffix (Z.to_nat (nb - 1)) ret s) as H.
  destruct (cont_loop _ _ _) as [[ret' r]|r]; destruct H as [p ->].
  - exists p. cbn [app]. 
    repeat match goal with |- context [if ?b then _ else _] => destruct b end; reflexivity.
  - exists p. reflexivity.
Qed.

Lemma impl_bad_consumed c s b r : chars_to_uchar_impl (c :: s) = Bad b r -> c :: s = b ++ r /\ b <> [].
Proof.
  intros E. destruct (impl_rest c s) as [p Hp]. rewrite E in Hp. cbn [rest_of] in Hp.
  assert (Hb : b = taken (c :: s) r \/ (b = [c] /\ r = s)).
  { unfold chars_to_uchar_impl in E. destruct (_ =? 0) in E; [discriminate|].
    destruct (_ || _) in E; [injection E as <- <-; auto|].
    destruct (lead_loop _ _ _ _ _) as [ret nb] in E.
    destruct (cont_loop _ _ _) as [[ret' r']|r'] in E.
    - repeat match type of E with (if ?b then _ else _) = _ => destruct b end;
        try discriminate; injection E as <- <-; auto.
    - injection E as <- <-. auto. }
  destruct Hb as [->|[-> ->]]; [|split; [reflexivity|discriminate]].
  unfold taken. rewrite Hp. rewrite app_length.
  replace (length (c :: p) + length r - length r)%nat with (length (c :: p)) by lia.
  rewrite firstn_app, firstn_all, Nat.sub_diag, firstn_O, app_nil_r. split; [reflexivity|discriminate].
Qed.

Lemma rest_shorter c s : (length (rest_of (chars_to_uchar_impl (c :: s))) < length (c :: s))%nat.
Proof. destruct (impl_rest c s) as [p Hp]. rewrite Hp at 2. rewrite app_length. cbn. lia. Qed.

Lemma rest_bytes c s : bytes (c :: s) -> bytes (rest_of (chars_to_uchar_impl (c :: s))).
Proof. intros H. destruct (impl_rest c s) as [p Hp]. rewrite Hp in H. now apply bytes_app in H as [_ H]. Qed.

(** ** check_utf8 *)
Lemma check_loop_spec f s : bytes s -> (length s <= f)%nat ->
  exists b, check_loop f s = Ok b /\ (b = true <-> well_formed s).
Proof.
  revert s. induction f as [|f IH]; intros s Hs Hf.
  - destruct s; [|cbn in Hf; lia]. exists true. split; [reflexivity|]. split; [exists []; constructor|reflexivity].
  - destruct s as [|c s]; [exists true; split; [reflexivity|]; split; [exists []; constructor|reflexivity]|].
    cbn [check_loop]. unfold chars_to_uchar_throw.
    pose proof (rest_shorter c s) as Hlen. pose proof (rest_bytes c s Hs) as Hrb.
    destruct (chars_to_uchar_impl (c :: s)) as [v r|b r] eqn:E; cbn [rest_of] in *.
    + destruct (IH r) as (b & Hb & Hiff); [assumption|cbn [length] in *; lia|]. exists b. split; [assumption|].
      rewrite Hiff. destruct (decode_val _ _ _ Hs E) as (e & He & Hu). split.
      * intros [cs H]. exists (v :: cs). rewrite He. now constructor.
      * intros [cs H]. inversion H as [|v' cs' e' s' Hu' H' Ecs Es]; subst.
        rewrite <- Es in E. rewrite (decode_encoded _ _ _ Hu') in E. injection E as -> ->. eexists; eauto.
    + destruct (impl_bad_consumed _ _ _ _ E) as [Hc Hne]. destruct b as [|b0 b]; [congruence|].
      exists false. split; [reflexivity|]. split; [discriminate|].
      intros [cs H]. exfalso. inversion H as [|v' cs' e' s' Hu' H' Ecs Es].
      rewrite <- Es in E. rewrite (decode_encoded _ _ _ Hu') in E. discriminate.
Qed.

Lemma check_utf8_exact s : bytes s -> exists b, check_utf8 s = Ok b /\ (b = true <-> well_formed s).
Proof. intros. now apply check_loop_spec. Qed.

(** ** Conversions *)
Lemma s2u_utf8 cs s : utf8 cs s -> forall f, (length s <= f)%nat -> s2u_loop f s = Ok cs.
Proof.
  induction 1 as [|c cs e s Hc H IH]; intros f Hf.
  - destruct f; reflexivity.
  - assert (exists b e', e = b :: e') as (b & e' & ->) by (destruct Hc; eauto).
    cbn [app length] in *. destruct f as [|f]; [lia|].
    rewrite app_length in Hf.
    change (b :: e' ++ s) with ((b :: e') ++ s).
    cbn [s2u_loop]. change ((b :: e') ++ s) with (b :: e' ++ s). cbn [s2u_loop].
    unfold chars_to_uchar. change (b :: e' ++ s) with ((b :: e') ++ s).
    rewrite (decode_encoded _ _ s Hc). rewrite IH by lia. reflexivity.
Qed.

Lemma string_to_ustring_utf8 cs s : utf8 cs s -> string_to_ustring s = Ok cs.
Proof. intros H. apply (s2u_utf8 _ _ H). lia. Qed.

Lemma u2s_utf8 cs : Forall scalar cs -> utf8 cs (ustring_to_string cs).
Proof.
  induction 1 as [|c cs Hc H IH]; [constructor|]. cbn. constructor; [now apply encode_char|exact IH].
Qed.

Lemma utf8_scalars cs s : utf8 cs s -> Forall scalar cs.
Proof. induction 1 as [|c cs e s Hc H IH]; constructor; [eapply utf8_char_scalar; eauto|assumption]. Qed.

Lemma utf8_u2s cs s : utf8 cs s -> ustring_to_string cs = s.
Proof.
  induction 1 as [|c cs e s Hc H IH]; [reflexivity|]. cbn. fold (ustring_to_string cs). rewrite IH. f_equal.
  apply (utf8_char_fun c); [apply encode_char; eapply utf8_char_scalar; eauto|assumption].
Qed.

Lemma utf8_bytes cs s : utf8 cs s -> bytes s.
Proof.
  induction 1 as [|c cs e s Hc H IH]; [constructor|]. apply bytes_app. split; [eapply utf8_char_bytes; eauto|assumption].
Qed.

Lemma utf8_unique cs1 cs2 s : utf8 cs1 s -> utf8 cs2 s -> cs1 = cs2.
Proof. intros H1 H2. apply string_to_ustring_utf8 in H1, H2. congruence. Qed.

(** Arbitrary input: conversion always succeeds and yields scalar values. *)
Lemma s2u_total f s : bytes s -> (length s <= f)%nat ->
  exists u, s2u_loop f s = Ok u /\ Forall scalar u /\ (length u <= length s)%nat.
Proof.
  revert s. induction f as [|f IH]; intros s Hs Hf.
  - destruct s; [|cbn in Hf; lia]. exists []. repeat split; auto.
  - destruct s as [|c s]; [exists []; repeat split; auto|].
    cbn [s2u_loop]. unfold chars_to_uchar.
    pose proof (rest_shorter c s) as Hlen. pose proof (rest_bytes c s Hs) as Hrb.
    destruct (chars_to_uchar_impl (c :: s)) as [v r|b r] eqn:E; cbn [rest_of] in *.
    + destruct (IH r) as (u & Hu & Hsc & Hl); [assumption|cbn [length] in *; lia|].
      rewrite Hu. exists (v :: u). split; [reflexivity|]. split; [|cbn [length] in *; lia].
      constructor; [|assumption]. destruct (decode_val _ _ _ Hs E) as (e & _ & He). eapply utf8_char_scalar; eauto.
    + destruct (IH r) as (u & Hu & Hsc & Hl); [assumption|cbn [length] in *; lia|].
      rewrite Hu. eexists. split; [reflexivity|]. split; [|cbn [length] in *; lia].
      constructor; [|assumption]. destruct b; cbn; unfold scalar; lia.
Qed.

(** What the conversion does with malformed parts: each maximal rejected piece
    becomes one U+FFFD. *)
Lemma s2u_step f c s : bytes (c :: s) -> (length (c :: s) <= f)%nat ->
  forall u, s2u_loop f (c :: s) = Ok u ->
  (exists v e r u', c :: s = e ++ r /\ utf8_char v e /\ u = v :: u' /\ string_to_ustring r = Ok u') \/
  ((forall v e r, utf8_char v e -> c :: s <> e ++ r) /\
   exists b r u', c :: s = b ++ r /\ b <> [] /\ u = 65533 :: u' /\ string_to_ustring r = Ok u').
Proof.
  intros Hs Hf u Hu. destruct f as [|f]; [cbn in Hf; lia|]. cbn [s2u_loop] in Hu. unfold chars_to_uchar in Hu.
  pose proof (rest_shorter c s) as Hlen. pose proof (rest_bytes c s Hs) as Hrb.
  assert (HF : forall f r, (length r <= f)%nat -> bytes r -> s2u_loop f r = string_to_ustring r).
  { clear. intros f r Hf Hr. unfold string_to_ustring.
    assert (G : forall n f1 f2 r, (length r <= n)%nat -> (length r <= f1)%nat -> (length r <= f2)%nat -> s2u_loop f1 r = s2u_loop f2 r).
    { clear. induction n as [|n IH]; intros f1 f2 r Hn H1 H2.
      - destruct r; [destruct f1, f2; reflexivity|cbn in Hn; lia].
      - destruct r as [|c r]; [destruct f1, f2; reflexivity|].
        destruct f1 as [|f1]; [cbn in H1; lia|]. destruct f2 as [|f2]; [cbn in H2; lia|].
        cbn [s2u_loop]. unfold chars_to_uchar. pose proof (rest_shorter c r) as Hl. cbn [length] in *.
        destruct (chars_to_uchar_impl (c :: r)) as [v r'|b r']; cbn [rest_of] in Hl; rewrite (IH f1 f2) by lia; reflexivity. }
    apply (G (length r)); lia. }
  destruct (chars_to_uchar_impl (c :: s)) as [v r|b r] eqn:E; cbn [rest_of] in *.
  - rewrite HF in Hu by (cbn [length] in *; assumption || lia).
    destruct (string_to_ustring r) as [u'| | |] eqn:Er; try discriminate. injection Hu as <-.
    left. destruct (decode_val _ _ _ Hs E) as (e & He & Hc). exists v, e, r, u'. auto.
  - rewrite HF in Hu by (cbn [length] in *; assumption || lia).
    destruct (string_to_ustring r) as [u'| | |] eqn:Er; try discriminate. injection Hu as <-.
    right. destruct (impl_bad_consumed _ _ _ _ E) as [Hc Hne]. split.
    + intros v e q Hv Hq. rewrite Hq in E. rewrite (decode_encoded _ _ _ Hv) in E. discriminate.
    + exists b, r, u'. repeat split; auto. destruct b; [congruence|reflexivity].
Qed.

(** ** sanitize_utf8 *)
Lemma rd_skipn n s c r : skipn n s = c :: r -> rd s (Z.of_nat n) = Ok c.
Proof.
  intros H. assert (Hl : (n < length s)%nat).
  { destruct (le_lt_dec (length s) n) as [Hle|]; [|assumption]. rewrite skipn_all2 in H by assumption. discriminate. }
  unfold rd. replace ((0 <=? Z.of_nat n) && (Z.of_nat n <? Z.of_nat (length s))) with true by lia.
  rewrite Nat2Z.id. f_equal. rewrite <- (firstn_skipn n s) at 1. rewrite app_nth2; rewrite firstn_length_le by lia; [|lia].
  rewrite Nat.sub_diag, H. reflexivity.
Qed.

Lemma skipn_S n s (c : Z) r : skipn n s = c :: r -> skipn (S n) s = r.
Proof. revert s. induction n as [|n IH]; intros [|x s] H; cbn in *; try discriminate; [now injection H|auto]. Qed.

Lemma skipn_add (a b : nat) (s : list Z) : skipn (a + b) s = skipn b (skipn a s).
Proof. revert s. induction a as [|a IH]; intros s; [reflexivity|]. destruct s; cbn; [now rewrite skipn_nil|apply IH]. Qed.

Definition contb (b : Z) : Prop := 128 <= b < 192.

Lemma scan_spec d : forall f s n, bytes s -> (d <= f)%nat -> (n <= length s)%nat ->
  exists k, scan f s (Z.of_nat n + Z.of_nat d - 1) (Z.of_nat n) = Ok (Z.of_nat (n + k)) /\ (k <= d)%nat /\
    (k <= length (skipn n s))%nat /\ Forall contb (firstn k (skipn n s)) /\
    (k = d \/ match skipn k (skipn n s) with [] => True | c :: _ => ~ contb c end).
Proof.
  induction d as [|d IH]; intros f s n Hs Hf Hn.
  - exists 0%nat. destruct f; cbn [scan];
    (replace (Z.of_nat n <=? Z.of_nat n + Z.of_nat 0 - 1) with false by lia); cbn [andb];
    rewrite Nat.add_0_r; repeat split; auto with arith; constructor.
  - destruct f as [|f]; [lia|]. cbn [scan].
    replace (Z.of_nat n <=? Z.of_nat n + Z.of_nat (S d) - 1) with true by lia. cbn [andb].
    destruct (Z.of_nat n <? Z.of_nat (length s)) eqn:E.
    + destruct (skipn n s) as [|c r] eqn:Es.
      { assert (length (skipn n s) = 0)%nat by now rewrite Es. rewrite skipn_length in H. lia. }
      rewrite (rd_skipn n s c r Es). cbn [obind].
      assert (Hc : is_byte c).
      { rewrite <- (firstn_skipn n s) in Hs. apply bytes_app in Hs as [_ Hs]. rewrite Es in Hs. now apply bytes_cons in Hs as [? _]. }
      rewrite b_cont by assumption. destruct ((128 <=? c) && (c <? 192)) eqn:Ec; cbn [negb].
      * destruct (IH f s (S n)) as (k & Hk & Hkd & Hkl & Hf' & Hend); [assumption|lia|lia|].
        rewrite (skipn_S n s c r Es) in *.
        exists (S k). split.
        { replace (Z.of_nat n + 1) with (Z.of_nat (S n)) by lia.
          replace (Z.of_nat n + Z.of_nat (S d) - 1) with (Z.of_nat (S n) + Z.of_nat d - 1) by lia.
          rewrite Hk. do 2 f_equal. lia. }
        split; [lia|]. split; [cbn; lia|]. split; [cbn; constructor; [unfold contb; lia|assumption]|].
        destruct Hend; [left; lia|right; assumption].
      * exists 0%nat. rewrite Nat.add_0_r. repeat split; auto with arith; [constructor|].
        right. cbn. unfold contb. lia.
    + exists 0%nat. rewrite Nat.add_0_r. repeat split; auto with arith; [constructor|].
      right. cbn [skipn]. rewrite skipn_all2 by lia. exact I.
Qed.

Lemma copy_spec m : forall f s n, (m <= f)%nat -> (n + m <= length s)%nat ->
  copy f s (Z.of_nat n) (Z.of_nat (n + m)) = Ok (firstn m (skipn n s)).
Proof.
  induction m as [|m IH]; intros f s n Hf Hl.
  - destruct f; cbn [copy]; (replace (Z.of_nat n <? Z.of_nat (n + 0)) with false by lia); reflexivity.
  - destruct f as [|f]; [lia|]. cbn [copy]. replace (Z.of_nat n <? Z.of_nat (n + S m)) with true by lia.
    destruct (skipn n s) as [|c r] eqn:Es.
    { assert (length (skipn n s) = 0)%nat by now rewrite Es. rewrite skipn_length in H. lia. }
    rewrite (rd_skipn n s c r Es). cbn [obind].
    replace (Z.of_nat n + 1) with (Z.of_nat (S n)) by lia. replace (n + S m)%nat with (S n + m)%nat by lia.
    rewrite IH by lia. rewrite (skipn_S n s c r Es). reflexivity.
Qed.

Definition skip_val (c : Z) : Z :=
  if c =? 0 then -1 else if c <? 128 then 0 else if c <? 192 then -1 else if c <? 224 then 1
  else if c <? 240 then 2 else if c <? 248 then 3 else -1.

Lemma skip_spec s n c r : bytes s -> skipn n s = c :: r -> utf8_skip s (Z.of_nat n) = Ok (skip_val c).
Proof.
  intros Hs Es. unfold utf8_skip. rewrite (rd_skipn n s c r Es). cbn [obind]. f_equal.
  assert (Hc : is_byte c).
  { rewrite <- (firstn_skipn n s) in Hs. apply bytes_app in Hs as [_ Hs]. rewrite Es in Hs. now apply bytes_cons in Hs as [? _]. }
  rewrite b_land128, b_cont, b_224, b_240, b_248 by assumption. unfold skip_val, is_byte in *.
  repeat match goal with |- context [if ?b then _ else _] => destruct b eqn:? end; lia.
Qed.

Lemma keep_sound buf : bytes buf -> keep buf = true -> match buf with [b0] => b0 < 128 | _ => True end ->
  exists c, utf8_char c buf /\ clean_char c.
Proof.
  intros Hb Hk H1. destruct buf as [|b0 [|b1 [|b2 [|b3 [|b4 buf]]]]]; try discriminate.
  - apply bytes_cons in Hb as [Hb0 _]. cbn [keep] in Hk. exists b0. unfold is_byte, clean_char in *.
    split; [constructor; lia|lia].
  - apply bytes_cons in Hb as [Hb0 Hb]. apply bytes_cons in Hb as [Hb1 _]. cbn [keep] in Hk.
    unfold utf8_invalid2, btw in Hk. rewrite b_land128, b_192 in Hk by assumption.
    exists ((b0 - 192) * 64 + (b1 - 128)). unfold is_byte, clean_char in *.
    set (c := (b0 - 192) * 64 + (b1 - 128)) in *.
    replace [b0; b1] with [192 + c / 64; 128 + c mod 64] by (unfold c; f_equal; [lia|f_equal; lia]).
    split; [apply u2; unfold c; lia|unfold c; lia].
  - apply bytes_cons in Hb as [Hb0 Hb]. apply bytes_cons in Hb as [Hb1 Hb]. apply bytes_cons in Hb as [Hb2 _]. cbn [keep] in Hk.
    unfold utf8_invalid3, btw in Hk. rewrite !b_land128, !b_192 in Hk by assumption.
    exists ((b0 - 224) * 4096 + (b1 - 128) * 64 + (b2 - 128)). unfold is_byte, clean_char in *.
    set (c := (b0 - 224) * 4096 + (b1 - 128) * 64 + (b2 - 128)) in *.
    apply andb_true_iff in Hk as [Hi Hk].
    assert (R : 224 <= b0 <= 239 /\ 128 <= b1 <= 191 /\ 128 <= b2 <= 191) by (clear Hi; lia).
    replace [b0; b1; b2] with [224 + c / 4096; 128 + (c / 64) mod 64; 128 + c mod 64]
      by (clear Hi Hk; unfold c; f_equal; [lia|f_equal; [lia|f_equal; lia]]).
    assert (Hb1' : b0 = 224 -> 160 <= b1) by (clear Hi; lia).
    assert (Hb1'' : b0 = 237 -> b1 <= 159) by (clear Hi; lia).
    assert (Hef : b0 = 239 -> b1 = 191 -> b2 <= 189).
    { intros -> ->. cbn in Hi. destruct (b2 <? 128); [discriminate|]. cbn in Hi. destruct (189 <? b2) eqn:?; [discriminate|lia]. }
    clear Hi Hk. split; [apply u3; unfold scalar, c; lia|unfold c; lia].
  - apply bytes_cons in Hb as [Hb0 Hb]. apply bytes_cons in Hb as [Hb1 Hb]. apply bytes_cons in Hb as [Hb2 Hb]. apply bytes_cons in Hb as [Hb3 _]. cbn [keep] in Hk.
    apply andb_true_iff in Hk as [_ Hk]. unfold btw in Hk.
    exists ((b0 - 240) * 262144 + (b1 - 128) * 4096 + (b2 - 128) * 64 + (b3 - 128)). unfold is_byte, clean_char in *.
    set (c := (b0 - 240) * 262144 + (b1 - 128) * 4096 + (b2 - 128) * 64 + (b3 - 128)) in *.
    assert (R : 240 <= b0 <= 244 /\ 128 <= b1 <= 191 /\ 128 <= b2 <= 191 /\ 128 <= b3 <= 191) by lia.
    assert (Hb1' : b0 = 240 -> 144 <= b1) by lia.
    assert (Hb1'' : b0 = 244 -> b1 <= 143) by lia. clear Hk.
    replace [b0; b1; b2; b3] with [240 + c / 262144; 128 + (c / 4096) mod 64; 128 + (c / 64) mod 64; 128 + c mod 64]
      by (unfold c; f_equal; [lia|f_equal; [lia|f_equal; [lia|f_equal; lia]]]).
    split; [apply u4; unfold c; lia|unfold c; lia].
Qed.

Lemma keep_complete c e : utf8_char c e -> clean_char c -> keep e = true.
Proof.
  intros H Hc. destruct H as [c H|c H|c H Hs|c H]; unfold clean_char in Hc; cbn [keep].
  - lia.
  - unfold utf8_invalid2, btw. rewrite b_land128, b_192 by (unfold is_byte; lia). lia.
  - unfold utf8_invalid3, btw. rewrite !b_land128, !b_192 by (unfold is_byte; lia).
    unfold scalar in Hs.
    set (b0 := 224 + c / 4096). set (b1 := 128 + (c / 64) mod 64). set (b2 := 128 + c mod 64).
    assert (R : 224 <= b0 <= 239 /\ 128 <= b1 <= 191 /\ 128 <= b2 <= 191) by (unfold b0, b1, b2; lia).
    assert (H1 : b0 = 224 -> 160 <= b1) by (unfold b0, b1; lia).
    assert (H2 : b0 = 237 -> b1 <= 159) by (unfold b0, b1; lia).
    assert (H3 : b0 = 239 -> b1 = 191 -> b2 <= 189) by (unfold b0, b1, b2; lia).
    clearbody b0 b1 b2. clear H Hs Hc.
    destruct ((b0 =? 239) && (b1 =? 191)) eqn:A; destruct (b0 =? 224) eqn:B; destruct (b0 =? 237) eqn:C; lia.
  - unfold utf8_invalid4, btw. rewrite !b_land128, !b_192 by (unfold is_byte; lia).
    set (b0 := 240 + c / 262144). set (b1 := 128 + (c / 4096) mod 64). set (b2 := 128 + (c / 64) mod 64). set (b3 := 128 + c mod 64).
    assert (R : 240 <= b0 <= 244 /\ 128 <= b1 <= 191 /\ 128 <= b2 <= 191 /\ 128 <= b3 <= 191) by (unfold b0, b1, b2, b3; lia).
    assert (H1 : b0 = 240 -> 144 <= b1) by (unfold b0, b1; lia).
    assert (H2 : b0 = 244 -> b1 <= 143) by (unfold b0, b1; lia).
    clearbody b0 b1 b2 b3. clear H Hc.
    destruct (b0 =? 240) eqn:A; destruct (b0 =? 244) eqn:B; lia.
Qed.

Lemma clean_app c e s : utf8_char c e -> clean_char c -> clean s -> clean (e ++ s).
Proof. intros He Hc (cs & H & Hf). exists (c :: cs). split; [now constructor|now constructor]. Qed.

Lemma scan_at s n ccc : bytes s -> 0 <= ccc <= 3 -> (n < length s)%nat ->
  exists k, scan 4 s (ccc + Z.of_nat n) (Z.of_nat n + 1) = Ok (Z.of_nat (S n + k)) /\ (k <= Z.to_nat ccc)%nat /\
    (k <= length (skipn (S n) s))%nat /\ Forall contb (firstn k (skipn (S n) s)) /\
    (k = Z.to_nat ccc \/ match skipn k (skipn (S n) s) with [] => True | c :: _ => ~ contb c end).
Proof.
  intros Hs Hc Hn. destruct (scan_spec (Z.to_nat ccc) 4 s (S n) Hs ltac:(lia) ltac:(lia)) as (k & Hk & R).
  exists k. split; [|exact R].
  replace (ccc + Z.of_nat n) with (Z.of_nat (S n) + Z.of_nat (Z.to_nat ccc) - 1) by lia.
  replace (Z.of_nat n + 1) with (Z.of_nat (S n)) by lia. exact Hk.
Qed.

Lemma len_skipn_cons n (s : list Z) c r : skipn n s = c :: r -> (length s = n + S (length r))%nat.
Proof. intros H. pose proof (skipn_length n s) as E. rewrite H in E. cbn in E. lia. Qed.

Lemma san_clean f : forall s n, bytes s -> (length s - n <= f)%nat -> (n <= length s)%nat ->
  exists out, san_loop f s (Z.of_nat n) = Ok out /\ clean out.
Proof.
  induction f as [|f IH]; intros s n Hs Hf Hn.
  - cbn [san_loop]. replace (Z.of_nat n <? Z.of_nat (length s)) with false by lia.
    exists []. split; [reflexivity|]. exists []. split; constructor.
  - cbn [san_loop]. destruct (Z.of_nat n <? Z.of_nat (length s)) eqn:E.
    2:{ exists []. split; [reflexivity|]. exists []. split; constructor. }
    destruct (skipn n s) as [|c r] eqn:Es.
    { pose proof (skipn_length n s) as L. rewrite Es in L. cbn in L. lia. }
    rewrite (skip_spec s n c r Hs Es). cbn [obind].
    assert (Hsk : bytes (skipn n s)).
    { rewrite <- (firstn_skipn n s) in Hs. now apply bytes_app in Hs as [_ Hs]. }
    rewrite Es in Hsk. apply bytes_cons in Hsk as [Hc Hr].
    destruct (skip_val c <? 0) eqn:E0.
    { replace (Z.of_nat n + 1) with (Z.of_nat (S n)) by lia. apply IH; [assumption|lia|lia]. }
    assert (Hv : 0 <= skip_val c <= 3) by (unfold skip_val in *; repeat match goal with |- context [if ?b then _ else _] => destruct b eqn:? end; lia).
    destruct (scan_at s n (skip_val c) Hs Hv ltac:(lia)) as (k & Hk & Hk1 & Hk2 & Hk3 & _).
    rewrite Hk. cbn [obind]. pose proof (skipn_S n s c r Es) as EsS. rewrite EsS in *.
    pose proof (len_skipn_cons n s c r Es) as Hlen.
    destruct (Z.of_nat (S n + k) =? skip_val c + Z.of_nat n + 1) eqn:Ek.
    + replace (S n + k)%nat with (n + S k)%nat by lia.
      rewrite copy_spec by lia. cbn [obind]. rewrite Es. cbn [firstn].
      destruct (IH s (n + S k)%nat Hs ltac:(lia) ltac:(lia)) as (out & Hout & Hcl).
      rewrite Hout. destruct (keep (c :: firstn k r)) eqn:Ekeep.
      * cbn [omap]. eexists. split; [reflexivity|].
        destruct (keep_sound (c :: firstn k r)) as (v & Hv1 & Hv2); [|assumption| |].
        { apply bytes_cons. split; [assumption|]. apply Forall_forall. intros x Hx.
          rewrite Forall_forall in Hk3. specialize (Hk3 x Hx). unfold contb, is_byte in *. lia. }
        { destruct k as [|k]; cbn [firstn].
          - unfold skip_val in *. unfold is_byte in Hc.
            repeat match goal with H : context [if ?b then _ else _] |- _ => destruct b eqn:? end; lia.
          - destruct r; [cbn in Hk2; lia|exact I]. }
        change (clean ((c :: firstn k r) ++ out)). eapply clean_app; eauto.
      * eexists. split; [reflexivity|assumption].
    + apply IH; [assumption|lia|lia].
Qed.

Lemma utf8_char_shape c e : utf8_char c e -> clean_char c ->
  exists b t, e = b :: t /\ Forall contb t /\ skip_val b = Z.of_nat (length t).
Proof.
  intros H Hc. unfold clean_char in Hc. destruct H as [c H|c H|c H Hs|c H]; do 2 eexists;
    (split; [reflexivity|]); (split; [repeat apply Forall_cons; try apply Forall_nil; unfold contb; lia|]);
    unfold skip_val; cbn [length];
    repeat match goal with |- context [if ?b then _ else _] => destruct b eqn:? end; lia.
Qed.


Lemma san_fix f : forall s n cs, bytes s -> (length s - n <= f)%nat -> (n <= length s)%nat ->
  utf8 cs (skipn n s) -> Forall clean_char cs -> san_loop f s (Z.of_nat n) = Ok (skipn n s).
Proof.
  induction f as [|f IH]; intros s n cs Hs Hf Hn Hu Hcs.
  - cbn [san_loop]. replace (Z.of_nat n <? Z.of_nat (length s)) with false by lia.
    rewrite skipn_all2 by lia. reflexivity.
  - cbn [san_loop]. destruct (Z.of_nat n <? Z.of_nat (length s)) eqn:E.
    2:{ rewrite skipn_all2 by lia. reflexivity. }
    inversion Hu as [E1 E2|v cs' e s' Hv Hu' E1 E2].
    { pose proof (skipn_length n s) as L. rewrite <- E2 in L. cbn in L. lia. }
    subst cs. inversion Hcs as [|? ? Hvc Hcs']; subst.
    destruct (utf8_char_shape _ _ Hv Hvc) as (b & t & -> & Ht & Hsv).
    symmetry in E2. cbn [app] in E2.
    rewrite (skip_spec s n b (t ++ s') Hs E2). cbn [obind].
    assert (Hlt : (length t <= 3)%nat) by (inversion Hv; subst; cbn; lia).
    replace (skip_val b <? 0) with false by lia.
    pose proof (len_skipn_cons _ _ _ _ E2) as Hlen. rewrite app_length in Hlen.
    destruct (scan_at s n (skip_val b) Hs ltac:(lia) ltac:(lia)) as (k & Hk & Hk1 & Hk2 & Hk3 & Hk4).
    rewrite Hk. cbn [obind]. rewrite (skipn_S _ _ _ _ E2) in *.
    assert (Ekt : k = length t).
    { destruct Hk4 as [->|Hk4]; [lia|].
      destruct (Nat.eq_dec k (length t)) as [|Hne]; [assumption|exfalso].
      assert (Hkl : (k < length t)%nat) by lia.
      rewrite skipn_app in Hk4. replace (k - length t)%nat with 0%nat in Hk4 by lia. cbn [skipn] in Hk4.
      destruct (skipn k t) as [|x q] eqn:Eq.
      { pose proof (skipn_length k t) as L. rewrite Eq in L. cbn in L. lia. }
      cbn [app] in Hk4. apply Hk4. rewrite Forall_forall in Ht. apply Ht.
      rewrite <- (firstn_skipn k t), Eq. apply in_or_app. right. now left. }
    subst k. replace (Z.of_nat (S n + length t) =? skip_val b + Z.of_nat n + 1) with true by lia.
    replace (S n + length t)%nat with (n + S (length t))%nat by lia.
    rewrite copy_spec by lia. rewrite E2. cbn [obind firstn].
    rewrite firstn_app, firstn_all, Nat.sub_diag, firstn_O, app_nil_r.
    rewrite (keep_complete _ _ Hv Hvc).
    assert (Esk : skipn (n + S (length t)) s = s').
    { rewrite skipn_add, E2. cbn [skipn]. rewrite skipn_app, skipn_all, Nat.sub_diag. reflexivity. }
    rewrite (IH s (n + S (length t))%nat cs'); [rewrite Esk; reflexivity|assumption|lia|lia|rewrite Esk; assumption|assumption].
Qed.

Lemma sanitize_clean s : bytes s -> exists out, sanitize_utf8 s = Ok out /\ clean out.
Proof. intros H. apply (san_clean (length s) s 0); [assumption|lia|lia]. Qed.

Lemma clean_bytes s : clean s -> bytes s.
Proof. intros (cs & H & _). eapply utf8_bytes; eauto. Qed.

Lemma sanitize_id s : clean s -> sanitize_utf8 s = Ok s.
Proof.
  intros H. pose proof (clean_bytes s H) as Hb. destruct H as (cs & Hu & Hf).
  apply (san_fix (length s) s 0 cs); [assumption|lia|lia|assumption|assumption].
Qed.

(** Processing a clean prefix leaves it alone and does not disturb the rest. *)
Lemma rd_shift a s p : 0 <= p -> rd (a ++ s) (Z.of_nat (length a) + p) = rd s p.
Proof.
  intros Hp. unfold rd. rewrite app_length.
  replace ((0 <=? Z.of_nat (length a) + p) && (Z.of_nat (length a) + p <? Z.of_nat (length a + length s)))
    with ((0 <=? p) && (p <? Z.of_nat (length s))) by lia.
  replace (Z.of_nat (length a) + p =? Z.of_nat (length a + length s)) with (p =? Z.of_nat (length s)) by lia.
  destruct (_ && _); [|reflexivity]. f_equal. rewrite app_nth2 by lia. f_equal. lia.
Qed.

Lemma scan_shift f a s lim p : 0 <= p ->
  scan f (a ++ s) (Z.of_nat (length a) + lim) (Z.of_nat (length a) + p) = omap (Z.add (Z.of_nat (length a))) (scan f s lim p).
Proof.
  revert p. induction f as [|f IH]; intros p Hp; cbn [scan]; rewrite app_length;
    replace (Z.of_nat (length a) + p <=? Z.of_nat (length a) + lim) with (p <=? lim) by lia;
    replace (Z.of_nat (length a) + p <? Z.of_nat (length a + length s)) with (p <? Z.of_nat (length s)) by lia.
  - destruct (_ && _); reflexivity.
  - destruct (_ && _); [|reflexivity]. rewrite rd_shift by assumption.
    destruct (rd s p); cbn [obind omap]; try reflexivity.
    destruct (negb _); [reflexivity|]. rewrite <- IH by lia. f_equal. lia.
Qed.

Lemma copy_shift f a s p q : 0 <= p ->
  copy f (a ++ s) (Z.of_nat (length a) + p) (Z.of_nat (length a) + q) = copy f s p q.
Proof.
  revert p. induction f as [|f IH]; intros p Hp; cbn [copy];
    replace (Z.of_nat (length a) + p <? Z.of_nat (length a) + q) with (p <? q) by lia; [reflexivity|].
  destruct (p <? q); [|reflexivity]. rewrite rd_shift by assumption.
  replace (Z.of_nat (length a) + p + 1) with (Z.of_nat (length a) + (p + 1)) by lia. rewrite IH by lia. reflexivity.
Qed.

Lemma scan_ge f : forall s lim p q, scan f s lim p = Ok q -> p <= q.
Proof.
  induction f as [|f IH]; intros s lim p q; cbn [scan]; destruct (_ && _); try discriminate;
    try (intros E; injection E as ->; lia).
  destruct (rd s p); cbn [obind]; try discriminate. destruct (negb _); [intros E; injection E as ->; lia|].
  intros E. apply IH in E. lia.
Qed.

Lemma san_shift f a s p : 0 <= p -> san_loop f (a ++ s) (Z.of_nat (length a) + p) = san_loop f s p.
Proof.
  revert p. induction f as [|f IH]; intros p Hp; cbn [san_loop]; rewrite app_length;
    replace (Z.of_nat (length a) + p <? Z.of_nat (length a + length s)) with (p <? Z.of_nat (length s)) by lia.
  - reflexivity.
  - destruct (_ <? _); [|reflexivity].
    unfold utf8_skip. rewrite rd_shift by assumption. destruct (rd s p) as [c| | |]; cbn [obind]; try reflexivity.
    match goal with |- context [if ?v <? 0 then _ else _] => set (ccc := v) end.
    destruct (ccc <? 0) eqn:Ec.
    { replace (Z.of_nat (length a) + p + 1) with (Z.of_nat (length a) + (p + 1)) by lia. apply IH. lia. }
    replace (ccc + (Z.of_nat (length a) + p)) with (Z.of_nat (length a) + (ccc + p)) by lia.
    replace (Z.of_nat (length a) + p + 1) with (Z.of_nat (length a) + (p + 1)) by lia.
    rewrite scan_shift by lia. destruct (scan 4 s (ccc + p) (p + 1)) as [q| | |] eqn:Eq; cbn [obind omap]; try reflexivity.
    apply scan_ge in Eq.
    replace (Z.of_nat (length a) + q =? Z.of_nat (length a) + (ccc + p) + 1) with (q =? ccc + p + 1) by lia.
    rewrite copy_shift, IH by lia. reflexivity.
Qed.

Lemma san_mono f : forall f' s p, (f <= f')%nat -> san_loop f s p <> Fuel -> san_loop f' s p = san_loop f s p.
Proof.
  induction f as [|f IH]; intros f' s p Hf Hn.
  - destruct f' as [|f']; [reflexivity|]. cbn [san_loop] in *. destruct (_ <? _); [congruence|reflexivity].
  - destruct f' as [|f']; [lia|]. cbn [san_loop] in *. destruct (_ <? _); [|reflexivity].
    destruct (utf8_skip s p) as [c| | |]; cbn [obind] in *; try reflexivity.
    destruct (c <? 0); [apply IH; [lia|assumption]|].
    destruct (scan 4 s (c + p) (p + 1)) as [q| | |]; cbn [obind] in *; try reflexivity.
    destruct (q =? _); [|apply IH; [lia|assumption]].
    destruct (copy 4 s p q) as [b| | |]; cbn [obind] in *; try reflexivity.
    destruct (keep b); [|apply IH; [lia|assumption]].
    rewrite (IH f'); [reflexivity|lia|]. intros E. rewrite E in Hn. now apply Hn.
Qed.

Lemma san_head c e s : bytes s -> utf8_char c e -> clean_char c ->
  sanitize_utf8 (e ++ s) = omap (app e) (sanitize_utf8 s).
Proof.
  intros Hs He Hc. assert (Hb : bytes (e ++ s)) by (apply bytes_app; split; [eapply utf8_char_bytes; eauto|assumption]).
  destruct (utf8_char_shape _ _ He Hc) as (b & t & -> & Ht & Hsv).
  unfold sanitize_utf8. cbn [app length]. cbn [san_loop].
  change (b :: t ++ s) with ((b :: t) ++ s).
  set (s0 := (b :: t) ++ s) in *.
  assert (L0 : length s0 = S (length t + length s)) by (unfold s0; cbn [app length]; rewrite app_length; reflexivity).
  replace (0 <? Z.of_nat (length s0)) with true by lia.
  change 0 with (Z.of_nat 0) at 1.
  rewrite (skip_spec s0 0 b (t ++ s) Hb eq_refl). cbn [obind].
  assert (Hlt : (length t <= 3)%nat) by (inversion He; subst; cbn; lia).
  replace (skip_val b <? 0) with false by lia.
  destruct (scan_at s0 0 (skip_val b) Hb ltac:(lia) ltac:(lia)) as (k & Hk & Hk1 & Hk2 & Hk3 & Hk4).
  change (0 + 1) with (Z.of_nat 0 + 1). change (skip_val b + 0) with (skip_val b + Z.of_nat 0). rewrite Hk. cbn [obind].
  change (skipn 1 s0) with (t ++ s) in *.
  assert (Ekt : k = length t).
  { destruct Hk4 as [->|Hk4]; [lia|].
    destruct (Nat.eq_dec k (length t)) as [|Hne]; [assumption|exfalso].
    assert (Hkl : (k < length t)%nat) by lia.
    rewrite skipn_app in Hk4. replace (k - length t)%nat with 0%nat in Hk4 by lia. cbn [skipn] in Hk4.
    destruct (skipn k t) as [|x q] eqn:Eq.
    { pose proof (skipn_length k t) as L. rewrite Eq in L. cbn in L. lia. }
    cbn [app] in Hk4. apply Hk4. rewrite Forall_forall in Ht. apply Ht.
    rewrite <- (firstn_skipn k t), Eq. apply in_or_app. right. now left. }
  subst k. replace (Z.of_nat (1 + length t) =? skip_val b + Z.of_nat 0 + 1) with true by lia.
  change (1 + length t)%nat with (0 + S (length t))%nat.
  change (copy 4 s0 0 (Z.of_nat (0 + S (length t)))) with (copy 4 s0 (Z.of_nat 0) (Z.of_nat (0 + S (length t)))).
  rewrite copy_spec by lia. cbn [obind skipn].
  replace (firstn (S (length t)) s0) with (b :: t)
    by (unfold s0; cbn [app firstn]; rewrite firstn_app, firstn_all, Nat.sub_diag, firstn_O, app_nil_r; reflexivity).
  rewrite (keep_complete _ _ He Hc). f_equal.
  replace (Z.of_nat (0 + S (length t))) with (Z.of_nat (length (b :: t)) + 0) by (cbn [length]; lia).
  unfold s0. rewrite san_shift by lia. apply san_mono; [rewrite app_length; lia|].
  destruct (san_clean (length s) s 0 Hs ltac:(lia) ltac:(lia)) as (out & Ho & _).
  change (Z.of_nat 0) with 0 in Ho. rewrite Ho. discriminate.
Qed.

Lemma sanitize_prefix a s : clean a -> bytes s -> sanitize_utf8 (a ++ s) = omap (app a) (sanitize_utf8 s).
Proof.
  intros (cs & Hu & Hf) Hs. induction Hu as [|c cs e a He Hu IH].
  - cbn [app]. destruct (sanitize_utf8 s); reflexivity.
  - inversion Hf as [|? ? Hc Hf']; subst. rewrite <- app_assoc.
    rewrite (san_head c e (a ++ s)); [|apply bytes_app; split; [eapply utf8_bytes; eauto|assumption]|assumption|assumption].
    rewrite IH by assumption. destruct (sanitize_utf8 s); cbn [omap]; rewrite ?app_assoc; reflexivity.
Qed.
