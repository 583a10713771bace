From Verif Require Import Common CommonLemmas UriCodec_Model UriCodec_Spec.
Local Open Scope Z_scope.

Lemma tohex_hexdigit c v : hexdigit c v -> tohex c = v.
Proof. intros []; unfold tohex; repeat match goal with |- context [if ?b then _ else _] => destruct b eqn:? end; lia. Qed.

Lemma hexdigit_range c v : hexdigit c v -> 0 <= v <= 15.
Proof. intros []; lia. Qed.

Lemma unreserved_range c : unreserved c <-> isalnum c || (c =? 45) || (c =? 95) || (c =? 46) || (c =? 126) = true.
Proof.
  split.
  - unfold unreserved. cbn. intros H.
    repeat match type of H with _ \/ _ => destruct H as [H|H] end; try contradiction; rewrite <- H; reflexivity.
  - intros H. assert (Hr : 0 <= c < 256) by (unfold isalnum in H; lia).
    revert H. apply implb_true_iff || idtac.
    pose (P := fun c => implb (isalnum c || (c =? 45) || (c =? 95) || (c =? 46) || (c =? 126))
                 (existsb (Z.eqb c) (str "ABCDEFGHIJKLMNOPQRSTUVWXYZabcdefghijklmnopqrstuvwxyz0123456789-._~"))).
    assert (HP : P c = true) by (apply (byte_sweep P); [vm_compute; reflexivity|exact Hr]).
    intros H. unfold P in HP. rewrite H in HP. cbn [implb] in HP. apply existsb_exists in HP as (x & Hx & Ex).
    apply Z.eqb_eq in Ex. subst x. exact Hx.
Qed.

Lemma decode_percent_form s e : percent_form s e -> uri_decode e = s.
Proof.
  induction 1 as [|c s e Hc H IH|s e H IH|h l s e ch cl Hh Hl H IH].
  - reflexivity.
  - apply unreserved_range in Hc. assert (c <> 37 /\ c <> 43) by (unfold isalnum in Hc; lia).
    cbn [uri_decode]. destruct e as [|a [|b r]].
    + replace (c =? 43) with false by lia. cbn in *. now subst.
    + replace (c =? 43) with false by lia. now rewrite IH.
    + replace (c =? 37) with false by lia. replace (c =? 43) with false by lia. now rewrite IH.
  - cbn [uri_decode]. destruct e as [|a [|b r]]; cbn -[uri_decode]; now rewrite IH.
  - cbn [uri_decode]. change (37 =? 37) with true. cbv iota.
    rewrite (tohex_hexdigit _ _ Hh), (tohex_hexdigit _ _ Hl), IH.
    apply hexdigit_range in Hh, Hl. f_equal. rewrite Z.mod_small by lia. lia.
Qed.


Lemma hexchar_digit h : 0 <= h <= 15 -> hexdigit (hexchar h) h /\ uphex (hexchar h).
Proof.
  intros H. unfold hexchar, uphex. destruct (h <? 10) eqn:E.
  - split; [|lia]. apply hex_num. lia.
  - replace (h <? 16) with true by lia. split; [|lia]. replace (65 + h - 10) with (65 + (h - 10)) by lia. apply hex_up. lia.
Qed.

Lemma encode_percent_form s : bytes s -> percent_form s (uri_encode s).
Proof.
  induction s as [|c s IH]; intros Hs; [constructor|]. apply bytes_cons in Hs as [Hc Hs].
  cbn [uri_encode]. unfold uri_encode1.
  destruct (isalnum c || (c =? 45) || (c =? 95) || (c =? 46) || (c =? 126)) eqn:E.
  - cbn [app]. constructor; [now apply unreserved_range|auto].
  - destruct (c =? 32) eqn:E2.
    + apply Z.eqb_eq in E2. subst. cbn [app]. constructor; auto.
    + cbn [app]. unfold is_byte in Hc.
      replace c with (16 * (c / 16) + c mod 16) at 1 by lia.
      constructor; auto; apply hexchar_digit; lia.
Qed.

Lemma uri_roundtrip s : bytes s -> uri_decode (uri_encode s) = s.
Proof. intros H. apply decode_percent_form, encode_percent_form, H. Qed.

Lemma uri_encode_injective s t : bytes s -> bytes t -> uri_encode s = uri_encode t -> s = t.
Proof. intros Hs Ht E. rewrite <- (uri_roundtrip s), <- (uri_roundtrip t) by assumption. now rewrite E. Qed.

Lemma encode_canonical s : bytes s -> canonical (uri_encode s).
Proof.
  induction s as [|c s IH]; intros Hs; [constructor|]. apply bytes_cons in Hs as [Hc Hs].
  cbn [uri_encode]. unfold uri_encode1.
  destruct (isalnum c || (c =? 45) || (c =? 95) || (c =? 46) || (c =? 126)) eqn:E.
  - cbn [app]. constructor; [now apply unreserved_range|auto].
  - destruct (c =? 32) eqn:E2; cbn [app]; unfold is_byte in Hc; constructor; auto; apply hexchar_digit; lia.
Qed.

Lemma uri_encode_app s t : uri_encode (s ++ t) = uri_encode s ++ uri_encode t.
Proof. induction s as [|c s IH]; [reflexivity|]. cbn [app uri_encode]. now rewrite IH, app_assoc. Qed.

(** The encoding never contains a delimiter used by query strings. *)
Lemma uri_encode_no_delim s c : bytes s -> In c (uri_encode s) -> unreserved c \/ c = 43 \/ c = 37.
Proof.
  intros Hs. pose proof (encode_canonical s Hs) as H. revert H. generalize (uri_encode s).
  assert (HU : forall a, uphex a -> unreserved a).
  { intros a Ha. apply unreserved_range. unfold uphex, isalnum in *. lia. }
  induction 1; cbn [In]; intros Hin; [contradiction| | |].
  - destruct Hin as [<-|]; auto.
  - destruct Hin as [<-|]; auto.
  - destruct Hin as [<-|[<-|[<-|]]]; auto.
Qed.

Lemma decode_safe_bytes s : bytes s -> bytes (uri_decode s).
Proof.
  induction s as [s IH] using list_len_ind. intros Hs. destruct s as [|c r]; [constructor|].
  apply bytes_cons in Hs as [Hc Hr].
  assert (Hh : is_byte (if c =? 43 then 32 else c)) by (destruct (c =? 43); [unfold is_byte; lia|exact Hc]).
  cbn [uri_decode]. destruct r as [|a [|b r']].
  - apply bytes_cons. split; [exact Hh|constructor].
  - apply bytes_cons. split; [exact Hh|]. apply IH; [cbn; lia|assumption].
  - destruct (c =? 37).
    + apply bytes_cons. split; [unfold is_byte; lia|]. apply IH; [cbn; lia|].
      apply bytes_cons in Hr as [_ Hr]. now apply bytes_cons in Hr as [_ Hr].
    + apply bytes_cons. split; [exact Hh|]. apply IH; [cbn; lia|assumption].
Qed.

Lemma tohex_value c : digit_value c (tohex c).
Proof.
  unfold tohex. repeat match goal with |- context [if ?b then _ else _] => destruct b eqn:? end.
  - left. replace c with (48 + (c - 48)) at 1 by lia. apply hex_num. lia.
  - left. replace c with (65 + (c - 65 + 10 - 10)) at 1 by lia. apply hex_up. lia.
  - left. replace c with (97 + (c - 97 + 10 - 10)) at 1 by lia. apply hex_low. lia.
  - right. split; [reflexivity|]. intros w H. inversion H; lia.
Qed.
Lemma value_tohex c v : digit_value c v -> tohex c = v.
Proof. intros [H|[-> H]]; [now apply tohex_hexdigit|]. destruct (tohex_value c) as [G|[G _]]; [destruct (H _ G)|exact G]. Qed.
Lemma tohex_range c : 0 <= tohex c <= 15.
Proof. unfold tohex. repeat match goal with |- context [if ?b then _ else _] => destruct b eqn:? end; lia. Qed.
Theorem decodes_total e s : decodes e s <-> uri_decode e = s.
Proof.
  split.
  - induction 1 as [|a b h l e s Ha Hb _ IH|e s _ IH|c e s H1 H2 _ IH]; [reflexivity| | |].
    + cbn [uri_decode]. rewrite Z.eqb_refl. assert (Ra := tohex_range a). assert (Rb := tohex_range b). rewrite (value_tohex _ _ Ha) in *. rewrite (value_tohex _ _ Hb) in *. rewrite Z.mod_small by lia. f_equal; [lia|exact IH].
    + destruct e as [|a [|b e]]; cbn [uri_decode Z.eqb Pos.eqb] in *; now rewrite IH.
    + destruct e as [|a [|b e]]; cbn [uri_decode] in *; rewrite (proj2 (Z.eqb_neq _ _) H1); [now rewrite IH..|].
      destruct (Z.eqb_spec c 37) as [E|_]; [specialize (H2 E); cbn [length] in H2; lia|]. now rewrite IH.
  - intros <-. assert (G : forall n e, (length e <= n)%nat -> decodes e (uri_decode e)); [|now apply (G (length e))].
    clear. induction n as [|n IH]; intros [|c e] H; cbn [length] in H; try (constructor; fail); [lia|].
    destruct e as [|a [|b e]].
    + cbn [uri_decode]. destruct (Z.eqb_spec c 43) as [->|N]; [apply dec_plus|apply dec_char; [assumption|cbn; lia|]]; constructor.
    + change (uri_decode (c :: [a])) with ((if c =? 43 then 32 else c) :: uri_decode [a]).
      destruct (Z.eqb_spec c 43) as [->|N]; [apply dec_plus|apply dec_char; [assumption|cbn; lia|]]; apply IH; cbn in *; lia.
    + cbn [length] in H. change (uri_decode (c :: a :: b :: e)) with (if c =? 37 then (tohex a * 16 + tohex b) mod 256 :: uri_decode e else (if c =? 43 then 32 else c) :: uri_decode (a :: b :: e)).
      destruct (Z.eqb_spec c 37) as [->|N].
      * assert (Ra := tohex_range a). assert (Rb := tohex_range b). rewrite Z.mod_small by lia. replace (tohex a * 16) with (16 * tohex a) by lia. apply dec_hex; [apply tohex_value..|]. apply IH. lia.
      * destruct (Z.eqb_spec c 43) as [->|N']; [apply dec_plus|apply dec_char; [assumption|intros; congruence|]]; apply IH; cbn [length]; lia.
Qed.
