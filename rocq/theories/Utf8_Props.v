(** C05-C08: UTF-8. *)
From Verif Require Import Common CommonLemmas Utf8_Model Utf8_Spec Utf8_Proof.
Local Open Scope Z_scope.

(** C05.  A scalar value is encoded as RFC 3629 says ... *)
Theorem C05_encode_is_rfc3629 : forall c, scalar c -> utf8_char c (uchar_to_chars c).
Proof. exact encode_char. Qed.

(** ... and decoding it, whatever follows, returns it and leaves what follows. *)
Theorem C05_utf8_char_roundtrip : forall c rest, scalar c ->
  chars_to_uchar (uchar_to_chars c ++ rest) = (c, rest).
Proof.
  intros c rest H. unfold chars_to_uchar. now rewrite (decode_encoded c _ rest (encode_char c H)).
Qed.

(** Any other bytes: at the end both decoders give the character 0; where no character starts, one gives U+FFFD after at least one
    byte, the other throws. *)
Theorem C05_decode_end : chars_to_uchar [] = (0, []) /\ chars_to_uchar_throw [] = Ok (0, []).
Proof. split; reflexivity. Qed.
Theorem C05_decode_any : forall s, bytes s -> s <> [] ->
  (exists c e r, s = e ++ r /\ utf8_char c e /\ chars_to_uchar s = (c, r) /\ chars_to_uchar_throw s = Ok (c, r)) \/
  ((forall c e r, utf8_char c e -> s <> e ++ r) /\
   exists b r, s = b ++ r /\ b <> [] /\ chars_to_uchar s = (65533, r) /\ chars_to_uchar_throw s = Throw).
Proof.
  intros s Hs Hne. destruct s as [|x s]; [congruence|]. unfold chars_to_uchar, chars_to_uchar_throw.
  destruct (chars_to_uchar_impl (x :: s)) as [c r|b r] eqn:E.
  - left. destruct (decode_val _ _ _ Hs E) as (e & E1 & E2). now exists c, e, r.
  - right. split.
    + intros c e r' H K. rewrite K, (decode_encoded c e r' H) in E. discriminate.
    + destruct (impl_bad_consumed _ _ _ _ E) as [E1 E2]. exists b, r. destruct b; [congruence|]. repeat split; try assumption.
Qed.
Example C05_decode_any_nonvacuous : bytes [0xE3; 0x41] /\ chars_to_uchar [0xE3; 0x41] = (65533, [0x41]).
Proof. split; [apply bytesb_spec; reflexivity|reflexivity]. Qed.

Example C05_case : scalar 0x1F600 /\ uchar_to_chars 0x1F600 = [0xF0; 0x9F; 0x98; 0x80].
Proof. split; [unfold scalar; lia|vm_compute; reflexivity]. Qed.

(** C06.  check_utf8 always returns, and says exactly whether the bytes are
    well-formed UTF-8. *)
Theorem C06_check_utf8_exact : forall s, bytes s ->
  exists b, check_utf8 s = Ok b /\ (b = true <-> well_formed s).
Proof. exact check_utf8_exact. Qed.

Example C06_case_yes : well_formed (str "a" ++ [0xE3; 0x81; 0x82]).
Proof. exists [97; 0x3042]. exact (utf8_cons 97 _ [97] _ (u1 97 ltac:(lia)) (utf8_cons 0x3042 [] _ [] (u3 0x3042 ltac:(lia) ltac:(unfold scalar; lia)) utf8_nil)). Qed.
Example C06_case_no : check_utf8 [0xED; 0xA0; 0x80] = Ok false /\ check_utf8 [0xC0; 0x80] = Ok false /\
  check_utf8 [0xF4; 0x90; 0x80; 0x80] = Ok false /\ check_utf8 [0xE3; 0x81] = Ok false.
Proof. repeat split; vm_compute; reflexivity. Qed.

(** C07.  Both round trips. *)
Theorem C07_string_ustring_roundtrip : forall s, well_formed s ->
  exists u, string_to_ustring s = Ok u /\ utf8 u s /\ ustring_to_string u = s.
Proof.
  intros s [cs H]. exists cs. split; [now apply string_to_ustring_utf8|]. split; [assumption|now apply utf8_u2s].
Qed.

Theorem C07_ustring_string_roundtrip : forall u, Forall scalar u ->
  well_formed (ustring_to_string u) /\ string_to_ustring (ustring_to_string u) = Ok u.
Proof.
  intros u H. pose proof (u2s_utf8 u H) as U. split; [exists u; exact U|now apply string_to_ustring_utf8].
Qed.

(** On arbitrary bytes the conversion terminates and yields scalar values only. *)
Theorem C07_string_to_ustring_total : forall s, bytes s ->
  exists u, string_to_ustring s = Ok u /\ Forall scalar u /\ (length u <= length s)%nat.
Proof. intros s H. exact (s2u_total (length s) s H (le_n _)). Qed.

(** Malformed input: a valid character at the front is decoded; where no valid
    character starts, a non-empty piece is replaced by U+FFFD. *)
Theorem C07_string_to_ustring_step : forall c s u, bytes (c :: s) ->
  string_to_ustring (c :: s) = Ok u ->
  (exists v e r u', c :: s = e ++ r /\ utf8_char v e /\ u = v :: u' /\ string_to_ustring r = Ok u') \/
  ((forall v e r, utf8_char v e -> c :: s <> e ++ r) /\
   exists b r u', c :: s = b ++ r /\ b <> [] /\ u = 65533 :: u' /\ string_to_ustring r = Ok u').
Proof. intros c s u Hb Hu. exact (s2u_step (length (c :: s)) c s Hb (le_n _) u Hu). Qed.

Example C07_case : Forall scalar [0x41; 0x3042; 0x1F600] /\ string_to_ustring [0x41; 0xFF; 0xE3; 0x41] = Ok [0x41; 0xFFFD; 0xFFFD; 0x41].
Proof. split; [repeat constructor; unfold scalar; lia|vm_compute; reflexivity]. Qed.

(** C08.  The result is always clean UTF-8 ([Ok] also says: no read outside). *)
Theorem C08_sanitize_clean : forall s, bytes s -> exists out, sanitize_utf8 s = Ok out /\ clean out.
Proof. exact sanitize_clean. Qed.

Theorem C08_sanitize_keeps_clean : forall s, clean s -> sanitize_utf8 s = Ok s.
Proof. exact sanitize_id. Qed.

Theorem C08_sanitize_idempotent : forall s out, bytes s -> sanitize_utf8 s = Ok out -> sanitize_utf8 out = Ok out.
Proof.
  intros s out Hs H. destruct (sanitize_clean s Hs) as (o & Ho & Hc).
  rewrite H in Ho. injection Ho as <-. now apply sanitize_id.
Qed.

(** Clean text in front of anything is kept. *)
Theorem C08_sanitize_prefix : forall a s, clean a -> bytes s ->
  sanitize_utf8 (a ++ s) = omap (app a) (sanitize_utf8 s).
Proof. exact sanitize_prefix. Qed.

Example C08_case : sanitize_utf8 ([10; 0x41; 0xE3; 0x42; 0xEF; 0xBF; 0xBE; 0xF8; 0xE3; 0x81; 0x82; 0xE3; 0x81]) = Ok [0x41; 0x42; 0xE3; 0x81; 0x82].
Proof. vm_compute; reflexivity. Qed.
Example C08_case_clean : clean [0x41; 0xE3; 0x81; 0x82].
Proof.
  exists [0x41; 0x3042]. split; [|repeat constructor; lia].
  exact (utf8_cons 0x41 _ [0x41] _ (u1 0x41 ltac:(lia)) (utf8_cons 0x3042 [] _ [] (u3 0x3042 ltac:(lia) ltac:(unfold scalar; lia)) utf8_nil)).
Qed.

Print Assumptions C05_encode_is_rfc3629.
Print Assumptions C05_utf8_char_roundtrip.
Print Assumptions C06_check_utf8_exact.
Print Assumptions C07_string_ustring_roundtrip.
Print Assumptions C07_ustring_string_roundtrip.
Print Assumptions C07_string_to_ustring_total.
Print Assumptions C07_string_to_ustring_step.
Print Assumptions C08_sanitize_clean.
Print Assumptions C08_sanitize_keeps_clean.
Print Assumptions C08_sanitize_idempotent.
Print Assumptions C08_sanitize_prefix.
Print Assumptions C05_decode_end.
Print Assumptions C05_decode_any.
