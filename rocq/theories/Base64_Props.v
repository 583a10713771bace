(** C01-C03: base64. *)
From Verif Require Import Common Base64_Model Base64_Spec Base64_Proof.
Local Open Scope Z_scope.

(** C01.  Decoding an encoded byte string gives it back (so it never throws). *)
Theorem C01_base64_roundtrip : forall s, bytes s -> base64_decode (base64_encode s) = Ok s.
Proof. exact base64_roundtrip. Qed.

Example C01_case : bytes (str "any carnal pleas") /\ base64_encode (str "any carnal pleas") = str "YW55IGNhcm5hbCBwbGVhcw==".
Proof. split; [repeat constructor; vm_compute; congruence|vm_compute; reflexivity]. Qed.

(** C02.  The encoding is the one of RFC 4648 (Base64_Spec) ... *)
Theorem C02_base64_is_rfc4648 : forall s, bytes s -> base64_encode s = rfc4648_encode s.
Proof. exact base64_is_rfc4648. Qed.

(** ... has length 4*ceil(|s|/3) ... *)
Theorem C02_base64_length : forall s, length (base64_encode s) = (4 * ((length s + 2) / 3))%nat.
Proof. exact encode_len. Qed.

(** ... consists of alphabet characters followed by at most two '=' ... *)
Theorem C02_base64_shape : forall s, bytes s ->
  exists body pad, base64_encode s = body ++ repeat 61 pad /\ (pad <= 2)%nat /\
    Forall (fun c => In c rfc4648_alphabet) body.
Proof. exact base64_shape. Qed.

(** ... and is injective. *)
Theorem C02_base64_injective : forall s t, bytes s -> bytes t ->
  base64_encode s = base64_encode t -> s = t.
Proof. exact base64_injective. Qed.

(** C03, full statement: [forall s t, base64_decode s = Ok t -> bytes t /\ base64_encode t = s].
    It is false: everything after the first padded block is ignored. *)
Theorem C03_base64_strict_refuted : exists s t, base64_decode s = Ok t /\
  ~ (exists u, bytes u /\ base64_encode u = s).
Proof. exact base64_strict_refuted. Qed.

(** It holds for input without '=' ... *)
Theorem C03_base64_strict_unpadded_partial : forall s t, ~ In 61 s ->
  (base64_decode s = Ok t <-> bytes t /\ base64_encode t = s).
Proof. exact base64_decode_nopad_exact. Qed.

(** ... and in general everything accepted has a length that is a multiple of
    four and only alphabet characters before the first '=', which stands in the
    third or fourth place of a block.  (Missing: what follows that '='.) *)
Theorem C03_base64_accepts_partial : forall s t, base64_decode s = Ok t ->
  (length s mod 4 = 0)%nat /\
  exists pre tail, s = pre ++ tail /\
    Forall (fun c => In c rfc4648_alphabet) pre /\ (length pre mod 4 = 0)%nat /\
    (tail = [] \/
     (exists x y d r, tail = x :: y :: 61 :: d :: r /\ In x rfc4648_alphabet /\ In y rfc4648_alphabet) \/
     (exists x y z r, tail = x :: y :: z :: 61 :: r /\
        In x rfc4648_alphabet /\ In y rfc4648_alphabet /\ In z rfc4648_alphabet)).
Proof. exact base64_decode_accepts. Qed.

(** The decoder reads nothing outside its argument, whatever that is. *)
Theorem C03_base64_decode_safe : forall s, base64_decode s <> UB /\ base64_decode s <> Fuel.
Proof. exact base64_decode_safe. Qed.

Example C03_case_unpadded : ~ In 61 (str "Zm9v") /\ base64_decode (str "Zm9v") = Ok (str "foo").
Proof. split; [cbn; intuition discriminate|vm_compute; reflexivity]. Qed.
Example C03_case_padded : base64_decode (str "Zm9vYg==") = Ok (str "foob").
Proof. vm_compute; reflexivity. Qed.
Example C03_case_foreign : base64_decode (str "Zm-v") = Throw.
Proof. vm_compute; reflexivity. Qed.

Print Assumptions C01_base64_roundtrip.
Print Assumptions C02_base64_is_rfc4648.
Print Assumptions C02_base64_length.
Print Assumptions C02_base64_shape.
Print Assumptions C02_base64_injective.
Print Assumptions C03_base64_strict_refuted.
Print Assumptions C03_base64_strict_unpadded_partial.
Print Assumptions C03_base64_accepts_partial.
Print Assumptions C03_base64_decode_safe.
