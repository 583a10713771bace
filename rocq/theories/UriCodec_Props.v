(** C04: percent-encoding. *)
From Verif Require Import Common UriCodec_Model UriCodec_Spec UriCodec_Proof.
Local Open Scope Z_scope.

Theorem C04_uri_roundtrip : forall s, bytes s -> uri_decode (uri_encode s) = s.
Proof. exact uri_roundtrip. Qed.

(** The encoding is a form-encoding of [s] in the sense of UriCodec_Spec ... *)
Theorem C04_uri_encode_is_form : forall s, bytes s -> percent_form s (uri_encode s).
Proof. exact encode_percent_form. Qed.

(** ... and the decoder understands every form-encoding, not only ours. *)
Theorem C04_uri_decode_any_form : forall s e, percent_form s e -> uri_decode e = s.
Proof. exact decode_percent_form. Qed.

(** Only unreserved characters, '+' and %XX with upper-case hex. *)
Theorem C04_uri_encode_canonical : forall s, bytes s -> canonical (uri_encode s).
Proof. exact encode_canonical. Qed.

Theorem C04_uri_encode_injective : forall s t, bytes s -> bytes t -> uri_encode s = uri_encode t -> s = t.
Proof. exact uri_encode_injective. Qed.
(** What uri_decode makes of any text, also one that is no encoding: never an error, and only what the digits say. *)
Theorem C04_uri_decode_total : forall e s, decodes e s <-> uri_decode e = s.
Proof. exact decodes_total. Qed.
Example C04_uri_decode_total_nonvacuous : uri_decode (str "%4:+%g1%%41%7") = [64; 32; 1; 4; 49; 37; 55] /\ digit_value 58 0.
Proof. split; [vm_compute; reflexivity|exact (tohex_value 58)]. Qed.

Example C04_case : bytes [0; 32; 37; 43; 65; 255; 126; 47] /\
  uri_encode [0; 32; 37; 43; 65; 255; 126; 47] = str "%00+%25%2BA%FF~%2F".
Proof. split; [repeat constructor; vm_compute; congruence|vm_compute; reflexivity]. Qed.
Example C04_case_lower : percent_form [255] (str "%fF") /\ uri_decode (str "%fF") = [255].
Proof.
  split; [|vm_compute; reflexivity].
  exact (pf_hex 15 15 [] [] 102 70 (hex_low 15 ltac:(lia)) (hex_up 15 ltac:(lia)) pf_nil).
Qed.

Print Assumptions C04_uri_roundtrip.
Print Assumptions C04_uri_encode_is_form.
Print Assumptions C04_uri_decode_any_form.
Print Assumptions C04_uri_encode_canonical.
Print Assumptions C04_uri_encode_injective.
Print Assumptions C04_uri_decode_total.
