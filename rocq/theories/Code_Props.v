(** Properties C09, C10 and C65. *)
From Verif Require Import Common Code_Model Code_Spec Code_Proof.
Local Open Scope Z_scope.

(** C09: any sequence of gamma, delta, Rice, prefix and fixed-width codes is read
    back exactly, in order, by the same sequence of decoder calls. *)
Theorem C09_codes_roundtrip : forall ops, Forall valid_op ops -> Forall no_byte ops ->
  exists e, enc_all ops enc_init = Ok e /\ bytes (get_bytes e) /\
    dec_all (map kind_of ops) (attach_stream (get_bytes e)) = Ok (map value_of ops).
Proof. exact codes_roundtrip. Qed.

(** C09, size: the output has exactly the bits of the codes, rounded up to bytes. *)
Theorem C09_code_length : forall ops, Forall valid_op ops -> Forall bit_code ops ->
  exists e, enc_all ops enc_init = Ok e /\ Z.of_nat (length (get_bytes e)) = (total_bits ops + 7) / 8.
Proof. exact codes_length. Qed.

Definition sample_ops : list op :=
  [Word 5 3; Gamma 1; Gamma 300; Delta 4294967295; Rice 77 3; Prefix 4294967295; Word 1 1; Rice 4294967294 0; Prefix 0; Word 0 0; Delta 1].
Example sample_ops_valid : Forall valid_op sample_ops /\ Forall no_byte sample_ops.
Proof. split; unfold sample_ops; repeat apply Forall_cons; try apply Forall_nil; cbn; lia. Qed.
Example sample_ops_decoded : omap (fun e => length (get_bytes e)) (enc_all sample_ops enc_init) = Ok 23%nat.
Proof. vm_compute. reflexivity. Qed.

Definition sample_bit_ops : list op := [Word 5 3; Gamma 300; Delta 4294967295; Rice 77 3].
Example sample_bit_ops_valid : Forall valid_op sample_bit_ops /\ Forall bit_code sample_bit_ops /\ total_bits sample_bit_ops = 73.
Proof. split; [|split]; unfold sample_bit_ops; try (repeat apply Forall_cons; try apply Forall_nil; cbn; lia); reflexivity. Qed.

(** C10, full statement: as C09 for sequences that also contain raw bytes.
    It is false: the encoder aligns before a raw byte, the decoder does not. *)
Theorem C10_bytes_mixed_refuted :
  exists ops e, Forall valid_op ops /\ enc_all ops enc_init = Ok e /\
    dec_all (map kind_of ops) (attach_stream (get_bytes e)) <> Ok (map value_of ops).
Proof.
  exists [Word 1 1; Byte 65]. eexists. split; [|split].
  - repeat apply Forall_cons; try apply Forall_nil; cbn; unfold is_byte; lia.
  - vm_compute. reflexivity.
  - vm_compute. discriminate.
Qed.

(** C10, proved part: raw bytes written on byte boundaries. *)
Theorem C10_bytes_on_boundary_partial : forall ops, Forall valid_op ops -> bytes_on_boundary 0 ops ->
  exists e, enc_all ops enc_init = Ok e /\ bytes (get_bytes e) /\
    dec_all (map kind_of ops) (attach_stream (get_bytes e)) = Ok (map value_of ops).
Proof. intros ops H1 H2. destruct (codes_roundtrip_aligned ops H1 H2) as (e & A & B & C & _). exists e. auto. Qed.

Example C10_sample : let ops := [Byte 7; Gamma 300; Prefix 9; Byte 255; Word 3 8; Byte 0] in
  Forall valid_op ops /\ bytes_on_boundary 0 ops.
Proof. split; [repeat apply Forall_cons; try apply Forall_nil; cbn; unfold is_byte; lia|cbn; repeat split]. Qed.

(** C65, full statement: a decoder attached to the buffer the encoder produced
    reads only that buffer.  It is false: words are fetched eight bytes at a time. *)
Theorem C65_attach_buffer_refuted :
  exists ops e, Forall valid_op ops /\ Forall no_byte ops /\ enc_all ops enc_init = Ok e /\
    dec_all (map kind_of ops) (attach_buf (get_bytes e)) = UB.
Proof.
  exists [Gamma 5]. eexists. split; [|split; [|split]].
  - repeat apply Forall_cons; try apply Forall_nil; cbn; lia.
  - repeat apply Forall_cons; try apply Forall_nil; cbn; auto.
  - vm_compute. reflexivity.
  - vm_compute. reflexivity.
Qed.

Print Assumptions C09_codes_roundtrip.
Print Assumptions C09_code_length.
Print Assumptions C10_bytes_mixed_refuted.
Print Assumptions C10_bytes_on_boundary_partial.
Print Assumptions C65_attach_buffer_refuted.
