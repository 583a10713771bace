(** What a user of the bit codes relies on, independently of the encoder state. *)
From Verif Require Import Common Code_Model.
Local Open Scope Z_scope.

(** Values each code can represent: unsigned 32-bit values, gamma and delta
    exclude zero, [word_with_length] takes a value that fits, Rice needs
    [v / 2^k + 1] to be a 32-bit value. *)
Definition valid_op (o : op) : Prop :=
  match o with
  | Word v len => 0 <= len <= 32 /\ 0 <= v < 2 ^ len
  | Gamma v | Delta v => 1 <= v < 2 ^ 32
  | Rice v k => 0 <= v < 2 ^ 32 /\ 0 <= k <= 30 /\ (v < 2 ^ 32 - 1 \/ 0 < k)
  | Prefix v => 0 <= v < 2 ^ 32
  | Byte v => is_byte v
  end.

(** Every code except the raw byte. *)
Definition no_byte (o : op) : Prop := match o with Byte _ => False | _ => True end.

(** Elias code lengths in bits. *)
Definition gamma_bits (v : Z) : Z := 2 * Z.log2 v + 1.
Definition delta_bits (v : Z) : Z := gamma_bits (Z.log2 v + 1) + Z.log2 v.
Definition rice_bits (v k : Z) : Z := delta_bits (v / 2 ^ k + 1) + k.

(** Bit offset within the current byte after the code [o] started at offset [off];
    the byte-oriented codes end on a byte boundary. *)
Definition next_off (o : op) (off : Z) : Z :=
  match o with
  | Word _ len => (off + len) mod 8
  | Gamma v => (off + gamma_bits v) mod 8
  | Delta v => (off + delta_bits v) mod 8
  | Rice v k => (off + rice_bits v k) mod 8
  | Prefix _ | Byte _ => 0
  end.

(** Raw bytes are written only on byte boundaries. *)
Fixpoint bytes_on_boundary (off : Z) (ops : list op) : Prop :=
  match ops with
  | [] => True
  | o :: r => (match o with Byte _ => off = 0 | _ => True end) /\ bytes_on_boundary (next_off o off) r
  end.

(** Number of bits used by a sequence of bit codes (no byte-oriented ones). *)
Definition bits_of (o : op) : Z :=
  match o with
  | Word _ len => len
  | Gamma v => gamma_bits v
  | Delta v => delta_bits v
  | Rice v k => rice_bits v k
  | Prefix _ | Byte _ => 0
  end.
Definition bit_code (o : op) : Prop := match o with Prefix _ | Byte _ => False | _ => True end.
Fixpoint total_bits (ops : list op) : Z :=
  match ops with [] => 0 | o :: r => bits_of o + total_bits r end.
