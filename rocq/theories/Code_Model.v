(** Model of src/data/code/code.cpp: the bit-level encoder and decoder. *)
From Verif Require Import Common.
Local Open Scope Z_scope.

Definition u32 (x : Z) : Z := x mod 2 ^ 32.

(** code.cpp:50-52.  __builtin_clz(0) is undefined. *)
Definition get_len (v : Z) : outcome Z := if v =? 0 then UB else Ok (Z.log2 v + 1).

(** code.h:94-96.  [rbytes] is the vector [bytes] with its LAST element first. *)
Record enc := mkEnc { ebit : Z; rbytes : list Z }.

(** code.cpp:59 *)
Definition enc_init : enc := mkEnc 0 [].

(** code.cpp:74-76, and the bytes written by flush (66-72). *)
Definition get_bytes (e : enc) : list Z := rev (rbytes e).

(** code.cpp:78-81 *)
Definition enc_byte (v : Z) (e : enc) : enc := mkEnc 0 (v :: rbytes e).

(** code.cpp:86-95, the loop; [rest] as in the code.  Each iteration consumes
    at least one bit, so [len] iterations are enough.  [bytes.back()] of an
    empty vector is undefined. *)
Fixpoint wwl_loop (fuel : nat) (rest v len : Z) (e : enc) : outcome enc :=
  if len =? 0 then Ok e else
  match fuel with
  | O => Fuel
  | S f =>
      let bs := if ebit e =? 0 then 0 :: rbytes e else rbytes e in
      let consume := Z.min rest len in
      let vv := Z.land v (Z.shiftl 1 consume - 1) in
      match bs with
      | [] => UB
      | b :: r =>
          let b' := Z.lor b (Z.shiftl vv (ebit e)) mod 256 in
          wwl_loop f 8 (Z.shiftr v consume) (len - consume)
                   (mkEnc (Z.land (ebit e + consume) 7) (b' :: r))
      end
  end.

(** code.cpp:83-96 *)
Definition enc_word (v len : Z) (e : enc) : outcome enc :=
  wwl_loop (Z.to_nat len) (8 - ebit e) v len e.

(** code.cpp:98-104 *)
Definition enc_gamma (v : Z) (e : enc) : outcome enc :=
  let* l := get_len v in
  let pmsf := l - 1 in
  let* e1 := enc_word 0 pmsf e in
  let* e2 := enc_word 1 1 e1 in
  enc_word (u32 (v - Z.shiftl 1 pmsf)) pmsf e2.

(** code.cpp:106-111.  [1<<31] is taken as the bit pattern 0x80000000 (C++03). *)
Definition enc_delta (v : Z) (e : enc) : outcome enc :=
  let* l := get_len v in
  let pmsf := l - 1 in
  let* e1 := enc_gamma (pmsf + 1) e in
  enc_word (u32 (v - Z.shiftl 1 pmsf)) pmsf e1.

(** code.cpp:113-117.  Shifts by 32 or more and the signed overflow of
    [(1<<31)-1] are undefined. *)
Definition enc_rice (v k : Z) (e : enc) : outcome enc :=
  if (k <? 0) || (31 <=? k) then UB else
  let* e1 := enc_delta (u32 (Z.shiftr v k + 1)) e in
  enc_word (Z.land v (Z.shiftl 1 k - 1)) k e1.

(** code.cpp:119-127; at most five bytes for a 32-bit value. *)
Fixpoint prefix_loop (fuel : nat) (v : Z) (rb : list Z) : outcome (list Z) :=
  match fuel with
  | O => Fuel
  | S f => if 128 <=? v then prefix_loop f (Z.shiftr v 7) (Z.land v 127 :: rb)
           else Ok ((v + 128) mod 256 :: rb)
  end.
Definition enc_prefix (v : Z) (e : enc) : outcome enc :=
  let* rb := prefix_loop 5 v (rbytes e) in Ok (mkEnc 0 rb).

(** ** Decoder (code.h:117-121); [dbuf] is the memory [bytes] points to. *)
Record dec := mkDec { dbuf : list Z; dpos : Z; dbit : Z }.

(** code.cpp:153-160: attach to a stream holding [s]; eight zero bytes follow. *)
Definition attach_stream (s : list Z) : dec := mkDec (s ++ repeat 0 8) 0 0.
(** code.cpp:162-168: attach to a caller's buffer, nothing is added. *)
Definition attach_buf (s : list Z) : dec := mkDec s 0 0.

(** One byte of the buffer. *)
Definition rd1 (d : dec) (p : Z) : outcome Z :=
  if (0 <=? p) && (p <? Z.of_nat (length (dbuf d))) then Ok (nth (Z.to_nat p) (dbuf d) 0) else UB.

(** Little-endian value of a byte sequence. *)
Fixpoint le_val (l : list Z) : Z :=
  match l with [] => 0 | b :: r => b + 256 * le_val r end.

(** [to_little( *(long long* )&bytes[pos])]: eight bytes, as a signed value.
    (Alignment and aliasing rules are ignored.) *)
Definition rd64 (d : dec) : outcome Z :=
  if (0 <=? dpos d) && (dpos d + 8 <=? Z.of_nat (length (dbuf d))) then
    let u := le_val (firstn 8 (skipn (Z.to_nat (dpos d)) (dbuf d))) in
    Ok (if u <? 2 ^ 63 then u else u - 2 ^ 64)
  else UB.

Definition advance (d : dec) (n : Z) : dec :=
  let b := dbit d + n in mkDec (dbuf d) (dpos d + Z.shiftr b 3) (Z.land b 7).

(** code.cpp:183-185 *)
Definition dec_byte (d : dec) : outcome (Z * dec) :=
  let* v := rd1 d (dpos d) in Ok (v, mkDec (dbuf d) (dpos d + 1) (dbit d)).

(** code.cpp:187-194 *)
Definition dec_word (len : Z) (d : dec) : outcome (Z * dec) :=
  let* x := rd64 d in
  let v := u32 (Z.shiftr x (dbit d)) in
  Ok (Z.land v (Z.shiftl 1 len - 1), advance d len).

(** __builtin_ctzll, undefined on 0. *)
Fixpoint ctz (fuel : nat) (i v : Z) : outcome Z :=
  match fuel with
  | O => UB
  | S f => if Z.testbit v i then Ok i else ctz f (i + 1) v
  end.

(** code.cpp:196-206 *)
Definition dec_gamma (d : dec) : outcome (Z * dec) :=
  let* x := rd64 d in
  let v := Z.shiftr x (dbit d) in
  let* pmsf := ctz 64 0 v in
  let* (res, d2) := dec_word pmsf (advance d (pmsf + 1)) in
  Ok (u32 (Z.shiftl 1 pmsf + res), d2).

(** code.cpp:208-212 *)
Definition dec_delta (d : dec) : outcome (Z * dec) :=
  let* (g, d1) := dec_gamma d in
  let len := g - 1 in
  let* (r, d2) := dec_word len d1 in
  Ok (u32 (Z.shiftl 1 len + r), d2).

(** code.cpp:214-219 *)
Definition dec_rice (k : Z) (d : dec) : outcome (Z * dec) :=
  let* (x, d1) := dec_delta d in
  let* (r, d2) := dec_word k d1 in
  Ok (u32 (u32 (Z.shiftl (x - 1) k) + r), d2).

(** code.cpp:230-238; the loop ends at the first byte with the high bit set. *)
Fixpoint dprefix_loop (fuel : nat) (res k : Z) (d : dec) (p : Z) : outcome (Z * Z) :=
  match fuel with
  | O => Fuel
  | S f =>
      let* b := rd1 d p in
      if Z.land b 128 =? 0 then dprefix_loop f (u32 (res + b * k)) (u32 (Z.shiftl k 7)) d (p + 1)
      else Ok (u32 (res + (b - 128) * k), p + 1)
  end.
(** code.cpp:221-239.  The fuel bounds the loop by the size of the buffer. *)
Definition dec_prefix (d : dec) : outcome (Z * dec) :=
  let p := if dbit d =? 0 then dpos d else dpos d + 1 in
  let* (v, p') := dprefix_loop (S (length (dbuf d))) 0 1 d p in
  Ok (v, mkDec (dbuf d) p' 0).

(** ** Sequences of codes *)
Inductive op : Type :=
| Word (v len : Z) | Gamma (v : Z) | Delta (v : Z) | Rice (v k : Z) | Prefix (v : Z) | Byte (v : Z).

Definition enc_op (o : op) (e : enc) : outcome enc :=
  match o with
  | Word v len => enc_word v len e
  | Gamma v => enc_gamma v e
  | Delta v => enc_delta v e
  | Rice v k => enc_rice v k e
  | Prefix v => enc_prefix v e
  | Byte v => Ok (enc_byte v e)
  end.
Fixpoint enc_all (ops : list op) (e : enc) : outcome enc :=
  match ops with [] => Ok e | o :: r => let* e' := enc_op o e in enc_all r e' end.

(** The matching read: only the kind and its parameter are known, not the value. *)
Inductive kind : Type := KWord (len : Z) | KGamma | KDelta | KRice (k : Z) | KPrefix | KByte.
Definition kind_of (o : op) : kind :=
  match o with
  | Word _ len => KWord len | Gamma _ => KGamma | Delta _ => KDelta | Rice _ k => KRice k
  | Prefix _ => KPrefix | Byte _ => KByte
  end.
Definition value_of (o : op) : Z :=
  match o with Word v _ | Gamma v | Delta v | Rice v _ | Prefix v | Byte v => v end.

Definition dec_kind (k : kind) (d : dec) : outcome (Z * dec) :=
  match k with
  | KWord len => dec_word len d
  | KGamma => dec_gamma d
  | KDelta => dec_delta d
  | KRice k => dec_rice k d
  | KPrefix => dec_prefix d
  | KByte => dec_byte d
  end.
Fixpoint dec_all (ks : list kind) (d : dec) : outcome (list Z) :=
  match ks with
  | [] => Ok []
  | k :: r => let* (v, d') := dec_kind k d in omap (cons v) (dec_all r d')
  end.
