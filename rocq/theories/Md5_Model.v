(** Model of src/data/digest/md5.{h,cpp}.  uint32_t values are integers modulo 2^32. *)
From Verif Require Import Common.
Local Open Scope Z_scope.

Definition u32 (x : Z) : Z := x mod 2 ^ 32.

(** md5.cpp:46-65 *)
Definition ff (x y z : Z) : Z := Z.lor (Z.land x y) (Z.land (u32 (Z.lnot x)) z).
Definition gg (x y z : Z) : Z := Z.lor (Z.land x z) (Z.land y (u32 (Z.lnot z))).
Definition hh (x y z : Z) : Z := Z.lxor (Z.lxor x y) z.
Definition ii (x y z : Z) : Z := Z.lxor y (Z.lor x (u32 (Z.lnot z))).
Definition rot (x amount : Z) : Z := Z.lor (u32 (Z.shiftl x amount)) (Z.shiftr x (32 - amount)).

(** The argument lists (a,b,c,d), (d,a,b,c), (c,d,a,b), (b,c,d,a) of the round macros. *)
Inductive macro := R1 | R2 | R3 | R4.
Inductive perm := ABCD | DABC | CDAB | BCDA.

Definition regs : Type := Z * Z * Z * Z.

(** md5.cpp:81-88; [x] is the block, [tbl] the table of constants. *)
Definition mfun (m : macro) : Z -> Z -> Z -> Z := match m with R1 => ff | R2 => gg | R3 => hh | R4 => ii end.
Definition assign (m : macro) (x : nat -> Z) (tbl : nat -> Z) (a b c d : Z) (k : nat) (s : Z) (i : nat) : Z :=
  u32 (b + rot (u32 (a + mfun m b c d + x k + tbl i)) s).
Definition step (x tbl : nat -> Z) (r : regs) (op : macro * perm * nat * Z * nat) : regs :=
  let '(a, b, c, d) := r in
  let '(m, p, k, s, i) := op in
  match p with
  | ABCD => (assign m x tbl a b c d k s i, b, c, d)
  | DABC => (a, b, c, assign m x tbl d a b c k s i)
  | CDAB => (a, b, assign m x tbl c d a b k s i, d)
  | BCDA => (a, assign m x tbl b c d a k s i, c, d)
  end.

(** md5.cpp:102-121 *)
Definition ops : list (macro * perm * nat * Z * nat) :=
  [
   (R1, ABCD, 0, 7%Z, 1); (R1, DABC, 1, 12%Z, 2); (R1, CDAB, 2, 17%Z, 3); (R1, BCDA, 3, 22%Z, 4);
   (R1, ABCD, 4, 7%Z, 5); (R1, DABC, 5, 12%Z, 6); (R1, CDAB, 6, 17%Z, 7); (R1, BCDA, 7, 22%Z, 8);
   (R1, ABCD, 8, 7%Z, 9); (R1, DABC, 9, 12%Z, 10); (R1, CDAB, 10, 17%Z, 11); (R1, BCDA, 11, 22%Z, 12);
   (R1, ABCD, 12, 7%Z, 13); (R1, DABC, 13, 12%Z, 14); (R1, CDAB, 14, 17%Z, 15); (R1, BCDA, 15, 22%Z, 16);
   (R2, ABCD, 1, 5%Z, 17); (R2, DABC, 6, 9%Z, 18); (R2, CDAB, 11, 14%Z, 19); (R2, BCDA, 0, 20%Z, 20);
   (R2, ABCD, 5, 5%Z, 21); (R2, DABC, 10, 9%Z, 22); (R2, CDAB, 15, 14%Z, 23); (R2, BCDA, 4, 20%Z, 24);
   (R2, ABCD, 9, 5%Z, 25); (R2, DABC, 14, 9%Z, 26); (R2, CDAB, 3, 14%Z, 27); (R2, BCDA, 8, 20%Z, 28);
   (R2, ABCD, 13, 5%Z, 29); (R2, DABC, 2, 9%Z, 30); (R2, CDAB, 7, 14%Z, 31); (R2, BCDA, 12, 20%Z, 32);
   (R3, ABCD, 5, 4%Z, 33); (R3, DABC, 8, 11%Z, 34); (R3, CDAB, 11, 16%Z, 35); (R3, BCDA, 14, 23%Z, 36);
   (R3, ABCD, 1, 4%Z, 37); (R3, DABC, 4, 11%Z, 38); (R3, CDAB, 7, 16%Z, 39); (R3, BCDA, 10, 23%Z, 40);
   (R3, ABCD, 13, 4%Z, 41); (R3, DABC, 0, 11%Z, 42); (R3, CDAB, 3, 16%Z, 43); (R3, BCDA, 6, 23%Z, 44);
   (R3, ABCD, 9, 4%Z, 45); (R3, DABC, 12, 11%Z, 46); (R3, CDAB, 15, 16%Z, 47); (R3, BCDA, 2, 23%Z, 48);
   (R4, ABCD, 0, 6%Z, 49); (R4, DABC, 7, 10%Z, 50); (R4, CDAB, 14, 15%Z, 51); (R4, BCDA, 5, 21%Z, 52);
   (R4, ABCD, 12, 6%Z, 53); (R4, DABC, 3, 10%Z, 54); (R4, CDAB, 10, 15%Z, 55); (R4, BCDA, 1, 21%Z, 56);
   (R4, ABCD, 8, 6%Z, 57); (R4, DABC, 15, 10%Z, 58); (R4, CDAB, 6, 15%Z, 59); (R4, BCDA, 13, 21%Z, 60);
   (R4, ABCD, 4, 6%Z, 61); (R4, DABC, 11, 10%Z, 62); (R4, CDAB, 2, 15%Z, 63); (R4, BCDA, 9, 21%Z, 64)
  ]%nat.

(** md5.cpp:94-126 *)
Definition compress (tbl : nat -> Z) (r : regs) (x : nat -> Z) : regs :=
  let '(aa, bb, cc, dd) := r in
  let '(a, b, c, d) := fold_left (step x tbl) ops r in
  (u32 (a + aa), u32 (b + bb), u32 (c + cc), u32 (d + dd)).

(** ** The block reader, md5.h:51-114 *)
(** [cnt] is a 64-bit size_t. *)
Record buf := mkBuf { left : list Z; ovr : Z; fin : bool; cnt : Z }.
Definition buf_init (s : list Z) : buf := mkBuf s 128 false 0.

(** md5.h:97-108 *)
Definition get_byte (b : buf) : Z * buf :=
  match left b with
  | c :: r => (c, mkBuf r (ovr b) (fin b) ((cnt b + 1) mod 2 ^ 64))
  | [] => (ovr b, mkBuf [] 0 (fin b) (cnt b))
  end.
(** md5.h:89-95 *)
Definition get_word (s : buf) : Z * buf :=
  let (a, s) := get_byte s in
  let (b, s) := get_byte s in
  let (c, s) := get_byte s in
  let (d, s) := get_byte s in
  (Z.lor (Z.lor (Z.lor a (Z.shiftl b 8)) (Z.shiftl c 16)) (Z.shiftl d 24), s).
Fixpoint get_words (n : nat) (s : buf) : list Z * buf :=
  match n with O => ([], s) | S m => let (w, s) := get_word s in let (ws, s) := get_words m s in (w :: ws, s) end.
(** md5.h:61-86 *)
Definition get_block (s : buf) : list Z * buf :=
  let (ws, s) := get_words 14 s in
  match left s with
  | [] => if ovr s =? 0
          then (ws ++ [u32 (Z.shiftl (cnt s) 3 mod 2 ^ 64); u32 (Z.shiftr (cnt s) 29)], mkBuf [] 0 true (cnt s))
          else let (l, s) := get_words 2 s in (ws ++ l, s)
  | _ => let (l, s) := get_words 2 s in (ws ++ l, s)
  end.

(** md5.cpp:91-127 *)
Fixpoint calc_loop (fuel : nat) (tbl : nat -> Z) (r : regs) (s : buf) : outcome regs :=
  if fin s then Ok r else
  match fuel with
  | O => Fuel
  | S f => let (ws, s) := get_block s in calc_loop f tbl (compress tbl r (fun k => nth k ws 0)) s
  end.
(** md5.cpp:67-128.  The constants, computed with sin() in floating point at run time
    (lines 76-79), are a parameter.  The fuel is a bound on the number of blocks. *)
Definition md5sum (tbl : nat -> Z) (s : list Z) : outcome regs :=
  calc_loop (2 + length s) tbl (0x67452301, 0xefcdab89, 0x98badcfe, 0x10325476) (buf_init s).

(** md5.cpp:130-136 *)
Definition md5_lt (x y : regs) : bool :=
  let '(a1, b1, c1, d1) := x in let '(a2, b2, c2, d2) := y in
  if negb (a1 =? a2) then a1 <? a2 else if negb (b1 =? b2) then b1 <? b2 else if negb (c1 =? c2) then c1 <? c2 else d1 <? d2.

(** md5.cpp:138-169: each byte as setw(2) hexadecimal with fill '0'. *)
Definition hexdigit (n : Z) : Z := if n <? 10 then 48 + n else 87 + n.
Definition hex2 (n : Z) : list Z := [hexdigit (n / 16); hexdigit (n mod 16)].
Definition hexword (w : Z) : list Z :=
  hex2 (Z.land w 255) ++ hex2 (Z.land (Z.shiftr w 8) 255) ++ hex2 (Z.land (Z.shiftr w 16) 255) ++ hex2 (Z.land (Z.shiftr w 24) 255).
Definition md5_print (r : regs) : list Z :=
  let '(a, b, c, d) := r in hexword a ++ hexword b ++ hexword c ++ hexword d.
