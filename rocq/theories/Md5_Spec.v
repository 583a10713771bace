(** The MD5 message digest of RFC 1321, section 3. *)
From Verif Require Import Common.
Local Open Scope Z_scope.

(** 3.1, 3.2: a one bit, zero bits up to 448 mod 512, then the bit length in 64 bits,
    least significant byte first. *)
Fixpoint le_bytes (n : nat) (z : Z) : list Z :=
  match n with O => [] | S m => z mod 256 :: le_bytes m (z / 256) end.
Definition padded (s : list Z) : list Z :=
  s ++ [128] ++ repeat 0 (Z.to_nat ((55 - Z.of_nat (length s)) mod 64)) ++ le_bytes 8 (8 * Z.of_nat (length s)).

(** 2: words are least significant byte first. *)
Fixpoint words (l : list Z) : list Z :=
  match l with
  | a :: b :: c :: d :: r => a + 2 ^ 8 * b + 2 ^ 16 * c + 2 ^ 24 * d :: words r
  | _ => []
  end.
(** Blocks of sixteen words. *)
Fixpoint blocks (n : nat) (l : list Z) : list (list Z) :=
  match n with O => [] | S m => firstn 16 l :: blocks m (skipn 16 l) end.

(** 3.4: the auxiliary functions, bit by bit. *)
Definition bitwise (f : bool -> bool -> bool -> bool) (x y z : Z) : Z :=
  fold_right (fun i acc => (if f (Z.testbit x i) (Z.testbit y i) (Z.testbit z i) then 2 ^ i else 0) + acc) 0 (range0 32).
Definition F := bitwise (fun x y z => x && y || negb x && z).
Definition G := bitwise (fun x y z => x && z || y && negb z).
Definition H := bitwise (fun x y z => xorb (xorb x y) z).
Definition I := bitwise (fun x y z => xorb y (x || negb z)).
(** Circular left shift of a 32-bit word. *)
Definition rotl (x s : Z) : Z := x * 2 ^ s mod 2 ^ 32 + x / 2 ^ (32 - s).

(** Step [j] (0..63): [a] is replaced and the roles rotate.  [T] numbers the constants
    from 1 as in the RFC. *)
Definition fround (j : nat) : Z -> Z -> Z -> Z :=
  if (j <? 16)%nat then F else if (j <? 32)%nat then G else if (j <? 48)%nat then H else I.
Definition kround (j : nat) : nat :=
  if (j <? 16)%nat then j else if (j <? 32)%nat then Nat.modulo (5 * j + 1) 16
  else if (j <? 48)%nat then Nat.modulo (3 * j + 5) 16 else Nat.modulo (7 * j) 16.
Definition sround (j : nat) : Z :=
  nth (Nat.modulo j 4) (if (j <? 16)%nat then [7; 12; 17; 22] else if (j <? 32)%nat then [5; 9; 14; 20]
                        else if (j <? 48)%nat then [4; 11; 16; 23] else [6; 10; 15; 21]) 0.
Definition rfc_step (T : nat -> Z) (X : nat -> Z) (r : Z * Z * Z * Z) (j : nat) : Z * Z * Z * Z :=
  let '(a, b, c, d) := r in
  (d, (b + rotl ((a + fround j b c d + X (kround j) + T (S j)) mod 2 ^ 32) (sround j)) mod 2 ^ 32, b, c).
Definition rfc_block (T : nat -> Z) (r : Z * Z * Z * Z) (blk : list Z) : Z * Z * Z * Z :=
  let '(a0, b0, c0, d0) := r in
  let '(a, b, c, d) := fold_left (rfc_step T (fun k => nth k blk 0)) (seq 0 64) r in
  ((a0 + a) mod 2 ^ 32, (b0 + b) mod 2 ^ 32, (c0 + c) mod 2 ^ 32, (d0 + d) mod 2 ^ 32).

(** 3.3-3.5: the four words A, B, C, D. *)
Definition rfc1321 (T : nat -> Z) (s : list Z) : Z * Z * Z * Z :=
  let ws := words (padded s) in
  fold_left (rfc_block T) (blocks (Nat.div (length ws) 16) ws) (0x67452301, 0xefcdab89, 0x98badcfe, 0x10325476).
(** The digest as bytes, low-order byte of A first. *)
Definition digest_bytes (r : Z * Z * Z * Z) : list Z :=
  let '(a, b, c, d) := r in le_bytes 4 a ++ le_bytes 4 b ++ le_bytes 4 c ++ le_bytes 4 d.
(** A byte in hexadecimal. *)
Definition digits : list Z := str "0123456789abcdef".
Definition hexadecimal (b : Z) : list Z := [nth (Z.to_nat (b / 16)) digits 0; nth (Z.to_nat (b mod 16)) digits 0].

(** T[i] = floor(2^32 * |sin i|), i = 1..64 (entry 0 is unused). *)
Definition rfc_T : nat -> Z := fun i => nth i
  [
   0x0; 0xd76aa478; 0xe8c7b756; 0x242070db; 0xc1bdceee; 0xf57c0faf; 0x4787c62a; 0xa8304613;
   0xfd469501; 0x698098d8; 0x8b44f7af; 0xffff5bb1; 0x895cd7be; 0x6b901122; 0xfd987193; 0xa679438e;
   0x49b40821; 0xf61e2562; 0xc040b340; 0x265e5a51; 0xe9b6c7aa; 0xd62f105d; 0x2441453; 0xd8a1e681;
   0xe7d3fbc8; 0x21e1cde6; 0xc33707d6; 0xf4d50d87; 0x455a14ed; 0xa9e3e905; 0xfcefa3f8; 0x676f02d9;
   0x8d2a4c8a; 0xfffa3942; 0x8771f681; 0x6d9d6122; 0xfde5380c; 0xa4beea44; 0x4bdecfa9; 0xf6bb4b60;
   0xbebfbc70; 0x289b7ec6; 0xeaa127fa; 0xd4ef3085; 0x4881d05; 0xd9d4d039; 0xe6db99e5; 0x1fa27cf8;
   0xc4ac5665; 0xf4292244; 0x432aff97; 0xab9423a7; 0xfc93a039; 0x655b59c3; 0x8f0ccc92; 0xffeff47d;
   0x85845dd1; 0x6fa87e4f; 0xfe2ce6e0; 0xa3014314; 0x4e0811a1; 0xf7537e82; 0xbd3af235; 0x2ad7d2bb;
   0xeb86d391
  ] 0.
