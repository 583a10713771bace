(** Model of src/system/endian_util.h and endian_util.cpp.  The machine is little or big endian; int has 32 bits, short 16; signed
    left shifts wrap, and a right shift of a negative number keeps the sign, as in gcc. *)
From Verif Require Import Common.
Local Open Scope Z_scope.

(** The types with a specialisation of reverse, and all others (an arithmetic type of n bytes; a floating-point value is its bit
    pattern). *)
Inductive ty := Char (sgn : bool) | Short | UShort | Int | UInt | Other (sgn : bool) (n : nat).
Definition size (t : ty) : nat := match t with Char _ => 1 | Short | UShort => 2 | Int | UInt => 4 | Other _ n => n end.
Definition sgn (t : ty) : bool := match t with Char s | Other s _ => s | Short | Int => true | UShort | UInt => false end.
(** conversion to an n-byte type *)
Definition conv (s : bool) (n : nat) (z : Z) : Z :=
  let m := 2 ^ (8 * Z.of_nat n) in if s then (z + m / 2) mod m - m / 2 else z mod m.
Definition int32 (z : Z) : Z := conv true 4 z.
Definition uint32 (z : Z) : Z := conv false 4 z.

Fixpoint le (n : nat) (z : Z) : list Z := match n with O => [] | S m => z mod 256 :: le m (z / 256) end.
Fixpoint le_val (l : list Z) : Z := match l with [] => 0 | b :: r => b + 256 * le_val r end.

Section Machine.
Context (little : bool).
(** endian_util.cpp:41-48: the first byte of int 1 *)
Definition store (n : nat) (v : Z) : list Z := if little then le n v else rev (le n v).
Definition load (s : bool) (p : list Z) : Z := conv s (length p) (le_val (if little then p else rev p)).
Definition is_little : bool := hd 0 (store 4 1) =? 1.
Definition is_big : bool := negb is_little.

Fixpoint set_nth (i : nat) (x : Z) (p : list Z) : list Z :=
  match p, i with [], _ => [] | _ :: r, O => x :: r | a :: r, S j => a :: set_nth j x r end.
(** endian_util.cpp:50-56 *)
Definition swap (i j : nat) (p : list Z) : list Z := set_nth j (nth i p 0) (set_nth i (nth j p 0) p).
(** endian_util.cpp:58-62 *)
Definition reverse_array (p : list Z) (size : nat) : list Z :=
  fold_left (fun p i => swap i (size - 1 - i) p) (seq 0 (size / 2)) p.
(** endian_util.h:61-108 *)
Definition reverse_mem (n : nat) (p : list Z) : list Z :=
  let q := fun i => nth i p 0 in
  match n with
  | 1 => p
  | 2 => [q 1%nat; q 0%nat]
  | 4 => [q 3%nat; q 2%nat; q 1%nat; q 0%nat]
  | 8 => [q 7%nat; q 6%nat; q 5%nat; q 4%nat; q 3%nat; q 2%nat; q 1%nat; q 0%nat]
  | _ => reverse_array p n
  end%nat.
(** endian_util.h:110-175 *)
Definition reverse (t : ty) (v : Z) : Z :=
  match t with
  | Char _ => v
  | Short => conv true 2 (Z.lor (Z.shiftl v 8) (Z.land (Z.shiftr v 8) 255))
  | UShort => conv false 2 (Z.lor (Z.shiftl v 8) (Z.shiftr v 8))
  | Int =>
      let v := Z.lor (int32 (Z.shiftl v 16)) (Z.land (Z.shiftr v 16) 65535) in
      Z.lor (int32 (Z.shiftl (Z.land v 16711935) 8)) (Z.land (Z.shiftr v 8) 16711935)
  | UInt =>
      let v := Z.lor (uint32 (Z.shiftl v 16)) (Z.shiftr v 16) in
      Z.lor (uint32 (Z.shiftl (Z.land v 16711935) 8)) (Z.shiftr (Z.land v 4278255360) 8)
  | Other s n => load s (reverse_mem n (store n v))
  end.
(** endian_util.h:177-207 *)
Definition to_little (t : ty) (v : Z) : Z := match t with Char _ => v | _ => if is_little then v else reverse t v end.
Definition to_big (t : ty) (v : Z) : Z := match t with Char _ => v | _ => if is_big then v else reverse t v end.
Definition from_little := to_little.
Definition from_big := to_big.
End Machine.
