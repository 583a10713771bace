(** Model of src/math/random.h.  Doubles: every value met is an integer over 2^53, exactly representable, but for the product in next_int(a),
    which is rounded to the nearest, ties to even; it is far from overflow and underflow. *)
From Verif Require Import Common.
Local Open Scope Z_scope.

Section random.
(** Gen: any state and any outputs, as uint32_t *)
Context {G : Type} (gen : G -> Z * G).
Definition u32 (x : Z) : Z := x mod 2 ^ 32.
Definition gnext (g : G) : Z * G := let (v, g) := gen g in (u32 v, g).
(** random.h:68-70 *)
Definition next_int0 (g : G) : Z * G := gnext g.
(** random.h:83-87: the result is k / 2^53; returns k *)
Definition next_double (g : G) : Z * G :=
  let (v, g) := gnext g in let a := Z.shiftr v 5 in
  let (w, g) := gnext g in let b := Z.shiftr w 6 in
  (a * 67108864 + b, g).
(** rounding of a product to 53 significant bits *)
Definition round53 (x : Z) : Z :=
  let e := Z.max 0 (Z.log2 x + 1 - 53) in
  let q := x / 2 ^ e in let r := x mod 2 ^ e in
  (if (2 ^ e <? 2 * r) || ((2 * r =? 2 ^ e) && Z.odd q) then q + 1 else q) * 2 ^ e.
(** random.h:73-75: x * a is round53 (k * a) / 2^53; the conversion truncates *)
Definition next_int (a : Z) (g : G) : Z * G := let (k, g) := next_double g in (u32 (round53 (k * a) / 2 ^ 53), g).
(** random.h:78-80 *)
Definition next_int2 (a b : Z) (g : G) : Z * G := let (v, g) := next_int (u32 (b - a)) g in (u32 (a + v), g).
End random.

Section sampling.
(** RAND: r(a) *)
Context {G : Type} (r : Z -> G -> Z * G).
(** vectors of int *)
Definition resize (v : list Z) (k : nat) : list Z := firstn k v ++ repeat 0 (k - length v).
Definition store (v : list Z) (i : Z) (x : Z) : outcome (list Z) :=
  if (0 <=? i) && (i <? Z.of_nat (length v)) then Ok (firstn (Z.to_nat i) v ++ x :: skipn (S (Z.to_nat i)) v) else UB.
Definition int_of (x : Z) : Z := (x + 2 ^ 31) mod 2 ^ 32 - 2 ^ 31.
(** random.h:144-150 *)
Fixpoint fill (n : Z) (todo : nat) (i : Z) (v : list Z) (g : G) : outcome (list Z * G) :=
  match todo with
  | O => Ok (v, g)
  | S t => let (x, g) := r (n mod 2 ^ 32) g in let* v := store v i (int_of x) in fill n t (i + 1) v g
  end.
Definition sample_with_replacement (n k : Z) (res : list Z) (g : G) : outcome (bool * list Z * G) :=
  if (n <=? 0) || (k <? 0) then Ok (false, res, g)
  else let* o := fill n (Z.to_nat k) 0 (resize res (Z.to_nat k)) g in Ok (true, fst o, snd o).

(** std::map<int,int>: sorted by key *)
Definition map := list (Z * Z).
Fixpoint lookup (m : map) (x : Z) : option Z := match m with [] => None | (k, v) :: m => if k =? x then Some v else lookup m x end.
Fixpoint insert (m : map) (x y : Z) : map :=
  match m with
  | [] => [(x, y)]
  | (k, v) :: m' => if x <? k then (x, y) :: m else if x =? k then (x, y) :: m' else (k, v) :: insert m' x y
  end.
(** mm[x] read: inserts a 0 if there is none *)
Definition at_ (m : map) (x : Z) : Z * map := match lookup m x with Some v => (v, m) | None => (0, insert m x 0) end.
(** random.h:157 *)
Fixpoint identity (todo : nat) (i : Z) (m : map) : map := match todo with O => m | S t => identity t (i + 1) (insert m i i) end.
(** random.h:158-164: i + r(n-i) is computed as uint32_t *)
Fixpoint shuffle (n : Z) (todo : nat) (i : Z) (m : map) (g : G) : map * G :=
  match todo with
  | O => (m, g)
  | S t =>
      let (x, g) := r ((n - i) mod 2 ^ 32) g in
      let j := int_of ((i + x) mod 2 ^ 32) in
      let m := match lookup m j with None => insert m j j | Some _ => m end in
      let (t1, m) := at_ m i in
      let (v, m) := at_ m j in
      let m := insert m i v in
      let m := insert m j t1 in
      shuffle n t (i + 1) m g
  end.
(** random.h:166-169 *)
Fixpoint collect (k : Z) (m : map) (v : list Z) : outcome (list Z) :=
  match m with
  | [] => Ok v
  | (p, x) :: m => let* v := if (0 <=? x) && (x <? k) then store v x p else Ok v in collect k m v
  end.
(** random.h:153-171 *)
Definition sample_without_replacement (n k : Z) (res : list Z) (g : G) : outcome (bool * list Z * G) :=
  if (n <=? 0) || (k <? 0) || (n <? k) then Ok (false, res, g)
  else let m := identity (Z.to_nat k) 0 [] in
       let (m, g) := shuffle n (Z.to_nat k) 0 m g in
       let* v := collect k m (resize res (Z.to_nat k)) in
       Ok (true, v, g).
End sampling.
