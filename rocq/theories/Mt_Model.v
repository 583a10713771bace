(** Model of src/math/random/mersenne_twister.{h,cpp}. *)
From Verif Require Import Common.
Local Open Scope Z_scope.

(** mersenne_twister.h:50-54 *)
Definition N := 624%nat.
Definition M := 397%nat.
Definition MATRIX_A := 2567483615.      (* 0x9908b0df *)
Definition UPPER_MASK := 2147483648.    (* 0x80000000 *)
Definition LOWER_MASK := 2147483647.    (* 0x7fffffff *)
Definition u32 (x : Z) : Z := x mod 2 ^ 32.
Definition u64 (x : Z) : Z := x mod 2 ^ 64.
(** arrays: access outside is undefined *)
Definition get (a : list Z) (i : nat) : outcome Z := match nth_error a i with Some v => Ok v | None => UB end.
Definition put (a : list Z) (i : nat) (v : Z) : outcome (list Z) := if Nat.ltb i (length a) then Ok (firstn i a ++ v :: skipn (S i) a) else UB.
Record mt := { words : list Z; mti : nat }.

(** mersenne_twister.cpp:57-71; the product is computed with unsigned long *)
Fixpoint init_loop (n i : nat) (a : list Z) : outcome (list Z) :=
  match n with
  | O => Ok a
  | S n => let* p := get a (i - 1) in
           let v := u32 (u64 (1812433253 * Z.lxor p (Z.shiftr p 30) + Z.of_nat i)) in
           let* a := put a i (Z.land v 4294967295) in
           init_loop n (S i) a
  end.
Definition init (mem : list Z) (seed : Z) : outcome mt :=
  let* a := put mem 0 (Z.land seed 4294967295) in
  let* a := init_loop (N - 1) 1 a in
  Ok {| words := a; mti := N |}.
(** mersenne_twister.cpp:42-46: the array is not initialised before *)
Definition construct (mem : list Z) (seed : Z) : outcome mt := init mem seed.

(** mersenne_twister.cpp:78-79 *)
Definition mag01 (i : Z) : Z := if i =? 0 then 0 else MATRIX_A.
(** mersenne_twister.cpp:85-86, 89-90, 92-93: one word from mt[k], mt[k1] and mt[km] *)
Definition twist (a : list Z) (k k1 km : nat) : outcome (list Z) :=
  let* p := get a k in
  let* q := get a k1 in
  let y := Z.lor (Z.land p UPPER_MASK) (Z.land q LOWER_MASK) in
  let* r := get a km in
  put a k (Z.lxor (Z.lxor r (Z.shiftr y 1)) (mag01 (Z.land y 1))).
(** mersenne_twister.cpp:84-87 *)
Fixpoint loop1 (n k : nat) (a : list Z) : outcome (list Z) :=
  match n with O => Ok a | S n => let* a := twist a k (k + 1) (k + M) in loop1 n (S k) a end.
(** mersenne_twister.cpp:88-91 *)
Fixpoint loop2 (n k : nat) (a : list Z) : outcome (list Z) :=
  match n with O => Ok a | S n => let* a := twist a k (k + 1) (k + M - N) in loop2 n (S k) a end.
(** mersenne_twister.cpp:82-95 *)
Definition regenerate (a : list Z) : outcome (list Z) :=
  let* a := loop1 (N - M) 0 a in
  let* a := loop2 (N - 1 - (N - M)) (N - M) a in
  twist a (N - 1) 0 (M - 1).
(** mersenne_twister.cpp:101-104 *)
Definition tempering (y : Z) : Z :=
  let y := Z.lxor y (Z.shiftr y 11) in
  let y := u32 (Z.lxor y (Z.land (u32 (Z.shiftl y 7)) 2636928640)) in
  let y := u32 (Z.lxor y (Z.land (u32 (Z.shiftl y 15)) 4022730752)) in
  Z.lxor y (Z.shiftr y 18).
(** mersenne_twister.cpp:73-107 *)
Definition next (g : mt) : outcome (Z * mt) :=
  let* g := if Nat.leb N (mti g) then let* a := regenerate (words g) in Ok {| words := a; mti := 0 |} else Ok g in
  let* y := get (words g) (mti g) in
  Ok (tempering y, {| words := words g; mti := S (mti g) |}).
Fixpoint draw (k : nat) (g : mt) : outcome (list Z * mt) :=
  match k with
  | O => Ok ([], g)
  | S k => let* r := next g in let* rs := draw k (snd r) in Ok (fst r :: fst rs, snd rs)
  end.
