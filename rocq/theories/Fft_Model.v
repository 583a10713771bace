(** Model of src/math/fft.h:44-90, 167-177 over any ring: the multiplication written out in lines 71-72 is that of the ring, and
    Complex(cos(theta*irev), sin(theta*irev)) with theta = 2*pi/n*flip is root irev.  ssize_t variables are natural numbers (none leaves 0..2n);
    irev is an int. *)
From Verif Require Import Common.
Local Open Scope Z_scope.

(** conversion to int *)
Definition int32 (z : Z) : Z := (z + 2 ^ 31) mod 2 ^ 32 - 2 ^ 31.
(** for (; k>(i^=k); k>>=1); where i has the type that conv converts to.  Gives i *)
Fixpoint bump (conv : Z -> Z) (fuel : nat) (k i : Z) : outcome Z :=
  match fuel with
  | O => Fuel
  | S fuel => let i := conv (Z.lxor i k) in if i <? k then bump conv fuel (Z.shiftr k 1) i else Ok i
  end.
(** fft.h:78-82 *)
Definition is_pow2 (s : Z) : bool := if s <=? 0 then false else Z.land s (s - 1) =? 0.

Section fft.
Context {R : Type} (radd rmul rsub : R -> R -> R) (root : Z -> R).
Definition get (a : list R) (i : nat) : outcome R := match nth_error a i with Some x => Ok x | None => UB end.
Definition put (a : list R) (i : nat) (x : R) : outcome (list R) := if Nat.ltb i (length a) then Ok (firstn i a ++ x :: skipn (S i) a) else UB.
(** fft.h:56-59 *)
Fixpoint shuffle (fuel : nat) (n : nat) (i : Z) (j : nat) (a : list R) : outcome (list R) :=
  match fuel with
  | O => Fuel
  | S fuel => if Nat.ltb (j + 1) n then
                let* i := bump (fun z => z) fuel (Z.shiftr (Z.of_nat n) 1) i in
                let* a := if Z.of_nat j <? i then let* x := get a j in let* y := get a (Z.to_nat i) in let* a := put a j y in put a (Z.to_nat i) x else Ok a in
                shuffle fuel n i (S j) a
              else Ok a
  end.
(** fft.h:66-73 *)
Fixpoint butterflies (fuel : nat) (w : R) (mh i j : nat) (a : list R) : outcome (list R) :=
  match fuel with
  | O => Fuel
  | S fuel => if Nat.ltb j (mh + i) then
                let k := (j + mh)%nat in
                let* aj := get a j in let* ak := get a k in
                let x := rsub aj ak in
                let* a := put a j (radd aj ak) in
                let* a := put a k (rmul w x) in
                butterflies fuel w mh i (S j) a
              else Ok a
  end.
(** fft.h:63-74 *)
Fixpoint blocks (fuel : nat) (n m mh : nat) (irev : Z) (i : nat) (a : list R) : outcome (list R) :=
  match fuel with
  | O => Fuel
  | S fuel => if Nat.ltb i n then
                let w := root irev in
                let* irev := bump int32 fuel (Z.shiftr (Z.of_nat n) 2) irev in
                let* a := butterflies fuel w mh i i a in
                blocks fuel n m mh irev (i + m) a
              else Ok a
  end.
(** fft.h:61-75 *)
Fixpoint stages (fuel : nat) (n mh : nat) (a : list R) : outcome (list R) :=
  match fuel with
  | O => Fuel
  | S fuel => let m := (mh * 2)%nat in
              if Nat.leb m n then let* a := blocks fuel n m mh 0 0 a in stages fuel n m a else Ok a
  end.
(** fft.h:46-76 *)
Definition fft_inner (fuel : nat) (a : list R) : outcome (list R) :=
  let n := length a in let* a := shuffle fuel n 0 1 a in stages fuel n 1 a.
(** fft.h:84-90: fft and ifft (167-177) for the roots of either direction *)
Definition fft_wrap (fuel : nat) (a : list R) : outcome (list R) :=
  if is_pow2 (Z.of_nat (length a)) then fft_inner fuel a else Throw.
End fft.
