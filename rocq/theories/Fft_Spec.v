(** The discrete Fourier transform over a commutative ring. *)
From Verif Require Import Common.
From Coq Require Import Ring_theory.

Section spec.
Context {R : Type} (rO rI : R) (radd rmul rsub : R -> R -> R) (ropp : R -> R).
Fixpoint power (w : R) (n : nat) : R := match n with O => rI | S n => rmul w (power w n) end.
(** f 0 + ... + f (n - 1) *)
Fixpoint sum (n : nat) (f : nat -> R) : R := match n with O => rO | S n => radd (sum n f) (f n) end.
(** The k-th Fourier coefficient of x for the root w *)
Definition dft (w : R) (x : list R) (k : nat) : R := sum (length x) (fun j => rmul (nth j x rO) (power w (j * k))).
(** w is a principal root of unity of order 2^l *)
Definition principal (w : R) (l : nat) : Prop := match l with O => w = rI | S l => power w (2 ^ l) = ropp rI end.
End spec.
