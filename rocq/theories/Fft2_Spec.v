(** The two-dimensional discrete Fourier transform over a commutative ring. *)
From Verif Require Import Common Fft_Spec.

Section spec.
Context {R : Type} (rO rI : R) (radd rmul : R -> R -> R).
(** The coefficient (v, u) of an array of h rows and w columns; wr is the root for the columns of a row, wc that for the rows *)
Definition dft2 (wr wc : R) (h w : nat) (f : nat -> nat -> R) (v u : nat) : R :=
  sum rO radd h (fun j => sum rO radd w (fun i => rmul (f j i) (rmul (power rI rmul wr (i * u)) (power rI rmul wc (j * v))))).
End spec.
