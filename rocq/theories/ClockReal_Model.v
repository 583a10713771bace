(** Model of src/system/time_util.h:52-54, and of the comparisons that use it. *)
From Verif Require Import Common Double_Model LexFloat_Model RandReal_Model Clock_Model.
Local Open Scope Z_scope.

(** An integer as a double *)
Definition of_int (n : Z) : fl := round (n <? 0) (Z.abs n) 1.
(** operator * *)
Definition mul (x y : fl) : fl :=
  match x, y with
  | Fin a, Fin b => round (xorb (dneg a) (dneg b)) (Z.abs (units a * units b)) (2 ^ 1074 * 2 ^ 1074)
  | NaN n, _ | _, NaN n => NaN n
  | Inf n, Inf m => Inf (xorb n m)
  | Inf n, Fin a | Fin a, Inf n => if dman a =? 0 then NaN true else Inf (xorb n (dneg a))
  end.
(** the literal 1e-6 *)
Definition micro : fl := round false 1 1000000.
(** time_util.h:52-54: sec + (double)usec * 1e-6, where sec is converted *)
Definition to_real (c : clock) : fl := add (of_int (fst c)) (mul (of_int (snd c)) micro).

(** Comparisons of doubles *)
Definition feq (x y : fl) : bool :=
  match x, y with Fin a, Fin b => units a =? units b | Inf n, Inf m => Bool.eqb n m | _, _ => false end.
Definition fltb (x y : fl) : bool :=
  match x, y with
  | Fin a, Fin b => units a <? units b
  | Inf n, Inf m => n && negb m
  | Fin _, Inf m => negb m
  | Inf n, Fin _ => n
  | _, _ => false
  end.
(** a == b, a != b, a > b, a <= b, a >= b of clock times: time_util.h:96-99 defines < only, so both sides are converted by 52-54 *)
Definition c_eq (a b : clock) : bool := feq (to_real a) (to_real b).
Definition c_ne (a b : clock) : bool := negb (feq (to_real a) (to_real b)).
Definition c_gt (a b : clock) : bool := fltb (to_real b) (to_real a).
Definition c_le (a b : clock) : bool := fltb (to_real a) (to_real b) || feq (to_real a) (to_real b).
Definition c_ge (a b : clock) : bool := fltb (to_real b) (to_real a) || feq (to_real a) (to_real b).
(** (double)(now - start): object_stream.cpp:88, 112 *)
Definition elapsed (now start : clock) : outcome fl := let* c := minus now start in Ok (to_real c).
