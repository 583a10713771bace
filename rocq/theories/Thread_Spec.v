(** Threads of the system: each is joinable until it is joined or detached, once. *)
From Verif Require Import Common.
From Coq Require Import QArith Qround.
Local Open Scope Z_scope.

Inductive fate := Joinable | Joined | Detached.
(** f: what became of the thread; ended: its function has returned; calls: how often the function was called *)
Record thr := { f : fate; ended : bool; calls : nat }.

(** the numbers a double can hold: m * 2^(e-1074) *)
Definition representable (x : Q) : Prop := exists m e, - 2 ^ 53 < m < 2 ^ 53 /\ 0 <= e <= 2045 /\ (x * inject_Z (2 ^ 1074) == inject_Z (m * 2 ^ e))%Q.
(** rounding keeps the order and what can be held *)
Definition rounding (rnd : Q -> Q) : Prop := (forall x y, (x <= y)%Q -> (rnd x <= rnd y)%Q) /\ (forall x, representable x -> (rnd x == x)%Q).
(** a time in seconds as a double *)
Inductive dbl := Fin (q : Q) | Inf (neg : bool) | NaN.
