(** Times in seconds, and what the system is asked for. *)
From Verif Require Import Common Thread_Spec.
From Coq Require Import QArith.
Local Open Scope Z_scope.

(** The pair is a time as the system wants it, [unit] parts of a second. *)
Definition well_formed (unit : Z) (t : Z * Z) : Prop := 0 <= fst t /\ 0 <= snd t < unit.
(** It is the time [q], less or more by [err] at most. *)
Definition stands_for (unit : Z) (t : Z * Z) (q err : Q) : Prop :=
  (q - err <= inject_Z (fst t) + (snd t # Z.to_pos unit) <= q + err)%Q.
(** SO_RCVTIMEO and SO_SNDTIMEO: a time of zero means that calls wait for ever. *)
Definition forever (t : Z * Z) : Prop := t = (0, 0).
