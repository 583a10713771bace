(** Instants in microseconds. *)
From Verif Require Import Common.
Local Open Scope Z_scope.

Definition million : Z := 1000000.
(** A clock time: a uint64_t of seconds and an int32_t of microseconds. *)
Definition valid (c : Z * Z) : Prop := 0 <= fst c < 2 ^ 64 /\ - 2 ^ 31 <= snd c < 2 ^ 31.
Definition normal (c : Z * Z) : Prop := 0 <= fst c < 2 ^ 64 /\ 0 <= snd c < million.
Definition instant (c : Z * Z) : Z := fst c * million + snd c.
(** The seconds wrap. *)
Definition horizon : Z := 2 ^ 64 * million.
