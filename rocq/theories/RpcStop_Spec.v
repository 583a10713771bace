(** What can be observed of starting and stopping a server. *)
From Verif Require Import Common.

(** [Start k]: start() has made k threads; [Left]: one of them leaves its loop; [Finished]: one of them is
    done with the server's bookkeeping; [Stop]: stop() has found the server running; [Is_stopped b]: that
    was the answer of is_stopped(); [Waits j], [Returns j]: thread j begins to sleep in, or returns from,
    wait_until_stopped(). *)
Inductive event : Type := Start (k : nat) | Left | Finished | Stop | Is_stopped (b : bool) | Waits (j : nat) | Returns (j : nat).
Fixpoint started (l : list event) : nat := match l with [] => 0 | Start k :: r => k + started r | _ :: r => started r end.
Fixpoint left_loop (l : list event) : nat := match l with [] => 0 | Left :: r => S (left_loop r) | _ :: r => left_loop r end.
Fixpoint finished (l : list event) : nat := match l with [] => 0 | Finished :: r => S (finished r) | _ :: r => finished r end.
(** Logs list the newest event first.  Whenever somebody is told that the server has stopped, every thread
    ever started has left its loop and the bookkeeping behind it. *)
Definition stopped_means_left (log : list event) : Prop := forall post e pre, log = post ++ e :: pre ->
  (e = Is_stopped true \/ exists j, e = Returns j) -> left_loop pre = started pre /\ finished pre = started pre.
(** Whenever somebody is told that it has not, some thread is still there, if every start made a thread. *)
Definition not_stopped_means_some (log : list event) : Prop := forall post pre, log = post ++ Is_stopped false :: pre ->
  (forall k, In (Start k) pre -> (0 < k)%nat) -> (finished pre < started pre)%nat.
