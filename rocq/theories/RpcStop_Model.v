(** Model of starting, stopping and waiting in src/network/rpc/base.cpp: any number of workers, of threads
    that call stop() and of threads that call wait_until_stopped(), under any schedule.  What is done under
    state_mutex is one step, except that stop() keeps the mutex over several steps.  The connections are
    the environment's: an accept() gives a connection or fails, a connection ends, an exit request is
    taken by any worker that waits in accept() or is refused. *)
From Verif Require Import Common RpcStop_Spec.
Local Open Scope Z_scope.

(** base.h:61-65 *)
Inductive server_state : Type := STOPPED | RUNNING | STOPPING.
(** A worker in process() (base.cpp:168-230): before is_running(), in accept(), in the loop over a
    connection, before notify_if_this_is_the_last_running_threads(), before notify_one() in it, done. *)
Inductive wpc : Type := Check | Accept | Serving | Leaving | Notifying | Done.
(** A thread in wait_until_stopped() (:136-143): not in it, in the condition's wait set, woken. *)
Inductive jpc : Type := Outside | Asleep | Woken.
(** [lock]: the calls that the holder of state_mutex in stop() still makes, and who it is. *)
Record server : Type := { state : server_state; running : Z; threads : nat; lock : option (nat * nat);
  workers : list wpc; waiter : nat -> jpc; log : list event }.
(** base.cpp:53-61 *)
Definition fresh : server := {| state := STOPPED; running := 0; threads := 0; lock := None; workers := []; waiter := fun _ => Outside; log := [] |}.

Inductive move : Type :=
| M_start (k n : nat)        (* start(port, n) makes k of its n threads; with k < n the next one failed *)
| M_stop (i : nat)           (* thread i calls stop() *)
| M_exit (w : option nat)    (* the exit request of stop() is taken by worker w or refused *)
| M_unlock                   (* stop() returns, or a call throws another exception than cannot_get_connection, which leaves stop() *)
| M_is_stopped               (* somebody calls is_stopped() *)
| M_worker (w : nat) (ok : bool)        (* worker w makes its next step; [ok]: whether accept() gives a connection *)
| M_notify (w j : nat)       (* worker w calls notify_one(), which wakes j *)
| M_wait (j : nat)           (* thread j calls wait_until_stopped() *)
| M_wake (j : nat)           (* a woken thread gets the mutex back *)
| M_spurious (j : nat).      (* thread j wakes for no reason *)

Definition set {T} (f : nat -> T) (i : nat) (x : T) : nat -> T := fun k => if Nat.eqb k i then x else f k.
Fixpoint put (l : list wpc) (w : nat) (x : wpc) : list wpc :=
  match l, w with [], _ => [] | _ :: r, O => x :: r | y :: r, S v => y :: put r v x end.

Definition with_workers (s : server) (l : list wpc) : server :=
  {| state := state s; running := running s; threads := threads s; lock := lock s; workers := l; waiter := waiter s; log := log s |}.
Definition with_waiter (s : server) (j : nat) (p : jpc) (es : list event) : server :=
  {| state := state s; running := running s; threads := threads s; lock := lock s; workers := workers s; waiter := set (waiter s) j p; log := es ++ log s |}.
Definition with_lock (s : server) (x : option (nat * nat)) : server :=
  {| state := state s; running := running s; threads := threads s; lock := x; workers := workers s; waiter := waiter s; log := log s |}.
Definition is_stopped (s : server) : bool := match state s with STOPPED => true | _ => false end.
Definition is_running (s : server) : bool := match state s with RUNNING => true | _ => false end.

(** base.cpp:138-142, also the predicate of the wait: what a thread with the mutex does next. *)
Definition test_stopped (s : server) (j : nat) : server :=
  if is_stopped s then with_waiter s j Outside [Returns j] else with_waiter s j Asleep [Waits j].
(** base.cpp:250-257 *)
Definition leave (s : server) (w : nat) : server :=
  let n := running s - 1 in
  if 0 <? n then {| state := state s; running := n; threads := threads s; lock := lock s; workers := put (workers s) w Done;
                    waiter := waiter s; log := Finished :: log s |}
  else {| state := STOPPED; running := n; threads := threads s; lock := lock s; workers := put (workers s) w Notifying;
          waiter := waiter s; log := Finished :: log s |}.

(** Moves that are not possible do nothing; in particular those that need the mutex while stop() has it. *)
Definition step (s : server) (m : move) : server :=
  let locked := match lock s with None => false | Some _ => true end in
  match m with
  | M_start k n =>                                                                    (* :100-110 *)
      if locked || (n <? k)%nat then s else
      {| state := RUNNING; running := running s + Z.of_nat k; threads := n; lock := None; workers := workers s ++ repeat Check k;
         waiter := waiter s; log := Start k :: log s |}
  | M_stop i =>                                                                       (* :116-123 *)
      if locked || negb (is_running s) then s else
      {| state := STOPPING; running := running s; threads := threads s; lock := Some (i, threads s); workers := workers s;
         waiter := waiter s; log := Stop :: log s |}
  | M_exit w =>                                                                       (* :123-132 *)
      match lock s with
      | Some (i, S k) =>
          match w with
          | None => with_lock s (Some (i, k))
          | Some w => match nth_error (workers s) w with
                      | Some Accept => with_lock (with_workers s (put (workers s) w Check)) (Some (i, k))
                      | _ => s
                      end
          end
      | _ => s
      end
  | M_unlock => match lock s with Some _ => with_lock s None | None => s end            (* :118, also when a call throws *)
  | M_is_stopped => if locked then s else                                             (* :157-161 *)
      {| state := state s; running := running s; threads := threads s; lock := lock s; workers := workers s; waiter := waiter s;
         log := Is_stopped (is_stopped s) :: log s |}
  | M_worker w ok =>
      match nth_error (workers s) w with
      | Some Check => if locked then s else                                           (* :170 *)
          if is_running s then with_workers s (put (workers s) w Accept)
          else {| state := state s; running := running s; threads := threads s; lock := lock s; workers := put (workers s) w Leaving;
                  waiter := waiter s; log := Left :: log s |}
      | Some Accept => with_workers s (put (workers s) w (if ok then Serving else Check))     (* :171-178 *)
      | Some Serving => with_workers s (put (workers s) w Check)                      (* :183-228 *)
      | Some Leaving => if locked then s else leave s w                               (* :230, :248-258 *)
      | _ => s
      end
  | M_notify w j =>                                                                   (* :257 *)
      match nth_error (workers s) w with
      | Some Notifying => match waiter s j with
                          | Asleep => with_workers (with_waiter s j Woken []) (put (workers s) w Done)
                          | _ => s
                          end
      | _ => s
      end
  | M_wait j => match waiter s j with Outside => if locked then s else test_stopped s j | _ => s end
  | M_wake j => match waiter s j with Woken => if locked then s else test_stopped s j | _ => s end
  | M_spurious j => match waiter s j with Asleep => with_waiter s j Woken [] | _ => s end
  end.
(** notify_one() when nobody sleeps. *)
Definition nobody_asleep (s : server) : Prop := forall j, waiter s j <> Asleep.
Inductive steps : server -> list move -> server -> Prop :=
| steps_nil s : steps s [] s
| steps_move s m s' ms : steps (step s m) ms s' -> steps s (m :: ms) s'
| steps_nobody s w s' ms : nth_error (workers s) w = Some Notifying -> nobody_asleep s ->
    steps (with_workers s (put (workers s) w Done)) ms s' -> steps s ms s'.
