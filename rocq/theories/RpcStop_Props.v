(** C56: starting, stopping and waiting for the RPC server. *)
From Verif Require Import Common RpcStop_Spec RpcStop_Model RpcStop_Proof.
Local Open Scope Z_scope.

(** Any number of starts, stops, workers and waiters, any schedule: is_stopped() answers true, and
    wait_until_stopped() returns, only when every worker has left its loop. *)
Theorem C56_stopped_means_left : forall ms s, steps fresh ms s -> stopped_means_left (log s).
Proof. intros ms s H. apply (inv_steps _ _ _ H inv_fresh). Qed.
(** And is_stopped() answers false only while some worker is not done. *)
Theorem C56_not_stopped_means_some : forall ms s, steps fresh ms s -> not_stopped_means_some (log s).
Proof. intros ms s H. apply (inv_steps _ _ _ H inv_fresh). Qed.
(** The events count the workers: a worker is started once, leaves once, finishes once. *)
Theorem C56_events_count : forall ms s, steps fresh ms s ->
  started (log s) = length (workers s) /\
  left_loop (log s) = length (filter (fun x => match x with Check | Accept | Serving => false | _ => true end) (workers s)).
Proof.
  intros ms s H. destruct (inv_steps _ _ _ H inv_fresh) as [_ H2 H3 _ _ _ _ _]. split; [exact H2|].
  assert (G : forall l, (length (filter (fun x => match x with Check | Accept | Serving => false | _ => true end) l) + count looping l = length l)%nat).
  { unfold count. induction l as [|[] l IH]; cbn [filter looping length]; lia. }
  specialize (G (workers s)). lia.
Qed.
(** From every state that can be reached with a worker still there the server can be stopped: no
    deadlock, whatever holds the mutex. *)
Theorem C56_can_stop : forall ms s, steps fresh ms s -> (exists x, In x (workers s) /\ x <> Notifying /\ x <> Done) ->
  exists ms' s', steps s ms' s' /\ Forall no_start ms' /\ state s' = STOPPED.
Proof.
  intros ms s H (x & Hx & N1 & N2). apply stoppable; [now apply (inv_steps _ _ _ H), inv_fresh|].
  unfold count. assert (G : In x (filter alive (workers s))) by (apply filter_In; split; [exact Hx|destruct x; try reflexivity; congruence]).
  destruct (filter alive (workers s)); [destruct G|cbn; lia].
Qed.

(** Two workers, two waiters, one of them comes late. *)
Definition ex_ms : list move := [M_is_stopped; M_start 2 2; M_worker 0 true; M_worker 1 true; M_wait 0; M_worker 0 true; M_stop 7; M_is_stopped; M_exit (Some 1%nat); M_exit None; M_unlock;
  M_worker 1 true; M_worker 1 true; M_is_stopped; M_worker 0 true; M_worker 0 true; M_worker 0 true; M_wait 1; M_notify 0 0; M_wake 0; M_is_stopped].
Definition run (ms : list move) : server := fold_left step ms fresh.
Lemma run_steps ms : steps fresh ms (run ms).
Proof. unfold run. generalize fresh. induction ms as [|m ms IH]; intros s; [constructor|]. constructor. apply IH. Qed.
Example C56_case : steps fresh ex_ms (run ex_ms) /\ rev (log (run ex_ms)) =
  [Is_stopped true; Start 2; Waits 0; Stop; Left; Finished; Is_stopped false; Left; Finished; Returns 1; Returns 0; Is_stopped true] /\
  workers (run ex_ms) = [Done; Done] /\ lock (run ex_ms) = None.
Proof. split; [apply run_steps|]. vm_compute. auto. Qed.
Example C56_can_stop_nonvacuous : exists x, In x (workers (run [M_start 1 1; M_worker 0 true; M_worker 0 true; M_stop 0])) /\ x <> Notifying /\ x <> Done.
Proof. exists Serving. vm_compute. split; [auto|split; discriminate]. Qed.

(** If only one thread ever waits it is released: once the server has stopped and the last worker is
    through, it does not sleep, and its next step is to return. *)
Theorem C56_single_waiter_released_partial : forall ms s j, steps fresh ms s -> Forall (only j) ms ->
  state s = STOPPED -> Forall (eq Done) (workers s) ->
  waiter s j <> Asleep /\ (waiter s j = Woken -> log (step s (M_wake j)) = Returns j :: log s).
Proof.
  intros ms s j H Ho Hs Hd. assert (O : one j fresh) by (split; [reflexivity|discriminate]).
  destruct (one_steps j _ _ _ H Ho O) as [_ Hn]. split.
  - intros Ha. destruct (Hn Hs Ha) as (w & Hw). apply nth_error_In in Hw. rewrite Forall_forall in Hd. specialize (Hd _ Hw). discriminate.
  - intros Hw. cbn [step]. rewrite Hw. pose proof (held_steps _ _ _ H ltac:(unfold held; cbn; congruence)) as Hl. unfold held in Hl.
    destruct (lock s); [rewrite Hl in Hs by discriminate; discriminate|]. unfold test_stopped, is_stopped. rewrite Hs. reflexivity.
Qed.
Example C56_single_nonvacuous : exists ms s, steps fresh ms s /\ Forall (only 0) ms /\ state s = STOPPED /\ Forall (eq Done) (workers s) /\ waiter s 0%nat = Woken.
Proof.
  set (ms := [M_start 1 1; M_wait 0; M_stop 1; M_exit None; M_unlock; M_worker 0 true; M_worker 0 true; M_notify 0 0]).
  exists ms, (run ms). split; [apply run_steps|]. split; [repeat constructor|]. vm_compute. repeat constructor.
Qed.

(** ** Where the statement fails *)

(** notify_one() releases one waiter only: with two of them there is a schedule after which the server has
    stopped, everybody else is through, and the second one sleeps for ever (unless it wakes for no reason
    or the server is started again). *)
Theorem C56_second_waiter_sleeps_refuted : exists ms s, steps fresh ms s /\ state s = STOPPED /\ Forall (eq Done) (workers s) /\ lock s = None /\
  waiter s 0%nat = Outside /\ In (Returns 0) (log s) /\
  forall ms' s', Forall no_start ms' -> Forall (no_spurious 1) ms' -> steps s ms' s' -> waiter s' 1%nat = Asleep.
Proof.
  set (ms := [M_start 1 1; M_wait 0; M_wait 1; M_stop 2; M_exit None; M_unlock; M_worker 0 true; M_worker 0 true; M_notify 0 0; M_wake 0]).
  exists ms, (run ms). split; [apply run_steps|]. split; [reflexivity|]. split; [vm_compute; repeat constructor|]. split; [reflexivity|]. split; [reflexivity|].
  split; [vm_compute; auto|]. intros ms' s' H1 H2 H. apply (over_steps 1 _ _ _ H H1 H2). split; [vm_compute; repeat constructor|reflexivity].
Qed.
(** A server started with no worker (n = 0, or the first thread could not be made) never stops, whatever
    is called, and nobody returns from waiting. *)
Theorem C56_no_worker_never_stops_refuted : forall n ms s, Forall no_start ms -> steps (step fresh (M_start 0 n)) ms s ->
  state s <> STOPPED /\ forall j, ~ In (Returns j) (log s).
Proof.
  intros n ms s H1 H. apply (idle_steps _ _ _ H H1). split; [reflexivity|]. split; [discriminate|]. cbn. intros j [Q|[]]. discriminate.
Qed.
Example C56_no_worker_case : state (run [M_start 0 1; M_wait 0; M_stop 1; M_exit None; M_unlock; M_is_stopped]) = STOPPING.
Proof. reflexivity. Qed.
(** stop() that ends by an exception before it has told every worker: the workers still wait, and calling stop() again does nothing. *)
Theorem C56_stop_throws_refuted : exists ms s, steps fresh ms s /\ lock s = None /\ state s = STOPPING /\ workers s = [Accept; Accept] /\ forall i, step s (M_stop i) = s.
Proof.
  set (ms := [M_start 2 2; M_worker 0 true; M_worker 1 true; M_stop 7; M_unlock]). exists ms, (run ms).
  split; [apply run_steps|]. repeat split.
Qed.

Print Assumptions C56_stopped_means_left.
Print Assumptions C56_not_stopped_means_some.
Print Assumptions C56_events_count.
Print Assumptions C56_can_stop.
Print Assumptions C56_single_waiter_released_partial.
Print Assumptions C56_second_waiter_sleeps_refuted.
Print Assumptions C56_no_worker_never_stops_refuted.
Print Assumptions C56_stop_throws_refuted.
