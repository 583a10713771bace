(** C106: the threads of the embedded web server. *)
From Verif Require Import Common CgiThreads_Spec CgiThreads_Model CgiThreads_Proof.
Local Open Scope Z_scope.

(** Whatever the owner calls, however the threads are scheduled and whatever fails: each thread takes one
    connection after the other, each CGI object works on one connection at a time and for one thread, and
    each connection is worked on at most once. *)
Theorem C106_orderly : forall l n s, reached l n s -> orderly (log s).
Proof. intros l n s H. eapply inv_orderly, inv_reached; eauto. Qed.

(** A server with two threads *)
Definition two : list move :=
  [M_run false; M_owner true; M_owner true; M_owner true; M_owner true; M_owner true; M_owner true].
Definition serve (w : nat) : list move := [M_worker w Good; M_worker w Good; M_worker w Good; M_worker w Good; M_worker w Good; M_worker w Good].
Example C106_orderly_nonvacuous :
  exists s, run (fresh true 2) (two ++ [M_worker 0 Good; M_worker 1 Good; M_worker 1 Good; M_worker 0 Good; M_worker 0 Good; M_worker 1 Good; M_worker 1 Good; M_worker 0 Good; M_worker 0 Good; M_worker 0 Good]) = Ok s /\
    log s = [Started 0; Started 1; Returned; Accepted 1 0; Accepted 0 1; Begin 1 1 0; Begin 0 0 1; End 0 0 1; Closed 0 1]%nat.
Proof. eexists. split; vm_compute; reflexivity. Qed.
Example C106_orderly_excludes :
  ~ orderly [Accepted 0 0; Accepted 1 1; Begin 0 0 0; Begin 1 0 1]%nat /\ ~ orderly [Accepted 0 0; Accepted 0 1]%nat /\
  ~ orderly [Accepted 0 0; Begin 0 0 0; End 0 0 0; Begin 0 0 0]%nat /\ ~ orderly [Accepted 0 0; Accepted 1 0]%nat.
Proof.
  split; [|split; [|split]]; intros (H1 & H2 & (H3 & H4) & H5).
  - specialize (H2 0%nat). cbn in H2. destruct H2 as [_ [H2 _]]. discriminate.
  - specialize (H1 0%nat). cbn in H1. destruct H1 as [_ [H1 _]]. discriminate.
  - cbn in H4. inversion H4 as [|? ? X _]. apply X. now left.
  - cbn in H3. inversion H3 as [|? ? X _]. apply X. now left.
Qed.

(** A connection that was accepted is closed when its thread has had four more turns, whatever the
    request does and whatever the others do, if the process lives. *)
Theorem C106_closes : forall l n s ms s' w c, reached l n s -> In (Accepted w c) (log s) -> run s ms = Ok s' -> dead s' = false ->
  (4 <= turns w ms)%nat -> In (Closed w c) (log s').
Proof. exact reached_closes. Qed.
Example C106_closes_nonvacuous :
  exists s s', run (fresh true 2) (two ++ [M_worker 0 Good; M_worker 0 Good]) = Ok s /\ log s = [Started 0; Started 1; Returned; Accepted 0 0]%nat /\
    run s [M_worker 0 Good; M_worker 1 Good; M_worker 0 Good; M_worker 0 Fails] = Ok s' /\ log s' = [Started 0; Started 1; Returned; Accepted 0 0; Begin 0 0 0; End 0 0 0; Closed 0 0]%nat.
Proof. eexists _, _. split; [vm_compute; reflexivity|]. split; [reflexivity|]. split; vm_compute; reflexivity. Qed.
(** Four turns are needed. *)
Example C106_closes_tight :
  exists s s', run (fresh true 2) (two ++ [M_worker 0 Good; M_worker 0 Good]) = Ok s /\ run s [M_worker 0 Good; M_worker 0 Good; M_worker 0 Good] = Ok s' /\ ~ In (Closed 0 0) (log s').
Proof. eexists _, _. split; [vm_compute; reflexivity|]. split; [vm_compute; reflexivity|]. cbn. intuition discriminate. Qed.

(** run(false) returns after it has taken so many steps, and then has started [threads] threads more and
    nothing was thrown, if clones and threads can be made. *)
Theorem C106_run : forall s ms s', dead s = false -> gone s = false -> owner s = Idle -> listening s = true -> 0 <= threads s ->
  Forall smooth ms -> run s (M_run false :: ms) = Ok s' -> dead s' = false ->
  (owner s' = Idle \/ (owners ms < 2 * Z.to_nat (threads s) + 2)%nat) /\
  (owner s' = Idle -> length (workers s') = (length (workers s) + Z.to_nat (threads s))%nat /\ returned (log s') = S (returned (log s)) /\ threw (log s') = threw (log s)).
Proof. exact run_starts. Qed.
Theorem C106_started : forall l n s, reached l n s -> started (log s) = length (workers s).
Proof. exact count_reached. Qed.
Example C106_run_nonvacuous : exists s, run (fresh true 2) two = Ok s /\ owner s = Idle /\ started (log s) = 2%nat.
Proof. eexists. split; [vm_compute; reflexivity|]. split; reflexivity. Qed.
(** Without a socket it does nothing; a negative number of threads is an error. *)
Theorem C106_run_nothing : forall s sync, dead s = false -> gone s = false -> owner s = Idle ->
  (listening s = false -> step s (M_run sync) = Ok (note s Returned)) /\
  (listening s = true -> threads s < 0 -> exists s', step s (M_run sync) = Ok s' /\ owner s' = Idle /\ workers s' = workers s /\ log s' = log s ++ [Threw]).
Proof.
  intros s sync Hd Hg Ho. unfold step, begin_run. rewrite Hd, Hg, Ho. split.
  - intros ->. reflexivity.
  - intros -> H. apply Z.ltb_lt in H. rewrite H. eexists. split; [reflexivity|]. cbn. auto.
Qed.

(** If clones and threads can always be made, no thread uses a server that is gone: only the owner could, with a call. *)
Theorem C106_safe_partial : forall l n ms s m, run (fresh l n) ms = Ok s -> ~ In (M_owner false) ms -> step s m = UB ->
  gone s = true /\ match m with M_run _ | M_join | M_destroy => True | _ => False end.
Proof. intros l n ms s m E HN. apply safe_ub. eapply safe_run; eauto using safe_fresh. Qed.
Example C106_safe_nonvacuous : exists s, run (fresh true 0) [M_run true; M_owner true; M_owner true; M_owner true; M_destroy; M_owner true] = Ok s /\ gone s = true /\ step s M_join = UB.
Proof. eexists. split; [vm_compute; reflexivity|]. split; reflexivity. Qed.
(** If a clone cannot be made it may: the second run() lets go of the first threads and throws, the
    destructor then has nothing to wait for, and a thread of the first run() begins. *)
Theorem C106_safe_refuted :
  run (fresh true 1) [M_run false; M_owner true; M_owner true; M_owner true; M_owner true; M_run false; M_owner false; M_destroy; M_owner true; M_worker 0 Good] = UB.
Proof. vm_compute. reflexivity. Qed.

(** join(), run(true) and the destructor should return.  Once a thread runs they never do, whatever happens. *)
Theorem C106_join_refuted : forall s m ms s' w, dead s = false -> gone s = false -> owner s = Idle -> In (Some w) (ths s) ->
  m = M_join \/ m = M_destroy -> run s (m :: ms) = Ok s' -> owner s' <> Idle.
Proof.
  intros s m ms s' w Hd Hg Ho Hw Hm E. cbn [run] in E. unfold step in E at 1. rewrite Hd, Hg, Ho in E.
  apply In_nth_error in Hw as (i & Hi).
  assert (exists j y, owner s' = Joining j y) as (j & y & ->); [|discriminate].
  destruct Hm as [-> | ->]; cbn [obind] in E; (eapply stuck_run in E as (j & E); [eauto|]); exists 0%nat, i, w; cbn; (split; [reflexivity|split; [lia|exact Hi]]).
Qed.
Theorem C106_sync_refuted : forall s ms s', dead s = false -> gone s = false -> owner s = Idle -> listening s = true -> 0 < threads s ->
  Forall smooth ms -> run s (M_run true :: ms) = Ok s' -> owner s' <> Idle.
Proof. exact sync_never. Qed.
Example C106_join_nonvacuous : exists s s', run (fresh true 2) two = Ok s /\ In (Some 1%nat) (ths s) /\ run s (M_destroy :: M_owner true :: serve 0 ++ [M_owner true]) = Ok s' /\
  log s' = [Started 0; Started 1; Returned; Accepted 0 0; Begin 0 0 0; End 0 0 0; Closed 0 0]%nat.
Proof. eexists _, _. split; [vm_compute; reflexivity|]. split; [cbn; auto|]. split; vm_compute; reflexivity. Qed.

(** A run() that throws should leave no thread behind.  When the second thread cannot be started the first goes on to serve. *)
Theorem C106_failed_start_refuted :
  exists s, run (fresh true 2) ([M_run false; M_owner true; M_owner true; M_owner true; M_owner true; M_owner false] ++ serve 0) = Ok s /\ owner s = Idle /\
    log s = [Started 0; Threw; Accepted 0 0; Begin 0 0 0; End 0 0 0; Closed 0 0]%nat.
Proof. eexists. split; [vm_compute; reflexivity|]. split; reflexivity. Qed.
(** There should be [threads] threads.  A second run() lets go of those that run and starts as many again, and all of them serve. *)
Theorem C106_twice_refuted :
  exists s, run (fresh true 1) ([M_run false; M_owner true; M_owner true; M_owner true; M_owner true; M_run false; M_owner true; M_owner true; M_owner true; M_owner true] ++ serve 0 ++ serve 1) = Ok s /\
    ths s = [Some 1%nat] /\
    log s = [Started 0; Returned; Started 1; Returned; Accepted 0 0; Begin 0 0 0; End 0 0 0; Closed 0 0; Accepted 1 1; Begin 1 1 1; End 1 1 1; Closed 1 1]%nat.
Proof. eexists. split; [vm_compute; reflexivity|]. split; reflexivity. Qed.
(** A request should not end the server.  One whose CGI throws what is not a std::exception ends the process, for every state. *)
Theorem C106_survives_refuted : forall s w k c, dead s = false -> nth_error (workers s) w = Some (mkW (Working c) k) ->
  exists s', step s (M_worker w Other) = Ok s' /\ dead s' = true /\ log s' = log s ++ [Terminated] /\ forall ms, run s' ms = Ok s'.
Proof.
  intros s w k c Hd H. unfold step, worker_step. rewrite Hd, H. eexists. split; [reflexivity|]. split; [reflexivity|]. split; [reflexivity|].
  induction ms as [|m ms IH]; [reflexivity|]. cbn [run]. unfold step. cbn [dead set_dead obind]. exact IH.
Qed.

Print Assumptions C106_orderly.
Print Assumptions C106_closes.
Print Assumptions C106_run.
Print Assumptions C106_started.
Print Assumptions C106_run_nothing.
Print Assumptions C106_safe_partial.
Print Assumptions C106_safe_refuted.
Print Assumptions C106_join_refuted.
Print Assumptions C106_sync_refuted.
Print Assumptions C106_failed_start_refuted.
Print Assumptions C106_twice_refuted.
Print Assumptions C106_survives_refuted.
