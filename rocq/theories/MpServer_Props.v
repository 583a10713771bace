(** C100: starting, stopping and waiting for the mprpc server. *)
From Verif Require Import Common CommonLemmas MpServer_Spec MpServer_Model MpServer_Proof.
From Coq Require Import Lia.
Local Open Scope Z_scope.

(** join() waits for every thread, in every history of calls and under every schedule. *)
Theorem C100_join ms s : run fresh ms = Ok s -> waits (log s).
Proof. intros E. exact (c_waits _ _ (i_core _ (inv_run ms fresh s inv_fresh E))). Qed.
(** With an orderly owner no more threads serve than were asked for, none is left alone, all connections are the server's own, and it closes only its own descriptors. *)
Theorem C100_threads s : reached s -> no_more (log s) /\ forall w, ~ In (Left w) (log s).
Proof. intros R. destruct (reached_tidy s R) as (T & _). split; [exact (serving_bound s T)|exact (t_left _ T)]. Qed.
Theorem C100_own s : reached s -> ~ In Shut_other (log s) /\ forall w, ~ In (Took w None) (log s).
Proof.
  induction 1 as [|s m s' R (H1 & H2) O E]; [split; [intros []|intros w []]|]. destruct (reached_tidy s R) as (_ & N). destruct (step_log s m s' N O E) as (es & -> & K1 & K2).
  split; [|intros w]; rewrite in_app_iff; intros [H|H]; [exact (K1 H)|exact (H1 H)|exact (K2 w H)|exact (H2 w H)].
Qed.
(** Nothing is undefined as long as all threads could be made. *)
Theorem C100_safe s m : reached s -> orderly s m -> ~ In Failed (log s) -> exists s', step s m = Ok s'.
Proof. intros R O F. destruct (reached_tidy s R) as (T & _). exact (safe_step s m T O F). Qed.

(** After stop() every thread is done after at most four of its steps, whatever they give: it waits for nothing but a receive() and a procedure that is running. *)
Theorem C100_stop s ms : reached s -> stopped s -> Forall by_worker ms -> exists s', run s ms = Ok s' /\ forall w, In (Started w) (log s) -> (4 <= steps_of w ms)%nat -> In (Ended w) (log s').
Proof.
  intros R St Hm. destruct (reached_tidy s R) as (T & N). pose proof (stopped_settled s T N St) as Se. destruct (settled_run ms Hm s Se) as (s' & E & _ & _ & _ & _ & _ & F). exists s'. split; [exact E|].
  intros w Hw Hk. destruct (started_done s w T Hw) as (p & Hp). destruct (F w p Hp) as (q & Hq & L). pose proof (far_4 p). assert (far q = O) by lia. apply far_0 in H0. subst q.
  unfold state_of in Hq. destruct (nth_error (workers s') w) as [[x h]|] eqn:Ew; [|discriminate Hq]. injection Hq as ->.
  exact (c_done _ _ (i_core _ (inv_run ms s s' (t_inv _ T) E)) w h Ew).
Qed.
(** stop(), some steps of each thread, join(): join() returns. *)
Theorem C100_shutdown s ms : reached s -> owner s = Idle -> closers s = [] -> gone s = false -> ~ In Failed (log s) -> Forall by_worker ms -> (forall w, In (Started w) (log s) -> (4 <= steps_of w ms)%nat) ->
  exists s', run s ((M_stop :: repeat (M_close 0) 4) ++ ms ++ M_join :: repeat (M_owner 0 true) (S (length (slots s)))) = Ok s' /\ hd_error (log s') = Some Joined.
Proof.
  intros R Ho Hc Hg Hf Hm Hk. destruct (reached_tidy s R) as (T & N). destruct (stop_ends s T Hc Hg Ho) as (s1 & E1 & St & Ho1 & Hs1 & Hw1 & _ & Hl1). specialize (Hl1 N).
  assert (app_run : forall a b x y, run x a = Ok y -> run x (a ++ b) = run y b).
  { induction a as [|m a IH]; intros b x y H; [now injection H as ->|]. cbn [run app] in *. destruct (step x m); try discriminate H. now apply IH. }
  assert (R1 : tidy s1 /\ net s1).
  { assert (G : forall a x y, Forall (fun m => m = M_stop \/ exists k, m = M_close k) a -> (forall f k, owner x <> Opening f /\ owner x <> Assign k f) -> tidy x -> net x -> run x a = Ok y -> tidy y /\ net y).
    { induction a as [|m a IH]; intros x y Ha Hx Tx Nx H; [injection H as <-; now split|]. cbn [run] in H. destruct (step x m) as [z| | |] eqn:Ez; try discriminate H.
      assert (Ox : orderly x m) by (destruct (Forall_inv Ha) as [->|(k & ->)]; cbn [orderly]; [|exact I]; destruct (owner x) as [|k|g k| | |] eqn:Eo; auto; [exact (proj1 (Hx k 0) eq_refl)|exact (proj2 (Hx k g) eq_refl)]).
      apply (IH z y (Forall_inv_tail Ha)); [|exact (tidy_step x m z Tx Ox Ez)|exact (net_step x m z Tx Nx Ox Ez)|exact H].
      assert (Eo : owner z = owner x).
      { destruct (Forall_inv Ha) as [->|(k & ->)]; cbn [step] in Ez.
        - destruct (gone x); injection Ez as <-; [reflexivity|]. unfold begin_close. now destruct (fd (set_flag x false) <? 0).
        - unfold close_step in Ez. destruct (nth_error (closers x) k) as [[own c]|]; [|now injection Ez as <-]. destruct (gone x); [discriminate Ez|]. cbv zeta in Ez.
          destruct c as [| |f|]; injection Ez as <-; cbn; try reflexivity; [now destruct (files x (fd x))|now destruct (files x f)]. }
      rewrite Eo. exact Hx. }
    refine (G _ s s1 _ _ T N E1); [|intros f k; rewrite Ho; split; discriminate]. constructor; [now left|]. apply Forall_forall. intros m Hi. apply repeat_spec in Hi. right. now exists O. }
  destruct R1 as (T1 & N1). pose proof (stopped_settled s1 T1 N1 St) as Se. destruct (settled_run ms Hm s1 Se) as (s2 & E2 & Se2 & Hs2 & Ho2 & Hc2 & Hl2 & F).
  rewrite (app_run _ _ _ _ E1), (app_run _ _ _ _ E2).
  assert (T2 : tidy s2).
  { assert (G : forall a x y, Forall by_worker a -> tidy x -> run x a = Ok y -> tidy y).
    { induction a as [|m a IH]; intros x y Ha Tx H; [now injection H as <-|]. cbn [run] in H. destruct (step x m) as [z| | |] eqn:Ez; try discriminate H. apply (IH z y (Forall_inv_tail Ha)); [|exact H].
      apply (tidy_step x m z Tx); [|exact Ez]. pose proof (Forall_inv Ha) as Hb. destruct m; try contradiction Hb. exact I. }
    exact (G ms s1 s2 Hm T1 E2). }
  destruct St as (_ & _ & Hc1 & Hg1 & _). pose proof Se2 as (_ & Hg2 & _). cbn [run step]. rewrite Ho2, Ho1, Hg2. cbn [negb obind].
  assert (Ej : step s2 M_join = Ok (set_owner s2 (Joining 0 false))) by (cbn [step]; rewrite Ho2, Ho1, Hg2; reflexivity).
  destruct (join_all (length (slots s)) (set_owner s2 (Joining 0 false)) 0) as (s3 & E3 & L3).
  - exact (tidy_step s2 M_join _ T2 I Ej).
  - cbn. congruence.
  - reflexivity.
  - cbn [slots set_owner]. rewrite Hs2, Hs1. intros H. pose proof (t_shape _ T) as Q. rewrite Ho in Q. exact (Hf (Q H)).
  - intros w q Hq. change (state_of s2 w = Some q) in Hq.
    assert (Hst : exists p, state_of s1 w = Some p).
    { assert (G : forall a x y, Forall by_worker a -> run x a = Ok y -> length (workers y) = length (workers x)).
      { induction a as [|m a IH]; intros x y Ha H; [now injection H as <-|]. cbn [run] in H. destruct (step x m) as [z| | |] eqn:Ez; try discriminate H. rewrite (IH z y (Forall_inv_tail Ha) H).
        pose proof (Forall_inv Ha) as Hb. destruct m as [| | | | | | | |v a'|]; try contradiction Hb. cbn [step] in Ez. unfold worker_step in Ez. destruct (nth_error (workers x) v) as [[p h]|]; [|now injection Ez as <-].
        destruct p as [| |f|l| | | |]; [..|now injection Ez as <-]; (destruct (gone x); [discriminate Ez|]); cbv zeta in Ez; destruct (flag x); try destruct l as [l|]; try destruct (down x l); destruct a' as [| |[]|];
          injection Ez as <-; cbn; rewrite ?put_length; reflexivity. }
      unfold state_of in *. pose proof (G ms s1 s2 Hm E2) as L. destruct (nth_error (workers s2) w) as [z|] eqn:Ez; [|discriminate Hq]. apply nth_lt in Ez. rewrite L in Ez. apply nth_error_Some in Ez.
      destruct (nth_error (workers s1) w) as [z'|]; [now exists (fst z')|congruence]. }
    destruct Hst as (p & Hp). destruct (F w p Hp) as (q' & Hq' & L). assert (q' = q) as -> by congruence. destruct (Nat.eq_dec (far p) 0) as [Z0|Z0]; [apply far_0; lia|].
    assert (Hstarted : In (Started w) (log s)).
    { assert (H : forall s0, reached s0 -> forall v, (v < length (workers s0))%nat -> In (Started v) (log s0)).
      { clear. induction 1 as [|x m y R IH O E]; intros v Hv; [cbn in Hv; lia|]. exact (started_in x m y IH E v Hv). }
      apply (H s R). unfold state_of in Hp. rewrite Hw1 in Hp. destruct (nth_error (workers s) w) eqn:Ez; [|discriminate Hp]. exact (nth_lt _ _ _ Ez). }
    specialize (Hk w Hstarted). pose proof (far_4 p). apply far_0. lia.
  - cbn [slots set_owner]. rewrite Hs2, Hs1. reflexivity.
  - exists s3. split; [exact E3|]. now rewrite L3.
Qed.

(** *** Histories *)
(** create() and run(n, false) *)
Definition make : list move := [M_create; M_owner 3 true; M_owner 0 true].
Definition start (n : nat) : list move := M_run (Z.of_nat n) false :: repeat (M_owner 0 true) (S n).
Definition stop : list move := M_stop :: repeat (M_close 0) 4.
(** a thread takes a connection and waits for a request *)
Definition serve (w : nat) : list move := [M_worker w Fails; M_worker w Fails; M_worker w Fails; M_worker w Connects; M_worker w Fails].
Definition logged (ms : list move) : outcome (list event) := omap log (run fresh ms).
(** a decidable form of [orderly] *)
Fixpoint all_orderly (s : server) (ms : list move) : bool :=
  match ms with
  | [] => true
  | m :: r =>
      match m with
      | M_create | M_serv _ | M_destroy => match slots s, closers s with [], [] => true | _, _ => false end
      | M_run _ _ => match slots s with [] => true | _ => false end
      | M_stop => match owner s with Opening _ | Assign _ _ => false | _ => true end
      | M_theirs _ => false
      | _ => true
      end && match step s m with Ok s1 => all_orderly s1 r | _ => false end
  end.
Lemma all_orderly_reached ms : forall s, reached s -> all_orderly s ms = true -> exists s', run s ms = Ok s' /\ reached s'.
Proof.
  induction ms as [|m ms IH]; intros s R H; [exists s; now split|]. cbn [all_orderly] in H. apply andb_prop in H. destruct H as (H1 & H2). destruct (step s m) as [s1| | |] eqn:E; try discriminate H2.
  assert (O : orderly s m).
  { destruct m; cbn [orderly]; try exact I; try discriminate H1; try (destruct (slots s); [|discriminate H1]; destruct (closers s); [now split|discriminate H1]).
    - destruct (slots s); [reflexivity|discriminate H1].
    - destruct (owner s); try exact I; discriminate H1. }
  destruct (IH s1 (re_step s m s1 R O E) H2) as (s' & E' & R'). exists s'. cbn [run]. rewrite E. now split.
Qed.
(** Two threads; one serves a request; stop, join, and the whole once more *)
Example C100_nonvacuous : exists s, run fresh (make ++ start 2 ++ serve 1 ++ [M_worker 1 (Message true)] ++ stop) = Ok s /\ reached s /\ stopped s /\ In (Took 1 (Some 0%nat)) (log s) /\ ~ In Failed (log s) /\
  state_of s 1 = Some Busy /\ state_of s 0 = Some Check.
Proof.
  destruct (all_orderly_reached (make ++ start 2 ++ serve 1 ++ [M_worker 1 (Message true)] ++ stop) fresh re_fresh ltac:(vm_compute; reflexivity)) as (s & E & R). exists s. split; [exact E|]. split; [exact R|].
  assert (G : match run fresh (make ++ start 2 ++ serve 1 ++ [M_worker 1 (Message true)] ++ stop) with
    | Ok s => (flag s, fd s, closers s, gone s, owner s, log s, state_of s 1, state_of s 0) = (false, -1, [], false, Idle, [Took 1 (Some 0%nat); Running true; Started 1; Started 0; Asked 2; Created true], Some Busy, Some Check)
    | _ => False end) by (vm_compute; reflexivity).
  rewrite E in G. injection G as G1 G2 G3 G4 G5 G6 G7 G8. unfold stopped. rewrite G1, G2, G3, G4, G5, G6, G7, G8. repeat split; try lia; [now left|]. intros [H|[H|[H|[H|[H|[H|[]]]]]]]; discriminate H.
Qed.
Example C100_shutdown_nonvacuous :
  logged (make ++ start 2 ++ serve 1 ++ stop ++ repeat (M_worker 0 Fails) 4 ++ repeat (M_worker 1 Ends) 4 ++ M_join :: repeat (M_owner 0 true) 3 ++ make ++ start 1) =
  Ok [Running true; Started 2; Asked 1; Created true; Joined; Ended 1; Ended 0; Took 1 (Some 0%nat); Running true; Started 1; Started 0; Asked 2; Created true].
Proof. vm_compute. reflexivity. Qed.

(** *** What fails *)
(** join() after a run() that could not make all its threads follows a null pointer. *)
Theorem C100_join_safe_refuted : ~ (forall ms s, run fresh ms = Ok s -> owner s = Idle -> gone s = false -> forall k, run s (M_join :: repeat (M_owner 0 true) k) <> UB).
Proof.
  intros H. set (ms := make ++ [M_run 3 false; M_owner 0 true; M_owner 0 false] ++ repeat (M_close 0) 4 ++ [M_worker 0 Fails; M_owner 0 true; M_owner 0 true]).
  assert (G : match run fresh ms with Ok s => (owner s, gone s) = (Idle, false) /\ run s (M_join :: repeat (M_owner 0 true) 3) = UB | _ => False end) by (vm_compute; auto).
  specialize (H ms). destruct (run fresh ms) as [s| | |]; try contradiction. destruct G as ([= G1 G2] & G3). exact (H s eq_refl G1 G2 3%nat G3).
Qed.
(** A server that was stopped but not joined must not be destroyed: its threads go on using it. *)
Theorem C100_destroy_refuted : ~ (forall ms s, run fresh ms = Ok s -> stopped s -> owner s = Idle -> forall w a, run s [M_destroy; M_worker w a] <> UB).
Proof.
  intros H. set (ms := make ++ start 1 ++ stop).
  assert (G : match run fresh ms with Ok s => (flag s, fd s, closers s, gone s, owner s) = (false, -1, [], false, Idle) /\ run s [M_destroy; M_worker 0 Fails] = UB | _ => False end) by (vm_compute; auto).
  specialize (H ms). destruct (run fresh ms) as [s| | |]; try contradiction. destruct G as ([= G1 G2 G3 G4 G5] & G6). refine (H s eq_refl _ G5 0%nat Fails G6). unfold stopped. rewrite G1, G2, G3, G4, G5. repeat split; lia.
Qed.
(** join() returns although a client keeps its connection open and says nothing: not so. *)
Definition winding (m : move) : Prop := match m with M_join | M_owner _ _ | M_stop | M_close _ | M_worker _ _ => True | _ => False end.
Theorem C100_silent_client_refuted : ~ (forall s, reached s -> stopped s -> ~ In Failed (log s) -> exists ms s',
  Forall winding ms /\ (forall w a, In (M_worker w a) ms -> state_of s w <> Some Reading) /\ run s ms = Ok s' /\ In Joined (log s')).
Proof.
  intros H. destruct (all_orderly_reached (make ++ start 1 ++ serve 0 ++ stop) fresh re_fresh ltac:(vm_compute; reflexivity)) as (s & E & R). specialize (H s R).
  assert (G : match run fresh (make ++ start 1 ++ serve 0 ++ stop) with
    | Ok s => (flag s, fd s, closers s, gone s, owner s, log s, slots s, workers s) = (false, -1, [], false, Idle, [Took 0 (Some 0%nat); Running true; Started 0; Asked 1; Created true], [Obj (Some 0%nat)], [(Reading, Joinable)])
    | _ => False end) by (vm_compute; reflexivity).
  rewrite E in G. injection G as G1 G2 G3 G4 G5 G6 G7 G8. destruct H as (ms & s' & Hw & Hn & Er & Hj).
  - unfold stopped. rewrite G1, G2, G3, G4, G5. repeat split; lia.
  - rewrite G6. intros [H|[H|[H|[H|[H|[]]]]]]; discriminate H.
  - assert (Z0 : forall w a, In (M_worker w a) ms -> w <> 0%nat) by (intros w a Hi ->; apply (Hn _ _ Hi); unfold state_of; now rewrite G8).
    assert (Q : fd s < 0 /\ closers s = [] /\ (owner s = Idle \/ owner s = Joining 0 false) /\ slots s = [Obj (Some 0%nat)] /\ workers s = [(Reading, Joinable)] /\ ~ In Joined (log s)).
    { rewrite G2, G3, G5, G6. split; [lia|]. split; [reflexivity|]. split; [now left|]. split; [exact G7|]. split; [exact G8|]. intros [H|[H|[H|[H|[H|[]]]]]]; discriminate H. }
    clear - Hw Z0 Er Hj Q. revert s Er Q. induction ms as [|m ms IH]; intros s Er (Q1 & Q2 & Q3 & Q4 & Q5 & Q6); [injection Er as <-; exact (Q6 Hj)|].
    cbn [run] in Er. destruct (step s m) as [s1| | |] eqn:E1; try discriminate Er.
    apply (IH (Forall_inv_tail Hw) (fun w a Hi => Z0 w a (or_intror Hi)) s1 Er). pose proof (Forall_inv Hw) as Hm. destruct m as [| | | | |f ok| |k|w a|]; try contradiction Hm; cbn [step] in E1.
    + injection E1 as <-. destruct Q3 as [Q3|Q3]; rewrite Q3; [destruct (negb (gone s)); [cbn; auto 10|repeat split; auto]|repeat split; auto].
    + unfold owner_step, owner_closes in E1. rewrite Q2 in E1. cbn [existsb] in E1. destruct Q3 as [Q3|Q3]; rewrite Q3 in E1; [injection E1 as <-; repeat split; auto|]. rewrite Q4 in E1. cbn [nth_error] in E1. rewrite Q5 in E1. cbn [nth_error] in E1.
      injection E1 as <-. repeat split; auto.
    + destruct (gone s); injection E1 as <-; [repeat split; auto|]. unfold begin_close. cbn [fd set_flag]. rewrite (proj2 (Z.ltb_lt _ _) Q1). cbn. auto 10.
    + unfold close_step in E1. rewrite Q2 in E1. replace (nth_error [] k) with (@None (bool * cpc)) in E1 by (destruct k; reflexivity). injection E1 as <-. repeat split; auto.
    + pose proof (Z0 w a (or_introl eq_refl)) as Hw0. unfold worker_step in E1. rewrite Q5 in E1. destruct w as [|w]; [congruence|]. replace (nth_error [(Reading, Joinable)] (S w)) with (@None (wpc * life)) in E1 by (destruct w; reflexivity).
      injection E1 as <-. repeat split; auto.
Qed.
(** Without join() before the next run() the old threads come back to life. *)
Theorem C100_restart_refuted : ~ (forall ms s, run fresh ms = Ok s -> no_more (log s)).
Proof.
  intros H. set (ms := make ++ start 1 ++ stop ++ make ++ start 1 ++ serve 0). assert (G : match run fresh ms with Ok s => log s =
    [Took 0 (Some 1%nat); Running true; Started 1; Left 0; Asked 1; Created true; Running true; Started 0; Asked 1; Created true] | _ => False end) by (vm_compute; reflexivity).
  specialize (H ms). destruct (run fresh ms) as [s| | |]; try contradiction. specialize (H s eq_refl [0%nat; 1%nat]). rewrite G in H. cbn [length asked] in H.
  assert (2 <= 1)%nat; [|lia]. apply H; [repeat constructor; cbn; intuition discriminate|]. apply Forall_cons; [|apply Forall_cons; [|apply Forall_nil]]; unfold serving; cbn [In]; (split; [tauto|]); intros K; repeat (destruct K as [K|K]; [discriminate K|]); exact K.
Qed.
(** A thread that has read the descriptor when stop() closes it uses whatever has the number then, such as a listener of another server. *)
Theorem C100_stranger_refuted : ~ (forall ms s w, run fresh ms = Ok s -> ~ In (Took w None) (log s)).
Proof.
  intros H. set (ms := make ++ start 1 ++ [M_worker 0 Fails; M_worker 0 Fails] ++ stop ++ [M_theirs 3; M_worker 0 Fails; M_worker 0 Connects]).
  assert (G : match run fresh ms with Ok s => hd_error (log s) = Some (Took 0 None) | _ => False end) by (vm_compute; reflexivity).
  specialize (H ms). destruct (run fresh ms) as [s| | |]; try contradiction. apply (H s 0%nat eq_refl). destruct (log s); [discriminate G|]. injection G as ->. now left.
Qed.
(** Two calls of stop() at a time may close somebody else's descriptor. *)
Theorem C100_double_stop_refuted : ~ (forall ms s, run fresh ms = Ok s -> ~ In Shut_other (log s)).
Proof.
  intros H. set (ms := make ++ start 1 ++ [M_stop; M_stop; M_close 0; M_close 1; M_close 0; M_close 1; M_close 0; M_theirs 3; M_close 1]).
  assert (G : match run fresh ms with Ok s => hd_error (log s) = Some Shut_other | _ => False end) by (vm_compute; reflexivity).
  specialize (H ms). destruct (run fresh ms) as [s| | |]; try contradiction. apply (H s eq_refl). destruct (log s); [discriminate G|]. injection G as ->. now left.
Qed.
(** serv() on a running server returns false, but has closed its port and opened the new one, which the threads serve from then on. *)
Theorem C100_serv_refuted : ~ (forall ms s n ms' s', run fresh ms = Ok s -> run s (M_serv n :: ms') = Ok s' -> hd_error (log s') = Some (Running false) -> fd s' = fd s).
Proof.
  intros H. set (ms := make ++ start 1). set (ms' := M_owner 4 true :: repeat (M_close 0) 4 ++ [M_owner 0 true]).
  assert (G : match run fresh ms with Ok s => match run s (M_serv 1 :: ms') with Ok s' => (hd_error (log s'), fd s, fd s') = (Some (Running false), 3, 4) | _ => False end | _ => False end) by (vm_compute; reflexivity).
  specialize (H ms). destruct (run fresh ms) as [s| | |]; try contradiction. specialize (H s 1 ms'). destruct (run s (M_serv 1 :: ms')) as [s'| | |]; try contradiction. injection G as G1 G2 G3.
  specialize (H s' eq_refl eq_refl G1). lia.
Qed.
(** run() with a negative number throws, and leaves the server "running" without a thread. *)
Theorem C100_negative_refuted : ~ (forall ms s, run fresh ms = Ok s -> hd_error (log s) = Some Thrown -> flag s = false).
Proof.
  intros H. set (ms := make ++ [M_run (-1) true]). assert (G : match run fresh ms with Ok s => (hd_error (log s), flag s) = (Some Thrown, true) | _ => False end) by (vm_compute; reflexivity).
  specialize (H ms). destruct (run fresh ms) as [s| | |]; try contradiction. injection G as G1 G2. specialize (H s eq_refl G1). congruence.
Qed.

Print Assumptions C100_join.
Print Assumptions C100_threads.
Print Assumptions C100_own.
Print Assumptions C100_safe.
Print Assumptions C100_stop.
Print Assumptions C100_shutdown.
Print Assumptions C100_join_safe_refuted.
Print Assumptions C100_destroy_refuted.
Print Assumptions C100_silent_client_refuted.
Print Assumptions C100_restart_refuted.
Print Assumptions C100_stranger_refuted.
Print Assumptions C100_double_stop_refuted.
Print Assumptions C100_serv_refuted.
Print Assumptions C100_negative_refuted.
