From Verif Require Import Common Mutex_Model Mutex_Spec Mutex_Proof.

(** At any moment of any execution at most one thread holds the mutex.  (Every prefix of a
    schedule is a schedule, so this is about every moment.)  For a plain mutex the callers must
    only unlock what they have locked. *)
Theorem C49_mutual_exclusion : forall recursive sched s h, run sched (init recursive) = Some (s, h) -> (recursive = false -> disciplined h) ->
  forall t u, holds t h -> holds u h -> t = u.
Proof. exact mutex_exclusion. Qed.
(** unlock() returns true exactly when the caller has a lock to give up, so the matching number of unlocks succeeds and no more. *)
Theorem C49_unlock_result : forall recursive sched s h, run sched (init recursive) = Some (s, h) -> (recursive = false -> disciplined h) ->
  forall h1 t r h2, h = h1 ++ Unlocked t r :: h2 -> (r = true <-> 0 < depth t h1).
Proof. intros rc sched s h E Hd h1 t r h2 Heq. eapply (mutex_results rc sched s h E Hd h1 t r h2). auto. Qed.
(** Once nobody holds it, and nobody is in the middle of a call, any thread that asks gets it; the
    threads asleep in a wait do not hold it. *)
Theorem C49_released : forall recursive sched s h, run sched (init recursive) = Some (s, h) -> (recursive = false -> disciplined h) ->
  (forall t, pcs s t = Idle \/ exists x c, pcs s t = WtA x c) -> (forall t, ~ holds t h) ->
  forall u, pcs s u = Idle -> exists sched' s', run (map (pair u) sched') s = Some (s', [Locked u]).
Proof. exact mutex_available. Qed.
(** The pthread mutex is never unlocked by a thread that does not own it. *)
Theorem C49_no_undefined : forall recursive sched s h, run sched (init recursive) = Some (s, h) -> (recursive = false -> disciplined h) ->
  forall t, pcs s t <> Undefined.
Proof. exact mutex_no_undefined. Qed.

(** wait waits exactly when the caller holds the mutex. *)
Theorem C50_wait_result : forall recursive sched s h, run sched (init recursive) = Some (s, h) -> (recursive = false -> disciplined h) ->
  forall h1 t r h2, h = h1 ++ Waited t r :: h2 -> (r = true <-> 0 < depth t h1).
Proof. intros rc sched s h E Hd h1 t r h2 Heq. eapply (mutex_results rc sched s h E Hd h1 t r h2). auto. Qed.
(** While it sleeps it does not hold the mutex, whatever its depth; with C49_released, others can take it. *)
Theorem C50_asleep_released : forall recursive sched s h, run sched (init recursive) = Some (s, h) -> (recursive = false -> disciplined h) ->
  forall t x c, pcs s t = WtA x c -> waiting t h = true /\ ~ holds t h.
Proof. exact asleep_released. Qed.
(** When it returns it holds the mutex, alone, as deep as when it called. *)
Theorem C50_wait_returns_holding : forall recursive sched s h, run sched (init recursive) = Some (s, h) -> (recursive = false -> disciplined h) ->
  forall h1 t h2 h3, h = h1 ++ Wait t :: h2 ++ Waited t true :: h3 -> (forall b, ~ In (Waited t b) h2) ->
  depth t (h1 ++ Wait t :: h2 ++ [Waited t true]) = depth t h1 /\ holds t (h1 ++ Wait t :: h2 ++ [Waited t true]) /\
  forall u, u <> t -> ~ holds u (h1 ++ Wait t :: h2 ++ [Waited t true]).
Proof. exact wait_returns. Qed.

(** A recursive mutex locked twice by thread 1, which waits; thread 2 takes it, is refused nothing,
    gives it back; thread 1 wakes, and needs two unlocks; a third is refused. *)
Definition ex_lock1 : list choice := [CallLock; Go; Go; Go; Go; Go].
Definition ex_relock : list choice := [CallLock; Go; Go; Go; Go].
Definition ex_unlock : list choice := [CallUnlock; Go; Go; Go; Go].
Definition ex_unlock_last : list choice := [CallUnlock; Go; Go; Go; Go; Go; Go].
Definition ex_wait : list choice := [CallWait; Go; Go; Go; Go; Go; Go].
Definition ex_wake : list choice := [Wake; Go; Go; Go].
Definition ex_sched : list (tid * choice) :=
  map (pair 1%positive) (ex_lock1 ++ ex_relock ++ ex_wait) ++ map (pair 2%positive) (ex_lock1 ++ ex_unlock_last)
  ++ map (pair 1%positive) (ex_wake ++ ex_unlock ++ ex_unlock_last ++ [CallUnlock; Go; Go]).
Example C49_nonvacuous : option_map snd (run ex_sched (init true)) =
  Some [Locked 1; Locked 1; Wait 1; Locked 2; Unlock 2; Unlocked 2 true; Waited 1 true; Unlock 1; Unlocked 1 true; Unlock 1; Unlocked 1 true; Unlock 1; Unlocked 1 false]%positive.
Proof. vm_compute. reflexivity. Qed.
(** With a plain mutex, contended. *)
Example C49_plain : option_map snd (run (map (pair 1%positive) [CallLock; Go; Go; Go] ++ map (pair 2%positive) [CallLock; Go] ++ map (pair 1%positive) [CallUnlock; Go; Go; Go]
    ++ map (pair 2%positive) [Go; Go]) (init false)) = Some [Locked 1; Unlock 1; Unlocked 1 true; Locked 2]%positive
  /\ disciplined [Locked 1; Unlock 1; Unlocked 1 true; Locked 2]%positive.
Proof.
  split; [vm_compute; reflexivity|]. intros h1 t h2 E. destruct h1 as [|a [|b [|c [|d [|e h1]]]]]; try discriminate E; injection E; intros; subst; cbn; auto; try discriminate.
Qed.
Example C50_plain_wait : option_map snd (run (map (pair 1%positive) [CallLock; Go; Go; Go; CallWait; Go; Go; Go; Go] ++ map (pair 2%positive) [CallLock; Go; Go; Go]
   ++ map (pair 2%positive) [CallUnlock; Go; Go; Go] ++ map (pair 1%positive) [Wake; Go; Go; Go; CallUnlock; Go; Go; Go]) (init false))
  = Some [Locked 1; Wait 1; Locked 2; Unlock 2; Unlocked 2 true; Waited 1 true; Unlock 1; Unlocked 1 true]%positive.
Proof. vm_compute. reflexivity. Qed.
(** The discipline is needed: a plain mutex unlocked by another thread is undefined behaviour. *)
Example C49_discipline_needed : match run (map (pair 1%positive) [CallLock; Go; Go; Go] ++ map (pair 2%positive) [CallUnlock; Go; Go; Go]) (init false) with
  | Some (s, _) => pcs s 2%positive = Undefined | None => False end.
Proof. vm_compute. reflexivity. Qed.
Print Assumptions C49_mutual_exclusion.
Print Assumptions C49_unlock_result.
Print Assumptions C49_released.
Print Assumptions C49_no_undefined.
Print Assumptions C50_wait_result.
Print Assumptions C50_asleep_released.
Print Assumptions C50_wait_returns_holding.
