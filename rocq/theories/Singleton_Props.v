(** C107: singleton<T>::instance(). *)
From Verif Require Import Common Singleton_Spec Singleton_Model Singleton_Proof.

(** Whatever the schedule, the number of threads, and whichever constructors throw: at most one object is
    made, every call that returns gives that object, and a call throws what the constructor threw in it. *)
Theorem C107_single : forall s, reached s -> single None (log s) /\ forall t, passed t false (log s).
Proof. intros s H. apply inv_reached in H. split; [apply (i_single _ H)|]. intros t. apply (i_pass _ H). Qed.
(** Hence any two calls give the same object. *)
Theorem C107_same : forall s t k t' k', reached s -> In (Got t k) (log s) -> In (Got t' k') (log s) -> k = k'.
Proof.
  intros s t k t' k' H. destruct (C107_single s H) as [S _]. revert S. generalize (log s). clear.
  assert (A : forall l j, single (Some j) l -> forall u i, In (Got u i) l -> i = j).
  { induction l as [|e l IH]; intros j S u i X; [destruct X|]. destruct X as [->|X]; [destruct S as [S _]; congruence|].
    destruct e; cbn [single] in S; try (destruct S as [E S]; try discriminate); eauto. }
  intros l S X X'. assert (B : forall c, single c l -> exists j, forall t k, In (Got t k) l -> k = j).
  { clear - A. induction l as [|e l IH]; intros c S; [exists 0; intros ? ? []|]. destruct c as [j|]; [exists j; eauto|].
    destruct e; cbn [single] in S; try (destruct S as [E S]; try discriminate).
    - exists k. intros u j [X|X]; [discriminate|]. eauto.
    - destruct (IH _ S) as (j & Hj). exists j. intros u i [X|X]; [discriminate|eauto].
    - destruct (IH _ S) as (j & Hj). exists j. intros u i [X|X]; [discriminate|eauto]. }
  destruct (B None S) as (j & Hj). rewrite (Hj _ _ X), (Hj _ _ X'). reflexivity.
Qed.
(** Three threads: the constructor throws in the first, which holds up the second. *)
Definition three : list move :=
  [M_init; M_call 0; M_call 1; M_lock 0 true; M_lock 1 true; M_go 0 true; M_call 2; M_go 0 false; M_lock 2 true; M_go 0 true;
   M_lock 1 true; M_go 1 true; M_go 1 true; M_lock 2 true; M_go 1 true; M_lock 2 true; M_go 2 true; M_go 2 true].
Example C107_single_nonvacuous : exists s, run start three = Ok s /\ log s = [Failed 0; Threw 0; Made 1 0; Got 1 0; Got 2 0].
Proof. eexists. split; vm_compute; reflexivity. Qed.
Example C107_single_excludes : ~ single None [Made 0 0; Made 1 1] /\ ~ single None [Made 0 0; Got 1 1] /\ ~ single None [Got 0 0] /\ ~ passed 0 false [Threw 0].
Proof. cbn. intuition discriminate. Qed.

(** A call that has the mutex ends within three steps of its own, whatever the others do, if the
    constructor of T does not call instance(). *)
Theorem C107_ends : forall s ms s' t, reached s -> holder s = Some t -> pcs s t <> Blocked -> ~ In (M_again t) ms -> run s ms = Ok s' -> (3 <= goes t ms)%nat ->
  (ended t (log s) < ended t (log s'))%nat.
Proof.
  intros s ms s' t H Hh Hb HA E HG. apply inv_reached in H. apply (i_lock _ H) in Hh.
  assert (T : todo t (ended t (log s)) 3 s). { right. split; [reflexivity|]. destruct (pcs s t) as [| | | |r|]; cbn in *; try contradiction; try lia. }
  apply (todo_run t _ ms 3 s s' HA E) in T. replace (3 - goes t ms)%nat with 0%nat in T by lia. destruct T as [T|[_ T]]; [exact T|lia].
Qed.
(** And a call that waits gets it as soon as nobody has it. *)
Theorem C107_enters : forall s t, when s = Ready -> pcs s t = Waiting -> holder s = None -> exists s', step s (M_lock t true) = Ok s' /\ holder s' = Some t.
Proof. intros s t Hw Hp Hh. unfold step. rewrite Hp, Hw, Hh. eexists. split; reflexivity. Qed.
Example C107_ends_nonvacuous : exists s s', run start [M_init; M_call 0; M_call 1; M_lock 1 true] = Ok s /\ holder s = Some 1%nat /\
  run s [M_go 1 true; M_lock 0 true; M_go 1 true; M_go 0 true; M_go 1 true] = Ok s' /\ ended 1 (log s') = 1%nat /\ holder s' = None.
Proof. eexists _, _. split; [vm_compute; reflexivity|]. split; [reflexivity|]. split; [vm_compute; reflexivity|]. split; reflexivity. Qed.

(** A constructor of T that calls instance() should get or make the object.  It waits for itself: its
    call and all others never end, whatever happens. *)
Theorem C107_recursion_refuted : forall s t ms s', reached s -> pcs s t = Blocked -> run s ms = Ok s' -> pcs s' t = Blocked /\ holder s' = Some t /\ log s' = log s.
Proof.
  intros s t ms s' H Hb E. apply inv_reached in H.
  assert (Hh : holder s = Some t) by (apply (i_lock _ H); rewrite Hb; exact I).
  assert (P : Inv s /\ pcs s t = Blocked /\ holder s = Some t /\ log s = log s) by auto.
  enough (Inv s' /\ pcs s' t = Blocked /\ holder s' = Some t /\ log s' = log s) by tauto.
  apply (run_inv (fun u => Inv u /\ pcs u t = Blocked /\ holder u = Some t /\ log u = log s)) with (2 := P) (3 := E). clear - Hb.
  intros u m u' (I0 & Pb & Ph & Pl) E. split; [eapply inv_step; eauto|].
  assert (A : forall v, inside (pcs u v) -> v = t) by (intros v X; apply (i_lock _ I0) in X; congruence).
  unfold step in E. destruct m as [| |v|v ok|v g|v].
  - destruct (when u); injection E as <-; auto.
  - destruct (when u); injection E as <-; auto.
  - destruct (pcs u v) eqn:Ep; try (injection E as <-; auto; fail). destruct (when u); try discriminate. injection E as <-. cbn. rewrite put_other by congruence. auto.
  - destruct (pcs u v) eqn:Ep; try (injection E as <-; auto; fail). destruct (when u); try discriminate. destruct ok; [|discriminate]. rewrite Ph in E. injection E as <-. auto.
  - specialize (A v). destruct (pcs u v) as [| | | |r|] eqn:Ep; try (injection E as <-; auto; fail); specialize (A Logic.I); congruence.
  - specialize (A v). destruct (pcs u v) as [| | | |r|] eqn:Ep; try (injection E as <-; auto; fail); specialize (A Logic.I); congruence.
Qed.
Example C107_recursion_nonvacuous : exists s, run start [M_init; M_call 0; M_lock 0 true; M_go 0 true; M_again 0] = Ok s /\ pcs s 0%nat = Blocked.
Proof. eexists. split; [vm_compute; reflexivity|reflexivity]. Qed.

(** A call should be good at any time.  Before the static mutex is made (from another static object), after
    it is gone, or if the mutex cannot be locked, it is undefined. *)
Theorem C107_before_refuted : run start [M_call 0] = UB.
Proof. reflexivity. Qed.
Theorem C107_after_refuted : run start [M_init; M_exit; M_call 0] = UB.
Proof. reflexivity. Qed.
Theorem C107_lock_refuted : run start [M_init; M_call 0; M_lock 0 false] = UB.
Proof. reflexivity. Qed.
(** Otherwise nothing is undefined. *)
Theorem C107_safe_partial : forall s m, reached s -> when s = Ready -> (forall t, m <> M_lock t false) -> step s m <> UB.
Proof.
  intros s m _ Hw Hm E. unfold step in E. rewrite Hw in E. destruct m as [| |t|t ok|t g|t]; try discriminate.
  - destruct (pcs s t); discriminate.
  - destruct ok; [|now apply (Hm t)]. destruct (pcs s t); try discriminate. destruct (holder s); discriminate.
  - destruct (pcs s t); try discriminate; [destruct (ptr s)|destruct g]; discriminate.
  - destruct (pcs s t); discriminate.
Qed.
Example C107_safe_nonvacuous : exists s, run start three = Ok s /\ when s = Ready /\ step s (M_call 0) <> UB.
Proof. eexists. split; [vm_compute; reflexivity|]. split; [reflexivity|discriminate]. Qed.

Print Assumptions C107_single.
Print Assumptions C107_same.
Print Assumptions C107_ends.
Print Assumptions C107_enters.
Print Assumptions C107_recursion_refuted.
Print Assumptions C107_before_refuted.
Print Assumptions C107_after_refuted.
Print Assumptions C107_lock_refuted.
Print Assumptions C107_safe_partial.
