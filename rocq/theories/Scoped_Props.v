(** C108: scoped_ptr. *)
From Verif Require Import Common Scoped_Spec Scoped_Model Scoped_Proof.

(** Whatever is done with any number of scoped_ptrs, if no address is handed over twice: no object is deleted
    twice or before it was given, and what has been given and not deleted is held by exactly one scoped_ptr. *)
Theorem C108_once_partial : forall os h, all_fair empty os -> run empty os = Ok h ->
  proper (log h) /\
  (forall k, (exists i, ptrs h i = Some (Some k)) <-> In (Given k) (log h) /\ ~ In (Deleted k) (log h)) /\
  (forall i j k, ptrs h i = Some (Some k) -> ptrs h j = Some (Some k) -> i = j).
Proof.
  intros os h HF E. pose proof (inv_run os _ _ inv_empty HF E) as H. split; [apply (i_proper _ H)|]. split; [|apply (i_one _ H)].
  intros k. rewrite (i_held _ H). split.
  - intros X. split; [|now apply life_held]. assert (Y : In (Given k) (life k (log h))) by (rewrite X; now left). now apply filter_In in Y.
  - intros [X Y]. destruct (i_proper _ H k) as [Z|[Z|Z]]; fold (life k (log h)) in Z; [|exact Z|].
    + apply life_none in Z. tauto.
    + exfalso. apply Y. assert (W : In (Deleted k) (life k (log h))) by (rewrite Z; right; now left). now apply filter_In in W.
Qed.
(** Hence when all scoped_ptrs are gone all that they were given is deleted, once. *)
Theorem C108_released_partial : forall os h, all_fair empty os -> run empty os = Ok h -> (forall i, ptrs h i = None) -> proper (log h) /\ released (log h).
Proof.
  intros os h HF E HN. destruct (C108_once_partial os h HF E) as (P & Q & _). split; [exact P|]. intros k Hk.
  destruct (in_dec (ltac:(decide equality; apply Nat.eq_dec) : forall x y : event, {x = y} + {x <> y}) (Deleted k) (log h)) as [X|X]; [exact X|].
  exfalso. destruct (proj2 (Q k) (conj Hk X)) as (i & Y). rewrite HN in Y. discriminate.
Qed.
(** And nothing is undefined but the use of a null pointer. *)
Theorem C108_safe_partial : forall os h o, all_fair empty os -> run empty os = Ok h -> fair h o -> step h o = UB -> exists i, o = Deref i /\ ptrs h i = Some None.
Proof.
  intros os h o HF E Hf Eu. pose proof (inv_run os _ _ inv_empty HF E) as H. destruct (inv_step h o H Hf) as [(h' & X & _)|[_ X]]; [congruence|exact X].
Qed.
Definition example : list op := [Make 0 New; Make 1 Null; Fresh; Swap 0 1; Reset 1 (Raw 1); Deref 1; Reset 0 New; Swap 0 0; Swap 1 0; Destroy 1; Reset 0 Null; Destroy 0].
Example C108_once_nonvacuous : all_fair empty example /\ exists h, run empty example = Ok h /\ log h = [Given 0; Given 1; Deleted 0; Given 2; Deleted 2; Deleted 1].
Proof. split; [cbn; intuition (try lia; try discriminate)|]. eexists. split; vm_compute; reflexivity. Qed.
Example C108_once_excludes : ~ proper [Given 0; Deleted 0; Deleted 0] /\ ~ proper [Deleted 0] /\ ~ released [Given 0].
Proof.
  split; [|split]; intros H; [specialize (H 0)|specialize (H 0)|destruct (H 0) as [X|X]; cbn; auto; discriminate X]; cbn in H; destruct H as [X|[X|X]]; discriminate X.
Qed.

(** Without the guard it is false: reset(get()) deletes the object that it keeps, *)
Theorem C108_reset_refuted : exists h, run empty [Make 0 New; Reset 0 (Raw 0)] = Ok h /\ ptrs h 0%nat = Some (Some 0%nat) /\ alive h = [] /\ step h (Deref 0) = UB /\ step h (Destroy 0) = UB.
Proof. eexists. split; [vm_compute; reflexivity|]. cbn. auto. Qed.
(** and two scoped_ptrs with one address delete it twice. *)
Theorem C108_two_refuted : run empty [Make 0 New; Make 1 (Raw 0); Destroy 0; Destroy 1] = UB.
Proof. reflexivity. Qed.

(** A scoped_ptr is true when it is not null, also when it is compared with a bool. *)
Theorem C108_bool : forall p b, equal_bool p b = true <-> ((p <> None) <-> b = true).
Proof. intros [k|] [|]; unfold equal_bool; cbn; intuition (congruence || discriminate). Qed.
Example C108_bool_nonvacuous : equal_bool (Some 3%nat) true = true /\ equal_bool None true = false /\ equal_bool None false = true.
Proof. auto. Qed.

Print Assumptions C108_once_partial.
Print Assumptions C108_released_partial.
Print Assumptions C108_safe_partial.
Print Assumptions C108_reset_refuted.
Print Assumptions C108_two_refuted.
Print Assumptions C108_bool.
