(** C119: scoped locks and synchronized blocks. *)
From Verif Require Import Common ScopedLock_Model ScopedLock_Spec ScopedLock_Proof.
Local Open Scope Z_scope.

(** However the program ends - at its end, by return, by an exception, also one thrown by lock() - locks and unlocks are nested, and
    each lockable that was made is destroyed after its unlock. *)
Theorem C119_nested : forall lock unlock_throws p t k, run lock unlock_throws p [] = (t, k) -> k <> Dead -> nested t.
Proof. intros lock ut p t k E Hk. destruct (run_nested lock ut p [] t k E Hk) as (t' & -> & N). exact N. Qed.
Theorem C119_given_back : forall lock unlock_throws p t k i, run lock unlock_throws p [] = (t, k) -> k <> Dead -> held i t = 0 /\ alive i t = 0.
Proof.
  intros lock ut p t k i E Hk. assert (N : nested t) by exact (C119_nested lock ut p t k E Hk). split; [now apply nested_held|].
  assert (A : forall a b, alive i (a ++ b) = alive i a + alive i b) by (induction a as [|[j|j r|j|j|n] a IH]; intros b; cbn [app alive]; rewrite ?IH; lia).
  clear E Hk. induction N; cbn [alive]; rewrite ?A; cbn [alive]; try destruct (i =? i0); lia.
Qed.
(** Every step that stands in a block synchronized on i is done while i is held - also in programs that end badly. *)
Theorem C119_guarded : forall lock unlock_throws p t k i, guarded i p -> run lock unlock_throws p [] = (t, k) ->
  forall a n b, t = a ++ EAct n :: b -> 1 <= held i a.
Proof.
  intros lock ut p t k i G E a n b Et. destruct (run_closed lock ut i p [] t k E) as (t' & H & _ & C). cbn [app] in H. subst t'.
  apply (gc_spec i a 0 n b). rewrite <- Et. now apply C.
Qed.
(** When every lock is had, the blocks run; only an unlock that throws or an empty unique_ptr ends the program. *)
Theorem C119_runs : forall lock p, (forall h i, lock h i = Yes) -> straight p ->
  exists t, run lock (fun _ _ => false) p [] = (t, Go) /\ acts t = steps p.
Proof. intros lock p L S. exact (run_steps lock p L S []). Qed.
Theorem C119_alive : forall lock p, no_null p -> snd (run lock (fun _ _ => false) p []) <> Dead.
Proof. intros lock p N. now apply run_alive. Qed.
(** When lock() says no, the block is not entered. *)
Theorem C119_refused : forall lock unlock_throws w b e, (forall h i, lock h i = No) -> subject w <> None ->
  snd (run lock unlock_throws (Scope w b Raise) []) = Exn /\ acts (fst (run lock unlock_throws (Scope w b e) [])) = acts (fst (run lock unlock_throws e (fst (make lock w [])))).
Proof.
  intros lock ut w b e L Hw. destruct w as [i|[i|]]; cbn [run make subject] in *; rewrite ?L; cbn [bool_test need_unlock fst]; [| |congruence].
  all: split; [reflexivity|]; destruct (run lock ut e _) as [h []]; cbn [fst leave need_unlock drop_lp lp]; rewrite ?acts_app; cbn [acts flat_map]; now rewrite ?app_nil_r.
Qed.

Definition C119_program : stmt :=
  Try (Scope (Ref 1) (Seq (Act 10) (Scope (Own (Some 2)) (Seq (Act 11) (Scope (Ref 1) Raise (Act 99))) (Act 99))) (Act 98)) (Scope (Ref 1) (Act 12) Raise).
Definition C119_answers : list ev -> Z -> lres := fun h i => if (length h =? 5)%nat then No else Yes.
Example C119_nonvacuous : run (fun _ _ => Yes) (fun _ _ => false) C119_program [] =
  ([ELock 1 Yes; EAct 10; ENew 2; ELock 2 Yes; EAct 11; ELock 1 Yes; EUnlock 1; EUnlock 2; EDelete 2; EUnlock 1; ELock 1 Yes; EAct 12; EUnlock 1], Go) /\
  run C119_answers (fun _ _ => false) C119_program [] =
  ([ELock 1 Yes; EAct 10; ENew 2; ELock 2 Yes; EAct 11; ELock 1 No; EAct 99; EUnlock 2; EDelete 2; EUnlock 1], Go) /\ no_null C119_program.
Proof. split; [reflexivity|]. split; [reflexivity|]. cbn. intuition discriminate. Qed.
Example C119_guarded_nonvacuous : guarded 1 (Seq (Scope (Own (Some 1)) (Act 1) Raise) (Scope (Ref 2) (Scope (Ref 1) (Seq (Act 2) Return) Return) Return)).
Proof. cbn. intuition. Qed.
Example C119_runs_nonvacuous : straight (Seq (Try (Scope (Ref 1) (Act 1) Raise) Raise) (Scope (Own (Some 2)) (Act 2) Raise)).
Proof. cbn. intuition discriminate. Qed.
Example C119_bad_ends : snd (run (fun _ _ => Yes) (fun _ _ => false) (Scope (Own None) (Act 1) (Act 2)) []) = Dead /\
  run (fun _ _ => Yes) (fun _ _ => true) (Try (Scope (Ref 1) (Act 1) Raise) (Act 2)) [] = ([ELock 1 Yes; EAct 1; EUnlock 1], Dead).
Proof. split; reflexivity. Qed.

Print Assumptions C119_nested.
Print Assumptions C119_given_back.
Print Assumptions C119_guarded.
Print Assumptions C119_runs.
Print Assumptions C119_alive.
Print Assumptions C119_refused.
