(** Proofs about transactions. *)
From Verif Require Import Common Trans_Spec Trans_Model.
Local Open Scope Z_scope.

(** a block without transactions in it *)
Definition flat (b : list act) : Prop := Forall (fun a => match a with Sub _ => False | _ => True end) b.
Definition opened (st : list Z) (n : nat) : db := mkD n st (Some Auto).

Section Server.
Context (orc : nat -> req -> reply).
Lemma done_snoc t w b : done_writes (t ++ [(w, b)]) = done_writes t ++ (if b then [w] else []).
Proof. unfold done_writes. rewrite filter_app, map_app. destruct b; reflexivity. Qed.
Lemma block_body c unw b d : block c unw b d =
  match begin_ c d with
  | (V _, d) => let '(f, t, d) := body c unw b [] d in let (f, d) := finish c unw f d in (f, t, d)
  | (_, d) => (Thrown, [], d)
  end.
Proof.
  unfold block. cbn [act1]. destruct (begin_ c d) as [[[]| |] d1]; try reflexivity.
  match goal with |- context[?f b [] d1] => assert (E : forall l t d, f l t d = body c unw l t d) end.
  { induction l as [|a l IH]; intros t d2; cbn [body]; [reflexivity|]. destruct (act1 c unw a t d2) as [[[| |] t'] d']; auto. }
  rewrite E. reflexivity.
Qed.

(** * PostgreSQL *)
(** in the block: the transaction has the writes done, or has failed *)
Definition pg_in (st : list Z) (t : seen) (d : db) : Prop :=
  store d = st /\ (link d = Some (Trans (done_writes t)) /\ all_ok t \/
                   (link d = Some Failed \/ link d = Some Dead) /\ exists w, In (w, false) t).
Lemma pg_run_in w st t d : pg_in st t d -> let (r, d') := pg_run orc w d in pg_in st (t ++ [(w, match r with V _ => true | _ => false end)]) d'.
Proof.
  destruct d as [n s l]. unfold pg_in. cbn [store link]. intros [-> [[-> A]|[D [x X]]]]; unfold pg_run, bind, pg_ask, ask; cbn [calls store link].
  - destruct (orc n QPrepare) as [| |p]; cbn [apply set store link calls pg_fail fst].
    + destruct (orc (S n) QExec) as [| |p]; cbn [apply set store link calls pg_fail fst].
      * split; [reflexivity|]. left. rewrite done_snoc. split; [reflexivity|]. apply Forall_app. split; [exact A|repeat constructor].
      * split; [reflexivity|]. right. split; [auto|]. exists w. apply in_or_app. right. left. reflexivity.
      * split; [destruct p; reflexivity|]. right. split; [auto|]. exists w. apply in_or_app. right. left. reflexivity.
    + split; [reflexivity|]. right. split; [auto|]. exists w. apply in_or_app. right. left. reflexivity.
    + split; [destruct p; reflexivity|]. right. split; [auto|]. exists w. apply in_or_app. right. left. reflexivity.
  - assert (I : In (x, false) (t ++ [(w, false)])) by (apply in_or_app; left; exact X).
    destruct D as [-> | ->]; [|split; [reflexivity|]; right; split; [auto|exists x; exact I]].
    destruct (orc n QPrepare) as [| |p]; cbn [apply set store link calls pg_fail fst].
    + split; [reflexivity|]. right. split; [auto|]. exists x. exact I.
    + split; [reflexivity|]. right. split; [auto|]. exists x. exact I.
    + split; [destruct p; reflexivity|]. right. split; [auto|]. exists x. exact I.
Qed.
Lemma pg_body unw b : flat b -> forall st t d, pg_in st t d ->
  let '(f, t', d') := body (pg orc) unw b t d in pg_in st t' d' /\ f <> Terminated.
Proof.
  intros F. induction F as [|a b A F IH]; intros st t d I; cbn [body]; [split; [exact I|discriminate]|].
  destruct a as [w|w| |b']; cbn [act1]; try contradiction.
  - cbn [run_ pg]. pose proof (pg_run_in w st t d I) as R. destruct (pg_run orc w d) as [[[]| |] d']; try (split; [exact R|discriminate]). apply IH, R.
  - cbn [run_ pg]. pose proof (pg_run_in w st t d I) as R. destruct (pg_run orc w d) as [[[]| |] d']; apply IH, R.
  - split; [exact I|discriminate].
Qed.
Lemma pg_rollback_in st t d : pg_in st t d -> let (r, d') := pg_rollback orc d in store d' = st /\ (r = V tt -> link d' = Some Auto).
Proof.
  destruct d as [n s l]. unfold pg_in. cbn [store link]. intros [-> D]. unfold pg_rollback, bind, pg_prepare_end, pg_ask, ask; cbn [calls store link].
  destruct D as [[-> A]|[[-> | ->] _]]; try (split; [reflexivity|discriminate]).
  - destruct (orc n QPrepare) as [| |p]; cbn [apply set store link calls pg_fail fst]; try (split; [reflexivity|discriminate]).
    destruct (orc (S n) QRollback) as [| |p]; cbn [apply set store link calls pg_fail fst]; try (split; [reflexivity|discriminate]).
    + split; reflexivity. + split; [destruct p; reflexivity|discriminate].
  - destruct (orc n QPrepare) as [| |p]; cbn [apply set store link calls pg_fail fst]; try (split; [reflexivity|discriminate]).
    destruct (orc (S n) QRollback) as [| |p]; cbn [apply set store link calls pg_fail fst]; try (split; [reflexivity|discriminate]).
    + split; reflexivity. + split; [destruct p; reflexivity|discriminate].
Qed.
Lemma pg_commit_in st t d : pg_in st t d -> let (r, d') := pg_commit orc d in
  match r with
  | V _ => link d' = Some Auto /\ (store d' = st ++ done_writes t /\ all_ok t \/ store d' = st /\ exists w, In (w, false) t)
  | _ => store d' = st \/ store d' = st ++ done_writes t /\ all_ok t
  end.
Proof.
  destruct d as [n s l]. unfold pg_in. cbn [store link]. intros [-> D]. unfold pg_commit, bind, pg_prepare_end, pg_ask, ask; cbn [calls store link].
  destruct D as [[-> A]|[[-> | ->] X]]; cbn [store]; auto.
  - destruct (orc n QPrepare) as [| |p]; cbn [apply set store link calls pg_fail fst]; auto.
    destruct (orc (S n) QCommit) as [| |p]; cbn [apply set store link calls pg_fail fst]; auto. destruct p; auto.
  - destruct (orc n QPrepare) as [| |p]; cbn [apply set store link calls pg_fail fst]; auto.
    destruct (orc (S n) QCommit) as [| |p]; cbn [apply set store link calls pg_fail fst]; auto. destruct p; auto.
Qed.
Lemma pg_block b st n : flat b -> let '(f, t, d) := block (pg orc) false b (opened st n) in
  match f with
  | Done => link d = Some Auto /\ (store d = st ++ done_writes t /\ all_ok t \/ store d = st /\ exists w, In (w, false) t)
  | Thrown => store d = st /\ (link d = Some Auto \/ link d = Some Dead)
  | Terminated => store d = st \/ store d = st ++ done_writes t /\ all_ok t
  end.
Proof.
  intros F. rewrite block_body. cbn [begin_ pg].
  assert (B : let (r, d) := pg_begin orc (opened st n) in
    match r with V _ => pg_in st [] d | _ => store d = st /\ (link d = Some Auto \/ link d = Some Dead) end).
  { unfold pg_begin, bind, pg_ask, ask, opened; cbn [calls store link].
    destruct (orc n QPrepare) as [| |p]; cbn [apply set store link calls pg_fail fst]; auto; [|destruct p; auto].
    destruct (orc (S n) QBegin) as [| |p]; cbn [apply set store link calls pg_fail fst]; auto; [|destruct p; auto].
    split; [reflexivity|]. left. split; [reflexivity|constructor]. }
  destruct (pg_begin orc (opened st n)) as [[[]| |] d]; auto.
  pose proof (pg_body false b F st [] d B) as P. destruct (body (pg orc) false b [] d) as [[f t] d1]. destruct P as [P T].
  unfold finish. destruct f; [| |congruence]; cbn [commit_ rollback_ pg].
  - pose proof (pg_commit_in st t d1 P) as C. destruct (pg_commit orc d1) as [[[]| |] d2]; exact C.
  - pose proof (pg_rollback_in st t d1 P) as C. destruct (pg_rollback orc d1) as [[[]| |] d2]; [split; [apply C|left; apply C; reflexivity]|left; apply C..].
Qed.

(** * MySQL, while the connection holds and no BEGIN, COMMIT or ROLLBACK is rejected *)
Definition steady : Prop := forall n q, match orc n q with RLost _ => False | RErr => q <> QBegin /\ q <> QCommit /\ q <> QRollback | ROk => True end.
Context (S : steady).
Definition my_in (st : list Z) (t : seen) (d : db) : Prop := store d = st /\ link d = Some (Trans (done_writes t)).
Lemma my_run_in w st t d : my_in st t d -> let (r, d') := my_run orc w d in my_in st (t ++ [(w, match r with V _ => true | _ => false end)]) d'.
Proof.
  destruct d as [n s l]. unfold my_in. cbn [store link]. intros [-> ->].
  unfold my_run, need, handle, my_prepare, handle, my_stmt, my_exec, bind, my_ask, ask; cbn [calls store link].
  pose proof (S n QPrepare) as S1. destruct (orc n QPrepare) as [| |p]; cbn [my_apply apply set store link calls fst]; try contradiction.
  - pose proof (S (Datatypes.S n) QExec) as S2. destruct (orc (Datatypes.S n) QExec) as [| |p]; cbn [my_apply apply set store link calls fst]; try contradiction; rewrite done_snoc.
    + split; reflexivity.
    + rewrite app_nil_r. split; reflexivity.
  - rewrite done_snoc, app_nil_r. split; reflexivity.
Qed.
Lemma my_body unw b : flat b -> forall st t d, my_in st t d ->
  let '(f, t', d') := body (my orc) unw b t d in my_in st t' d' /\ f <> Terminated.
Proof.
  intros F. induction F as [|a b A F IH]; intros st t d I; cbn [body]; [split; [exact I|discriminate]|].
  destruct a as [w|w| |b']; cbn [act1]; try contradiction.
  - cbn [run_ my]. pose proof (my_run_in w st t d I) as R. destruct (my_run orc w d) as [[[]| |] d']; try (split; [exact R|discriminate]). apply IH, R.
  - cbn [run_ my]. pose proof (my_run_in w st t d I) as R. destruct (my_run orc w d) as [[[]| |] d']; apply IH, R.
  - split; [exact I|discriminate].
Qed.
Lemma my_block b st n : flat b -> let '(f, t, d) := block (my orc) false b (opened st n) in
  f <> Terminated /\ atomic st (store d) t f /\ link d = Some Auto.
Proof.
  intros F. rewrite block_body. cbn [begin_ my].
  assert (B : let (r, d) := my_begin orc (opened st n) in r = V tt /\ my_in st [] d).
  { unfold my_begin, my_query, need, bind, my_ask, ask, opened, ret; cbn [calls store link].
    pose proof (S n QBegin) as S1. destruct (orc n QBegin) as [| |p]; cbn [my_apply apply set store link calls fst]; try tauto. repeat split. }
  destruct (my_begin orc (opened st n)) as [r d]. destruct B as [-> B].
  pose proof (my_body false b F st [] d B) as P. destruct (body (my orc) false b [] d) as [[f t] d1]. destruct P as [P T].
  destruct d1 as [m s l]. destruct P as [P1 P2]. cbn [store link] in P1, P2. subst s l.
  unfold finish. destruct f; [| |congruence]; cbn [commit_ rollback_ my].
  - unfold my_commit, my_query, need, bind, my_ask, ask, ret; cbn [calls store link].
    pose proof (S m QCommit) as S1. destruct (orc m QCommit) as [| |p]; cbn [my_apply apply set store link calls fst]; try tauto.
    repeat split; discriminate.
  - unfold my_rollback, my_query, need, bind, my_ask, ask, ret; cbn [calls store link].
    pose proof (S m QRollback) as S1. destruct (orc m QRollback) as [| |p]; cbn [my_apply apply set store link calls fst]; try tauto.
    repeat split; discriminate.
Qed.
End Server.
