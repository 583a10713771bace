(** C96: a transaction block stores all of its writes or none. *)
From Verif Require Import Common Trans_Spec Trans_Model Trans_Proof.
Local Open Scope Z_scope.

(** PostgreSQL, whatever the server and the network do: a block that throws has stored nothing; one that ends normally has stored all its writes and
    leaves no transaction open, unless an exception of run was caught in the block; nothing is ever stored in part.
    The block is not run during unwinding, and has no other transaction in it. *)
Theorem C96_postgresql_partial orc b st n f t d : flat b -> block (pg orc) false b (opened st n) = (f, t, d) ->
  match f with
  | Done => link d = Some Auto /\ (store d = st ++ done_writes t /\ all_ok t \/ store d = st /\ exists w, In (w, false) t)
  | Thrown => store d = st /\ (link d = Some Auto \/ link d = Some Dead)
  | Terminated => store d = st \/ store d = st ++ done_writes t /\ all_ok t
  end.
Proof. intros F E. pose proof (pg_block orc b st n F) as P. rewrite E in P. exact P. Qed.
(** the first answers are given, the rest are good *)
Definition answers (l : list reply) (n : nat) (q : req) : reply := nth n l ROk.
Example C96_postgresql_partial_nonvacuous :
  flat [Do 1; Do 2] /\ flat [Do 1; Do 2; Raise] /\
  block (pg (answers [])) false [Do 1; Do 2] (opened [7] 0) = (Done, [(1, true); (2, true)], mkD 8 [7; 1; 2] (Some Auto)) /\
  block (pg (answers [])) false [Do 1; Do 2; Raise] (opened [7] 0) = (Thrown, [(1, true); (2, true)], mkD 8 [7] (Some Auto)) /\
  block (pg (answers [ROk; ROk; ROk; ROk; ROk; RErr])) false [Do 1; Do 2; Do 3] (opened [7] 0) = (Thrown, [(1, true); (2, false)], mkD 8 [7] (Some Auto)).
Proof. split; [repeat constructor|]. split; [repeat constructor|]. split; [reflexivity|]. split; vm_compute; reflexivity. Qed.

(** MySQL: as long as the connection holds and the server rejects no BEGIN, COMMIT or ROLLBACK, a block is atomic, does not terminate the program and leaves no
    transaction open. *)
Theorem C96_mysql_partial orc b st n f t d : steady orc -> flat b -> block (my orc) false b (opened st n) = (f, t, d) ->
  f <> Terminated /\ atomic st (store d) t f /\ link d = Some Auto.
Proof. intros S F E. pose proof (my_block orc S b st n F) as P. rewrite E in P. exact P. Qed.
Example C96_mysql_partial_nonvacuous :
  steady (fun n q => match q with QExec => if (n =? 4)%nat then RErr else ROk | _ => ROk end) /\
  block (my (fun n q => match q with QExec => if (n =? 4)%nat then RErr else ROk | _ => ROk end)) false [Do 1; Try 2; Do 3] (opened [7] 0) =
    (Done, [(1, true); (2, false); (3, true)], mkD 8 [7; 1; 3] (Some Auto)) /\
  block (my (fun n q => match q with QExec => if (n =? 4)%nat then RErr else ROk | _ => ROk end)) false [Do 1; Do 2; Do 3] (opened [7] 0) =
    (Thrown, [(1, true); (2, false)], mkD 6 [7] (Some Auto)).
Proof.
  split; [|split; reflexivity]. intros n q. destruct q; auto. destruct (n =? 4)%nat; [|exact I]. repeat split; discriminate.
Qed.

(** Without the guards the claim is false.  PostgreSQL: a failure that is caught in the block makes COMMIT roll back, silently. *)
Theorem C96_caught_refuted :
  exists t d, block (pg (answers [ROk; ROk; ROk; ROk; ROk; RErr])) false [Do 1; Try 2; Try 3] (opened [] 0) = (Done, t, d) /\
  done_writes t = [1] /\ store d = [].
Proof. eexists _, _. split; [vm_compute; reflexivity|split; reflexivity]. Qed.
(** MySQL: a write after the connection was lost goes to a new connection, outside of any transaction.  It stays although the block throws and
    rolls back; the writes before are gone. *)
Theorem C96_lost_refuted :
  exists t d, block (my (answers [ROk; ROk; ROk; RLost false])) false [Do 1; Do 2; Raise] (opened [] 0) = (Thrown, t, d) /\
  done_writes t = [1; 2] /\ store d = [2].
Proof. eexists _, _. split; [vm_compute; reflexivity|split; reflexivity]. Qed.
(** ... and when the block ends normally, what is stored is a part of it. *)
Theorem C96_part_refuted :
  exists t d, block (my (answers [ROk; ROk; ROk; RLost false])) false [Do 1; Do 2] (opened [] 0) = (Done, t, d) /\
  done_writes t = [1; 2] /\ store d = [2].
Proof. eexists _, _. split; [vm_compute; reflexivity|split; reflexivity]. Qed.
(** MySQL: COMMIT on a new connection succeeds, though there is nothing to commit any more; *)
Theorem C96_commit_refuted :
  exists t d, block (my (answers [ROk; ROk; ROk; RLost false])) false [Do 1] (opened [] 0) = (Done, t, d) /\ done_writes t = [1] /\ store d = [].
Proof. eexists _, _. split; [vm_compute; reflexivity|split; reflexivity]. Qed.
(** ... a COMMIT that the server rejects is not noticed at all, ... *)
Theorem C96_commit_rejected_refuted :
  exists t d, block (my (answers [ROk; ROk; ROk; RErr])) false [Do 1] (opened [] 0) = (Done, t, d) /\ done_writes t = [1] /\ store d = [].
Proof. eexists _, _. split; [vm_compute; reflexivity|split; reflexivity]. Qed.
(** ... nor is a BEGIN, and then the writes of a block that throws stay. *)
Theorem C96_begin_rejected_refuted :
  exists t d, block (my (answers [RErr])) false [Do 1; Raise] (opened [] 0) = (Thrown, t, d) /\ store d = [1].
Proof. eexists _, _. split; [vm_compute; reflexivity|reflexivity]. Qed.
(** Both: a block that a destructor runs while an exception is unwinding the stack is rolled back although it ends normally. *)
Theorem C96_unwinding_refuted :
  exists t d t' d', block (pg (answers [])) true [Do 1] (opened [] 0) = (Done, t, d) /\ store d = [] /\ done_writes t = [1] /\
  block (my (answers [])) true [Do 1] (opened [] 0) = (Done, t', d') /\ store d' = [].
Proof. eexists _, _, _, _. split; [vm_compute; reflexivity|]. split; [reflexivity|]. split; [reflexivity|]. split; [vm_compute; reflexivity|reflexivity]. Qed.
(** Both: with a transaction in the transaction, what was written before it (and, for PostgreSQL, in it) stays though the outer block throws. *)
Theorem C96_nested_refuted :
  exists t d t' d', block (pg (answers [])) false [Do 1; Sub [Do 2]; Raise] (opened [] 0) = (Thrown, t, d) /\ store d = [1; 2] /\
  block (my (answers [])) false [Do 1; Sub [Do 2; Raise]] (opened [] 0) = (Thrown, t', d') /\ store d' = [1].
Proof. eexists _, _, _, _. split; [vm_compute; reflexivity|]. split; [reflexivity|]. split; vm_compute; reflexivity. Qed.
(** PostgreSQL: a COMMIT or ROLLBACK that fails ends the program, as does deleting a connection that is lost. *)
Theorem C96_terminates_refuted :
  (exists t d, block (pg (answers [ROk; ROk; ROk; ROk; ROk; RErr])) false [Do 1] (opened [] 0) = (Terminated, t, d)) /\
  (exists t d, block (pg (answers [ROk; ROk; ROk; RLost false])) false [Do 1] (opened [] 0) = (Terminated, t, d)) /\
  forall orc st n, pg_delete orc (mkD n st (Some Dead)) = Terminated.
Proof. split; [eexists _, _; vm_compute; reflexivity|]. split; [eexists _, _; vm_compute; reflexivity|]. reflexivity. Qed.

Print Assumptions C96_postgresql_partial.
Print Assumptions C96_mysql_partial.
Print Assumptions C96_caught_refuted.
Print Assumptions C96_lost_refuted.
Print Assumptions C96_part_refuted.
Print Assumptions C96_commit_refuted.
Print Assumptions C96_commit_rejected_refuted.
Print Assumptions C96_begin_rejected_refuted.
Print Assumptions C96_unwinding_refuted.
Print Assumptions C96_nested_refuted.
Print Assumptions C96_terminates_refuted.
