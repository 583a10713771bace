From Verif Require Import Common RwMutex_Model RwMutex_Spec RwMutex_Proof.
From Coq Require Import QArith.
Open Scope nat_scope.

(** The full statement: every lock call returns true iff it acquired the lock.  It is false: *)
Theorem C55_lock_result_refuted : ~ (forall t m timeout r l l' b, lock_call t m timeout r l = Some (l', b) ->
  (b = true /\ available m l = true /\ l' = acquire t m l) \/ (b = false /\ l' = l)).
Proof.
  intros H. specialize (H 1 Read (Some 0%Q) 0%Z free _ _ eq_refl). destruct H as [(H & _)|(_ & H)]; discriminate H.
Qed.
(** ... and so two scoped locks can claim a reader beside a writer, and leaving such a scope can
    unlock what is not held. *)
Theorem C55_exclusion_refuted : ~ (forall l w, acts l (mkW free []) = Ok (Some w) -> excluded (scopes w)).
Proof.
  intros H. specialize (H [Enter 1 Write (-1) 0; Enter 2 Read 0 16] _ eq_refl 1 2). cbn in H. destruct H as [H _]; [auto|discriminate H].
Qed.
Theorem C55_scope_release_refuted : acts [Enter 2 Read 0 11; Leave 2] (mkW free []) = UB
  /\ (exists w, acts [Enter 1 Read 0 0; Leave 1] (mkW free []) = Ok (Some w) /\ scopes w = [] /\ held 1 Read (lk w) = 1).
Proof. split; [reflexivity|eexists; split; [reflexivity|split; reflexivity]]. Qed.

(** What holds: all of it, for every call but read_lock (or a scoped read lock) given a timeout
    of less than a nanosecond. *)
Theorem C55_lock_result_partial : forall t m timeout r l l' b, ~ bad_call m timeout -> lock_call t m timeout r l = Some (l', b) ->
  (b = true /\ available m l = true /\ l' = acquire t m l) \/ (b = false /\ l' = l).
Proof. exact lock_result. Qed.
(** Whatever the threads do with scoped locks, the lock is held exactly by the scopes that say so, so
    readers and writers exclude each other, every scope releases what it acquired, and nothing is undefined. *)
Theorem C55_scoped_partial : forall l, Forall avoids_bad l -> exists r, acts l (mkW free []) = Ok r /\
  forall w, r = Some w -> (forall t m, held t m (lk w) = claims t m (scopes w)) /\ excluded (scopes w).
Proof. exact scopes_exact. Qed.

Example C55_nonvacuous : exists w, acts [Enter 1 Read (-1) 0; Enter 2 Read (1#2) 0; Enter 3 Write 0 16; Leave 3; Leave 1; Leave 2; Enter 3 Write (-1) 0] (mkW free []) = Ok (Some w)
  /\ claims 3 Write (scopes w) = 1 /\ lk w = mkL [] (Some 3).
Proof. eexists. split; [reflexivity|split; reflexivity]. Qed.
Example C55_nonvacuous_avoids : Forall avoids_bad [Enter 1 Read (-1) 0; Enter 2 Read (1#2) 0; Enter 3 Write 0 16; Leave 3].
Proof. repeat constructor; cbn; auto; discriminate. Qed.
Example C55_lock_result_nonvacuous : ~ bad_call Read (Some (1#2)%Q) /\ lock_call 1 Read (Some (1#2)%Q) 0 (mkL [2] None) = Some (mkL [1; 2] None, true).
Proof. split; [cbn; discriminate|reflexivity]. Qed.
Print Assumptions C55_lock_result_refuted.
Print Assumptions C55_exclusion_refuted.
Print Assumptions C55_scope_release_refuted.
Print Assumptions C55_lock_result_partial.
Print Assumptions C55_scoped_partial.
