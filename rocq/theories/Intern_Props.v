(** C34: intern tables. *)
From Verif Require Import Common Intern_Model Intern_Spec Intern_Proof.
From Coq Require Import Permutation.
Local Open Scope Z_scope.

(** Over every history of [key2id] (with or without generation) and [clear], every
    returned id is that of the reference list, and every lookup agrees with it:
    ids are 0..n-1, in first-seen order, and the two directions are inverse. *)
Theorem C34_intern_refines : forall (K : Type) (keq : forall a b : K, {a = b} + {a <> b}) (ops : list (iop K)),
  fst (irun K keq ops intern_new) = fst (ref_run K keq ops []) /\
  shows K keq (snd (irun K keq ops intern_new)) (snd (ref_run K keq ops [])).
Proof.
  intros K keq ops. destruct (run_good K keq ops _ _ (good_init K keq)) as [E G]. split; [exact E|now apply good_shows].
Qed.

(** A saved table read back, with the hash table's entries in any order, shows the same keys and ids. *)
Theorem C34_intern_reload : forall (K : Type) (keq : forall a b : K, {a = b} + {a <> b}) (ops : list (iop K)) (default : K) t,
  Permutation t (tbl (snd (irun K keq ops intern_new))) ->
  exists s', reload K default t = Ok s' /\ shows K keq s' (snd (ref_run K keq ops [])).
Proof.
  intros K keq ops d t HP. destruct (run_good K keq ops _ _ (good_init K keq)) as [_ G].
  destruct (reload_good K keq d _ _ t G HP) as (s' & E & G'); [apply run_nodup; constructor|].
  exists s'. split; [exact E|now apply good_shows].
Qed.

Example C34_case :
  let ops := [Key2id 7 true; Key2id 9 true; Key2id 7 true; Key2id 5 false; Clear; Key2id 9 true; Key2id 8 true; Key2id 9 false] in
  fst (irun Z Z.eq_dec ops intern_new) = [0; 1; 0; -1; 0; 0; 1; 0] /\
  tbl (snd (irun Z Z.eq_dec ops intern_new)) = [(8, 1); (9, 0)] /\
  omap lbt (reload Z 0 [(9, 0); (8, 1)]) = Ok [9; 8] /\ omap lbt (reload Z 0 [(8, 1); (9, 0)]) = Ok [9; 8].
Proof. vm_compute. auto. Qed.

Print Assumptions C34_intern_refines.
Print Assumptions C34_intern_reload.

(** C66, full statement: whatever entries an archive contains, reading it back either
    fails cleanly or gives a table whose two directions are inverse.  It is false: ids
    are neither range-checked nor checked for being distinct. *)
Theorem C66_intern_hostile_archive_refuted :
  (exists t : list (Z * Z), NoDup (map fst t) /\ reload Z 0 t = UB) /\
  (exists (t : list (Z * Z)) s, NoDup (map fst t) /\ reload Z 0 t = Ok s /\
     exists k, 0 <= key2id_nogen Z Z.eq_dec s k /\ id2key s (key2id_nogen Z Z.eq_dec s k) <> Ok k).
Proof.
  split.
  - exists [(7, 5)]. split; [|reflexivity]. cbn. constructor; [intros []|constructor].
  - exists [(7, 0); (8, 0)]. eexists. split; [|split; [vm_compute; reflexivity|]].
    + cbn. constructor; [intros [H|[]]; discriminate|]. constructor; [intros []|constructor].
    + exists 7. vm_compute. split; discriminate.
Qed.
Print Assumptions C66_intern_hostile_archive_refuted.
