(** C104: JSON documents as values and as shared objects. *)
From Verif Require Import Common JsonRef_Spec JsonRef_Model JsonRef_Proof.
Local Open Scope Z_scope.

(** A program that stores nothing but new documents and clones does what it does on values: it ends in the same way, and each variable has the document of the
    value program.  It ends: for each program there is a depth that is enough for all its clones. *)
Theorem C104_values_partial n p : Forall cloning p ->
  exists depth, forall f, (depth <= f)%nat ->
    match d_run p (repeat (JS Null) n) with
    | Ok st => exists x, run f p (init n) = Ok x /\ forall z t, value x z t <-> nth_error st z = Some t
    | Throw => run f p (init n) = Throw
    | UB => run f p (init n) = UB
    | Fuel => False
    end.
Proof.
  intros C. destruct (run_spec p _ _ _ (init_inv n) C) as (F & H). exists F. intros f Hf. specialize (H f Hf).
  change (fst (init n), snd (init n)) with (init n) in H. destruct (d_run p (repeat (JS Null) n)) as [st| | |]; auto.
  destruct H as (x & E & (_ & _ & V)). exists x. split; auto. intros z t. split.
  - intros (a & Ea & Va). destruct (F2_nth _ _ _ _ _ V Ea) as (u & Eu & Vu). rewrite (val_det _ _ _ _ Va Vu). auto.
  - intros Et. destruct (F2_nth' _ _ _ _ _ V Et) as (a & Ea & Va). exists a. auto.
Qed.
Definition ka : key := str "a".
Definition kb : key := str "b".
(** x0 = {}; x0["a"] = []; x1 = x0.clone(); x1["a"].add(1); x0["b"] = x1["a"].clone(); x2 = merge(x0, x1).clone(); x2["a"][0] = 2 *)
Definition sample : list op :=
  [Put (0%nat, []) (New LO); Put (0%nat, [Key ka]) (New LA); Put (1%nat, []) (Clone (0%nat, [])); Push (1%nat, [Key ka]) (New (LS (Int 1)));
   Put (0%nat, [Key kb]) (Clone (1%nat, [Key ka])); Merge 2 true (0%nat, []) (1%nat, []); Put (2%nat, [Key ka; Ix 0]) (New (LS (Int 2)))].
Definition one (z : Z) : doc := JA [JS (Int z)].
Example C104_values_nonvacuous : Forall cloning sample /\
  d_run sample (repeat (JS Null) 3) = Ok [JO [(ka, JA []); (kb, one 1)]; JO [(ka, one 1)]; JO [(ka, one 2); (kb, one 1)]] /\
  d_run (sample ++ [Push (2%nat, []) (New LA)]) (repeat (JS Null) 3) = Throw.
Proof. split; [repeat constructor|]. now split; vm_compute. Qed.

(** Whatever the program was before and does afterwards, with or without clones: as long as it does not use the variable with the clone, its document is that
    of the place that was cloned. *)
Theorem C104_clone f n p x z r x1 q x2 :
  run f p (init n) = Ok x -> step f (Put (z, []) (Clone r)) x = Ok x1 -> Forall (without z) q -> run f q x1 = Ok x2 ->
  exists y a t, at_place r x = Ok (y, a) /\ val (fst y) a t /\ value x1 z t /\ value x2 z t.
Proof. apply clone_apart_run. Qed.
Ltac docs := unfold value; eexists; split; [vm_compute; reflexivity|];
  repeat (cbn [fst snd];
    match goal with
    | |- val _ _ _ => eapply val_; [vm_compute; reflexivity|]
    | |- fits _ _ _ => constructor
    | |- Forall2 _ _ _ => constructor
    | |- _ /\ _ => split; [reflexivity|]
    end).
(** x0 = []; x1 = x0; x2 = x1.clone(), and then x0.add(1), x1.add(x0): the clone is still empty. *)
Definition pre : list op := [Put (0%nat, []) (New LA); Put (1%nat, []) (Share (0%nat, []))].
Definition post : list op := [Push (0%nat, []) (New (LS (Int 1))); Push (1%nat, []) (Share (0%nat, []))].
Example C104_clone_nonvacuous : exists x x1 x2,
  run 5 pre (init 3) = Ok x /\ step 5 (Put (2%nat, []) (Clone (1%nat, []))) x = Ok x1 /\ Forall (without 2) post /\ run 5 post x1 = Ok x2 /\ value x2 2 (JA []) /\
  nth_error (snd x2) 0 = nth_error (snd x2) 1.
Proof.
  eexists _, _, _. split; [vm_compute; reflexivity|]. split; [vm_compute; reflexivity|]. split; [repeat constructor; discriminate|].
  split; [vm_compute; reflexivity|]. split; [docs|reflexivity].
Qed.

(** After x = y the two variables are the same document, whatever is done through either, until one of them is assigned to. *)
Theorem C104_copy f x y z q x1 x2 : step f (Put (y, []) (Share (z, []))) x = Ok x1 ->
  Forall (keeps y) q -> Forall (keeps z) q -> run f q x1 = Ok x2 -> forall t, value x2 y t <-> value x2 z t.
Proof.
  intros S Ky Kz R t. destruct x as (h & vs).
  assert (E : nth_error (snd x1) y = nth_error (snd x1) z).
  { unfold step, eval, at_place in S. cbn [fst snd walk] in S. destruct (nth_error vs z) as [a|] eqn:Ez; [|discriminate]. cbn [obind assign rev] in S.
    destruct (y <? length vs)%nat eqn:Ly; [|discriminate]. apply ok_inj in S as ->. apply Nat.ltb_lt in Ly. cbn [fst snd].
    rewrite nth_upd_eq by auto. destruct (Nat.eq_dec y z) as [->|D]; [now rewrite nth_upd_eq|rewrite nth_upd_ne; auto]. }
  unfold value. rewrite (run_keeps f q y x1 x2 Ky R), (run_keeps f q z x1 x2 Kz R), E. reflexivity.
Qed.
Example C104_copy_nonvacuous : exists x x1 x2, run 5 [Put (0%nat, []) (New LA)] (init 2) = Ok x /\ step 5 (Put (1%nat, []) (Share (0%nat, []))) x = Ok x1 /\
  run 5 [Push (0%nat, []) (New (LS (Int 1)))] x1 = Ok x2 /\ value x1 1 (JA []) /\ value x2 1 (one 1).
Proof.
  eexists _, _, _. split; [vm_compute; reflexivity|]. split; [vm_compute; reflexivity|]. split; [vm_compute; reflexivity|]. split; docs.
Qed.
(** ... so a program with such an assignment does not do what it does on values. *)
Theorem C104_values_refuted : ~ forall n p f x st, run f p (init n) = Ok x -> d_run p (repeat (JS Null) n) = Ok st -> forall z t, value x z t -> nth_error st z = Some t.
Proof.
  intros C. pose (p := [Put (0%nat, []) (New LA); Put (1%nat, []) (Share (0%nat, [])); Push (0%nat, []) (New (LS (Int 1)))]).
  assert (R : exists x, run 5 p (init 2) = Ok x /\ value x 1 (one 1)) by (eexists; split; [vm_compute; reflexivity|docs]).
  destruct R as (x & R & V). assert (D : d_run p (repeat (JS Null) 2) = Ok [one 1; JA []]) by (vm_compute; reflexivity).
  specialize (C 2%nat p 5%nat x _ R D 1%nat _ V). discriminate C.
Qed.

(** merge leaves all other variables, the merged ones too, as they are, and is the merge of the values. *)
Theorem C104_merge f x z a b l m : (z < length (snd x))%nat -> value x a (JO l) -> value x b (JO m) ->
  exists x', step f (Merge z false (a, []) (b, [])) x = Ok x' /\ value x' z (JO (merged l m)) /\ forall y t, y <> z -> value x y t -> value x' y t.
Proof.
  destruct x as (h & vs). intros Lz (u & Eu & Vu) (v & Ev & Vv). cbn [fst snd] in *. unfold step, at_place. cbn [fst snd walk obind]. rewrite Eu. cbn [obind fst snd]. rewrite Ev. cbn [obind fst snd].
  pose proof Vu as [cu Ecu Fu]. pose proof Vv as [cv Ecv Fv]. inversion Fu as [| |lu ? Gu]; subst. inversion Fv as [| |lv ? Gv]; subst.
  unfold merge. rewrite Ecu, Ecv. cbn [obind alloc assign rev]. rewrite (proj2 (Nat.ltb_lt _ _) Lz). eexists. split; [reflexivity|]. unfold value. cbn [fst snd]. split.
  - exists (length h). split; [now apply nth_upd_eq|]. exists (CO (merged lu lv)); [rewrite nth_error_app2, Nat.sub_diag by lia; reflexivity|].
    constructor. apply (merged_rel (val (h ++ [CO (merged lu lv)]))).
    + apply F2_imp with (2 := Gu). intros x y _ _ (A & B). split; auto. now apply val_ext.
    + apply F2_imp with (2 := Gv). intros x y _ _ (A & B). split; auto. now apply val_ext.
  - intros y t N (w & Ew & Vw). exists w. split; [rewrite nth_upd_ne; auto|now apply val_ext].
Qed.
Definition objects : list op :=
  [Put (0%nat, []) (New LO); Put (0%nat, [Key ka]) (New LA); Put (1%nat, []) (New LO); Put (1%nat, [Key kb]) (New LA)].
Example C104_merge_nonvacuous : exists x, run 5 objects (init 3) = Ok x /\ value x 0 (JO [(ka, JA [])]) /\ value x 1 (JO [(kb, JA [])]) /\
  exists x', step 5 (Merge 2 false (0%nat, []) (1%nat, [])) x = Ok x' /\ value x' 2 (JO [(ka, JA []); (kb, JA [])]).
Proof.
  eexists. split; [vm_compute; reflexivity|]. split; [docs|]. split; [docs|]. eexists. split; [vm_compute; reflexivity|docs].
Qed.
(** But what it makes shares its members with them: a change below it is a change of what was merged. *)
Theorem C104_merge_refuted : exists x x1 x2, run 5 objects (init 3) = Ok x /\ step 5 (Merge 2 false (0%nat, []) (1%nat, [])) x = Ok x1 /\
  run 5 [Push (2%nat, [Key ka]) (New (LS (Int 1)))] x1 = Ok x2 /\ value x1 0 (JO [(ka, JA [])]) /\ value x2 0 (JO [(ka, one 1)]).
Proof.
  eexists _, _, _. split; [vm_compute; reflexivity|]. split; [vm_compute; reflexivity|]. split; [vm_compute; reflexivity|]. split; docs.
Qed.

(** x0 = []; x0.add(x0): x0 has no finite document, and clone() does not return (as no print() does). *)
Definition knot : list op := [Put (0%nat, []) (New LA); Push (0%nat, []) (Share (0%nat, []))].
Lemma no_val h a t : nth_error h a = Some (CA [a]) -> ~ val h a t.
Proof.
  intros E V. assert (I : In a (kids (CA [a]))) by now left. exact (no_cycle h a t (CA [a]) a V E I (r_refl h a)).
Qed.
Lemma no_clone h a : nth_error h a = Some (CA [a]) -> forall f, clone f h a = Fuel.
Proof. intros E. induction f as [|f IH]; simpl; auto. rewrite E. simpl. now rewrite IH. Qed.
Theorem C104_finite_refuted : exists x, (forall f, run f knot (init 2) = Ok x) /\ (forall t, ~ value x 0 t) /\ forall f, run f (knot ++ [Put (1%nat, []) (Clone (0%nat, []))]) (init 2) = Fuel.
Proof.
  eexists. split; [intros f; vm_compute; reflexivity|]. split.
  - intros t (a & Ea & Va). cbn in Ea. injection Ea as <-. revert Va. now apply no_val.
  - intros f. cbn. now rewrite no_clone.
Qed.

(** Reading a member of an object that is not const makes one. *)
Theorem C104_read_refuted : exists x x', run 5 [Put (0%nat, []) (New LO)] (init 2) = Ok x /\ step 5 (Put (1%nat, []) (Clone (0%nat, [Key ka]))) x = Ok x' /\
  value x 0 (JO []) /\ value x' 0 (JO [(ka, JS Null)]).
Proof. eexists _, _. split; [vm_compute; reflexivity|]. split; [vm_compute; reflexivity|]. split; docs. Qed.

Print Assumptions C104_values_partial.
Print Assumptions C104_clone.
Print Assumptions C104_copy.
Print Assumptions C104_values_refuted.
Print Assumptions C104_merge.
Print Assumptions C104_merge_refuted.
Print Assumptions C104_finite_refuted.
Print Assumptions C104_read_refuted.
