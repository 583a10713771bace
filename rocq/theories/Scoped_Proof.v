From Verif Require Import Common Scoped_Spec Scoped_Model.

(** How object [k] stands: not given, held, deleted *)
Definition life (k : nat) (l : list event) : list event := filter (about k) l.
Record Inv (h : heap) : Prop := {
  i_proper : proper (log h);
  i_held : forall k, (exists i, ptrs h i = Some (Some k)) <-> life k (log h) = [Given k];
  i_one : forall i j k, ptrs h i = Some (Some k) -> ptrs h j = Some (Some k) -> i = j;
  i_alive : forall k, (k < next h)%nat -> (In k (alive h) <-> ~ In (Deleted k) (log h));
  i_old : forall k, In k (alive h) -> (k < next h)%nat;
  i_log : forall k, In (Given k) (log h) -> (k < next h)%nat }.

Lemma life_snoc k l e : life k (l ++ [e]) = life k l ++ if about k e then [e] else [].
Proof. unfold life. rewrite filter_app. cbn. now destruct (about k e). Qed.
Lemma life_given k l : In (Given k) l -> In (Given k) (life k l).
Proof. intros H. apply filter_In. split; [exact H|]. cbn. apply Nat.eqb_refl. Qed.
Lemma life_deleted k l : In (Deleted k) l -> In (Deleted k) (life k l).
Proof. intros H. apply filter_In. split; [exact H|]. cbn. apply Nat.eqb_refl. Qed.
Lemma not_given h k : Inv h -> ~ In (Given k) (log h) -> life k (log h) = [].
Proof.
  intros [I1 _ _ _ _ _] H. assert (X : In (Given k) (filter (about k) (log h)) -> False) by (intros X; apply filter_In in X as [X _]; auto).
  destruct (I1 k) as [E|[E|E]]; [exact E|exfalso; apply X; rewrite E; now left..].
Qed.
Lemma life_none k l : life k l = [] -> ~ In (Given k) l /\ ~ In (Deleted k) l.
Proof. intros E. split; intros H; [apply life_given in H|apply life_deleted in H]; rewrite E in H; destruct H. Qed.
Lemma life_held k l : life k l = [Given k] -> ~ In (Deleted k) l.
Proof. intros E H. apply life_deleted in H. rewrite E in H. destruct H as [H|[]]. discriminate. Qed.
Lemma put_same f i x : put f i x i = x.
Proof. unfold put. now rewrite Nat.eqb_refl. Qed.
Lemma put_other f i x j : j <> i -> put f i x j = f j.
Proof. unfold put. intros H. destruct (Nat.eqb_spec j i); [contradiction|reflexivity]. Qed.
Lemma mem_spec k l : existsb (Nat.eqb k) l = true <-> In k l.
Proof. rewrite existsb_exists. split; [intros (x & H & E); apply Nat.eqb_eq in E; congruence|]. intros H. exists k. split; [exact H|apply Nat.eqb_refl]. Qed.

Lemma inv_empty : Inv empty.
Proof. split; cbn; try (intros; contradiction); try (intros; discriminate); [intros k; now left| |intros; lia]. intros k. split; [intros (i & H)|]; discriminate. Qed.
Lemma inv_value h : Inv h -> Inv (fst (value h New)).
Proof.
  intros [I1 I2 I3 I4 I5 I6]. split; cbn [fst value log ptrs alive next]; auto.
  - intros k Hk. destruct (Nat.eq_dec k (next h)) as [->|N].
    + split; [|cbn; auto]. intros _ X. apply life_deleted in X. destruct (I1 (next h)) as [E|[E|E]]; fold (life (next h) (log h)) in E; rewrite E in X; cbn in X; try contradiction.
      * destruct X as [X|[]]; discriminate.
      * assert (Y : In (Given (next h)) (life (next h) (log h))) by (rewrite E; cbn; auto). apply filter_In in Y as [Y _]. apply I6 in Y. lia.
    + rewrite <- I4 by lia. cbn. split; [intros [X|X]; [lia|exact X]|auto].
  - intros k [<-|X]; [lia|]. apply I5 in X. lia.
  - intros k X. apply I6 in X. lia.
Qed.
(** An address is given to a scoped_ptr that has none *)
Lemma inv_null h i x : Inv h -> (forall k, ptrs h i <> Some (Some k)) -> (forall k, x <> Some (Some k)) -> Inv (set h i x).
Proof.
  intros [I1 I2 I3 I4 I5 I6] Hi Hx.
  assert (HP : forall j k, put (ptrs h) i x j = Some (Some k) <-> ptrs h j = Some (Some k)).
  { intros j k. destruct (Nat.eq_dec j i) as [->|N]; [rewrite put_same; split; intros X; exfalso; [eapply Hx|eapply Hi]; eauto|now rewrite put_other]. }
  split; cbn [set log ptrs alive next]; auto.
  - intros k. rewrite <- I2. split; intros (j & X); exists j; now apply HP.
  - intros a b k. rewrite !HP. apply I3.
Qed.
Lemma inv_give h i k : Inv h -> (forall j, ptrs h i <> Some (Some j)) -> (k < next h)%nat -> ~ In (Given k) (log h) -> Inv (given (set h i (Some (Some k))) (Some k)).
Proof.
  intros H Hi Hk Hn. pose proof (not_given h k H Hn) as Hl. destruct H as [I1 I2 I3 I4 I5 I6].
  assert (HL : forall j, life j (log h ++ [Given k]) = if Nat.eqb k j then [Given k] else life j (log h)).
  { intros j. rewrite life_snoc. cbn [about]. destruct (Nat.eqb_spec k j) as [->|N]; [now rewrite Hl|apply app_nil_r]. }
  assert (HN : forall j, ptrs h j <> Some (Some k)) by (intros j X; assert (Y : life k (log h) = [Given k]) by (apply I2; eauto); congruence).
  split; cbn [given set log ptrs alive next]; auto.
  - intros j. cbn zeta. change (filter (about j) (log h ++ [Given k])) with (life j (log h ++ [Given k])). rewrite HL. destruct (Nat.eqb_spec k j) as [->|N]; [auto|apply I1].
  - intros j. rewrite HL. destruct (Nat.eqb_spec k j) as [->|N].
    + split; [auto|]. intros _. exists i. apply put_same.
    + rewrite <- I2. split; intros (a & X).
      * destruct (Nat.eq_dec a i) as [->|Na]; [rewrite put_same in X; congruence|]. rewrite put_other in X by auto. eauto.
      * exists a. rewrite put_other; [exact X|]. intros ->. eapply Hi; eauto.
  - intros a b j. destruct (Nat.eq_dec a i) as [->|Na], (Nat.eq_dec b i) as [->|Nb]; auto; rewrite ?put_same, ?put_other by auto.
    + intros [= <-] X. now apply HN in X.
    + intros X [= <-]. now apply HN in X.
    + apply I3.
  - intros j Hj. rewrite (I4 j Hj). split; intros X Y; apply X; [|apply in_or_app; auto]. apply in_app_or in Y as [Y|[Y|[]]]; [exact Y|discriminate].
  - intros j X. apply in_app_or in X as [X|[X|[]]]; [auto|]. injection X as <-. exact Hk.
Qed.
(** The scoped_ptr [i] lets go of object [k], which is deleted *)
Lemma inv_delete h i k x : Inv h -> ptrs h i = Some (Some k) -> (forall j, x <> Some (Some j)) -> exists h', delete (set h i x) (Some k) = Ok h' /\ Inv h' /\ ptrs h' = put (ptrs h) i x /\ next h' = next h /\ log h' = log h ++ [Deleted k].
Proof.
  intros [I1 I2 I3 I4 I5 I6] Hi Hx. assert (Hl : life k (log h) = [Given k]) by (apply I2; eauto).
  assert (Hg : In (Given k) (log h)). { assert (Y : In (Given k) (life k (log h))) by (rewrite Hl; now left). now apply filter_In in Y. }
  assert (Hk : (k < next h)%nat) by auto. assert (Ha : In k (alive h)) by (apply I4; auto; now apply life_held).
  unfold delete. cbn [set alive ptrs next log]. rewrite (proj2 (mem_spec k (alive h)) Ha). eexists. split; [reflexivity|]. split; [|auto].
  assert (HL : forall j, life j (log h ++ [Deleted k]) = if Nat.eqb k j then [Given k; Deleted k] else life j (log h)).
  { intros j. rewrite life_snoc. cbn [about]. destruct (Nat.eqb_spec k j) as [->|N]; [now rewrite Hl|apply app_nil_r]. }
  split; cbn [log ptrs alive next].
  - intros j. cbn zeta. change (filter (about j) (log h ++ [Deleted k])) with (life j (log h ++ [Deleted k])). rewrite HL. destruct (Nat.eqb_spec k j) as [->|N]; [auto|apply I1].
  - intros j. rewrite HL. destruct (Nat.eqb_spec k j) as [->|N].
    + split; [|discriminate]. intros (a & X). destruct (Nat.eq_dec a i) as [->|Na]; [rewrite put_same in X; exfalso; eapply Hx; eauto|]. rewrite put_other in X by auto. exfalso. apply Na. eauto.
    + rewrite <- I2. split; intros (a & X).
      * destruct (Nat.eq_dec a i) as [->|Na]; [rewrite put_same in X; exfalso; eapply Hx; eauto|]. rewrite put_other in X by auto. eauto.
      * exists a. rewrite put_other; [exact X|]. intros ->. congruence.
  - intros a b j. destruct (Nat.eq_dec a i) as [->|Na], (Nat.eq_dec b i) as [->|Nb]; auto; rewrite ?put_same, ?put_other by auto.
    + intros X. exfalso. eapply Hx; eauto.
    + intros _ X. exfalso. eapply Hx; eauto.
    + apply I3.
  - intros j Hj. rewrite filter_In, (I4 j Hj). destruct (Nat.eqb_spec j k) as [->|N]; cbn.
    + split; [intros [_ X]; discriminate|]. intros X. exfalso. apply X, in_or_app. cbn. auto.
    + split; [intros [X _] Y; apply X; apply in_app_or in Y as [Y|[Y|[]]]; [exact Y|congruence]|]. intros X. split; [|reflexivity]. intros Y. apply X, in_or_app. auto.
  - intros j X. apply filter_In in X as [X _]. auto.
  - intros j X. apply in_app_or in X as [X|[X|[]]]; [auto|discriminate].
Qed.
Lemma put_put f i x y j : put (put f i x) i y j = put f i y j.
Proof. unfold put. now destruct (Nat.eqb j i). Qed.
Lemma inv_ext h h' : Inv h -> (forall i, ptrs h' i = ptrs h i) -> alive h' = alive h -> next h' = next h -> (forall k, life k (log h') = life k (log h)) -> (forall e, In e (log h') <-> In e (log h)) -> Inv h'.
Proof.
  intros [I1 I2 I3 I4 I5 I6] E1 E2 E3 E4 E5. split; rewrite ?E2, ?E3; auto.
  - intros k. cbn zeta. change (filter (about k) (log h')) with (life k (log h')). rewrite E4. apply I1.
  - intros k. rewrite E4, <- I2. split; intros (i & X); exists i; congruence.
  - intros i j k. rewrite !E1. apply I3.
  - intros k Hk. rewrite E5. auto.
  - intros k X. apply E5 in X. auto.
Qed.
Lemma inv_reset h i old v : Inv h -> ptrs h i = Some old -> match v with Some k => (k < next h)%nat /\ ~ In (Given k) (log h) | None => True end ->
  exists h', delete (given (set h i (Some v)) v) old = Ok h' /\ Inv h' /\ next h' = next h.
Proof.
  intros H Hi Hv. destruct old as [k|].
  - destruct (inv_delete h i k (Some None) H Hi) as (h1 & E1 & H1 & Ep & En & El); [discriminate|].
    assert (Hg : In (Given k) (log h)). { destruct H as [_ I2 _ _ _ _]. assert (Y : In (Given k) (life k (log h))) by (rewrite (proj1 (I2 k)) by eauto; now left). now apply filter_In in Y. }
    assert (Hh : forall u, existsb (Nat.eqb k) (alive h) = true -> delete (given (set h i (Some u)) u) (Some k) = Ok (mk (put (ptrs h) i (Some u)) (alive h1) (next h) (match u with Some j => log h ++ [Given j] | None => log h end ++ [Deleted k]))).
    { intros u Ha. cbn [delete set alive] in E1. rewrite Ha in E1. injection E1 as <-. destruct u; unfold delete, given, set; cbn [alive ptrs next log]; rewrite Ha; reflexivity. }
    assert (Ha : existsb (Nat.eqb k) (alive h) = true) by (cbn [delete set alive] in E1; destruct (existsb _ _); [reflexivity|discriminate]).
    rewrite (Hh v Ha). eexists. split; [reflexivity|]. split; [|reflexivity]. destruct v as [j|].
    + destruct Hv as [Hv1 Hv2]. assert (N : j <> k) by (intros ->; contradiction).
      assert (H2 : Inv (given (set h1 i (Some (Some j))) (Some j))).
      { apply inv_give; auto; [rewrite Ep, put_same; discriminate|lia|]. rewrite El. intros X. apply in_app_or in X as [X|[X|[]]]; [contradiction|discriminate]. }
      apply (inv_ext _ _ H2); cbn [given set ptrs alive next log]; auto.
      * intros a. rewrite Ep. symmetry. apply put_put.
      * intros a. rewrite El, !life_snoc. cbn [about]. destruct (Nat.eqb_spec j a) as [->|Nj], (Nat.eqb_spec k a) as [->|Nk]; rewrite ?app_nil_r; try reflexivity. congruence.
      * intros e. rewrite El, !in_app_iff. cbn. tauto.
    + apply (inv_ext _ _ H1); cbn [ptrs alive next log]; auto; [intros a; now rewrite Ep|now rewrite El|now rewrite El].
  - cbn [delete]. eexists. split; [reflexivity|]. split; [|destruct v; reflexivity]. destruct v as [j|].
    + apply inv_give; try tauto. rewrite Hi. discriminate.
    + apply inv_null; auto; [rewrite Hi|]; discriminate.
Qed.
Lemma inv_swap h i j a b : Inv h -> ptrs h i = Some a -> ptrs h j = Some b -> Inv (set (set h i (Some b)) j (Some a)).
Proof.
  intros [I1 I2 I3 I4 I5 I6] Hi Hj.
  (* where the object of pointer x was *)
  set (w := fun x => if Nat.eqb x j then i else if Nat.eqb x i then j else x).
  assert (HW : forall x, put (put (ptrs h) i (Some b)) j (Some a) x = ptrs h (w x)).
  { intros x. unfold put, w. destruct (Nat.eqb_spec x j); [congruence|]. destruct (Nat.eqb_spec x i); congruence. }
  assert (HI : forall x, w (w x) = x).
  { intros x. unfold w. destruct (Nat.eqb_spec x j) as [->|N]; [|destruct (Nat.eqb_spec x i) as [->|N']].
    - destruct (Nat.eqb_spec i j) as [->|]; [reflexivity|]. now rewrite Nat.eqb_refl.
    - now rewrite Nat.eqb_refl.
    - destruct (Nat.eqb_spec x j); [contradiction|]. destruct (Nat.eqb_spec x i); [contradiction|reflexivity]. }
  split; cbn [set log ptrs alive next]; auto.
  - intros k. rewrite <- I2. split; intros (x & X).
    + exists (w x). now rewrite <- HW.
    + exists (w x). now rewrite HW, HI.
  - intros x y k. rewrite !HW. intros X Y. rewrite <- (HI x), <- (HI y). f_equal. eauto.
Qed.
(** One operation: it is undefined only when a null pointer is dereferenced. *)
Lemma inv_step h o : Inv h -> fair h o -> (exists h', step h o = Ok h' /\ Inv h') \/ (step h o = UB /\ exists i, o = Deref i /\ ptrs h i = Some None).
Proof.
  intros H Hf. destruct o as [i p|i p|i j|i|i|]; cbn [step].
  - left. destruct (ptrs h i) as [x|] eqn:Ei; [eauto|].
    destruct p as [| |k]; cbn [value]; eexists; (split; [reflexivity|]).
    + cbn [given]. apply inv_null; auto; [rewrite Ei|]; discriminate.
    + apply inv_value in H as H'. cbn [fst value] in H'. apply (inv_give (mk (ptrs h) (next h :: alive h) (Datatypes.S (next h)) (log h)) i (next h) H'); cbn [ptrs next log]; [rewrite Ei; discriminate|lia|]. intros X. destruct H as [_ _ _ _ _ I6]. apply I6 in X. lia.
    + cbn in Hf. apply inv_give; try tauto. rewrite Ei. discriminate.
  - left. destruct (ptrs h i) as [old|] eqn:Ei; [|eauto].
    destruct p as [| |k]; cbn [value].
    + destruct (inv_reset h i old None H Ei) as (h' & E & Hh & _); eauto.
    + apply inv_value in H as H'. cbn [fst value] in H'.
      destruct (inv_reset _ i old (Some (next h)) H' Ei) as (h' & E & Hh & _); eauto. cbn [next log]. split; [lia|]. intros X. destruct H as [_ _ _ _ _ I6]. apply I6 in X. lia.
    + cbn in Hf. destruct (inv_reset h i old (Some k) H Ei Hf) as (h' & E & Hh & _). eauto.
  - left. destruct (ptrs h i) as [a|] eqn:Ei; [|eauto]. destruct (ptrs h j) as [b|] eqn:Ej; [|eauto]. eexists. split; [reflexivity|]. now apply inv_swap.
  - left. destruct (ptrs h i) as [[k|]|] eqn:Ei; [| |eauto].
    + destruct (inv_delete h i k None H Ei) as (h' & E & Hh & _); [discriminate|]. eauto.
    + cbn [delete]. eexists. split; [reflexivity|]. apply inv_null; auto; [rewrite Ei|]; discriminate.
  - destruct (ptrs h i) as [[k|]|] eqn:Ei; [left|right; eauto|left; eauto].
    destruct H as [I1 I2 I3 I4 I5 I6]. assert (Hl : life k (log h) = [Given k]) by (apply I2; eauto).
    assert (Hg : In (Given k) (log h)). { assert (Y : In (Given k) (life k (log h))) by (rewrite Hl; now left). now apply filter_In in Y. }
    assert (Ha : In k (alive h)) by (apply I4; auto; now apply life_held). rewrite (proj2 (mem_spec k (alive h)) Ha). eexists. split; [reflexivity|split; auto].
  - left. eexists. split; [reflexivity|]. now apply inv_value.
Qed.
Lemma inv_run os : forall h h', Inv h -> all_fair h os -> run h os = Ok h' -> Inv h'.
Proof.
  induction os as [|o os IH]; intros h h' H HF E; cbn [run] in E; [injection E as <-; exact H|]. destruct HF as [Hf HF].
  destruct (inv_step h o H Hf) as [(h1 & E1 & H1)|[E1 _]]; rewrite E1 in *; cbn [obind] in E; [eauto|discriminate].
Qed.
