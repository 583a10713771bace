From Verif Require Import Common CommonLemmas Intern_Model Intern_Spec.
From Coq Require Import Permutation.
Local Open Scope Z_scope.

Section Proof.
  Variable K : Type.
  Variable keq : forall a b : K, {a = b} + {a <> b}.
  Notation find := (find K keq). Notation pos_from := (pos_from K keq). Notation pos := (pos K keq).

  Definition good (s : intern K) (l : list K) : Prop :=
    NoDup l /\ lbt s = l /\ length (tbl s) = length l /\
    forall k, find k (tbl s) = if in_dec keq k l then Some (pos k l) else None.

  Lemma pos_from_in i k l : In k l -> exists n, pos_from i k l = i + Z.of_nat n /\ nth_error l n = Some k.
  Proof.
    revert i. induction l as [|x l IH]; intros i H; [destruct H|]. cbn [Intern_Spec.pos_from].
    destruct (keq x k) as [->|Hne]; [exists O; split; [lia|reflexivity]|].
    destruct H as [->|H]; [congruence|]. destruct (IH (i + 1) H) as (n & E & N). exists (S n). split; [lia|assumption].
  Qed.
  Lemma pos_from_notin i k l : ~ In k l -> pos_from i k l = -1.
  Proof.
    revert i. induction l as [|x l IH]; intros i H; [reflexivity|]. cbn [Intern_Spec.pos_from].
    destruct (keq x k) as [->|Hne]; [exfalso; apply H; now left|]. apply IH. intros H'. apply H. now right.
  Qed.
  Lemma pos_from_app i k l m : In k l -> pos_from i k (l ++ m) = pos_from i k l.
  Proof.
    revert i. induction l as [|x l IH]; intros i H; [destruct H|]. cbn [app Intern_Spec.pos_from].
    destruct (keq x k) as [->|Hne]; [reflexivity|]. destruct H as [->|H]; [congruence|]. now apply IH.
  Qed.
  Lemma pos_from_last i k l : ~ In k l -> pos_from i k (l ++ [k]) = i + Z.of_nat (length l).
  Proof.
    revert i. induction l as [|x l IH]; intros i H; cbn [app Intern_Spec.pos_from length].
    - destruct (keq k k); [lia|congruence].
    - destruct (keq x k) as [->|Hne]; [exfalso; apply H; now left|]. rewrite IH; [lia|]. intros H'. apply H. now right.
  Qed.

  Lemma good_init : good intern_new [].
  Proof. repeat split; try constructor. Qed.

  Lemma step_good s l o : good s l ->
    fst (istep K keq s o) = fst (ref_step K keq l o) /\ good (snd (istep K keq s o)) (snd (ref_step K keq l o)).
  Proof.
    intros (ND & EL & EN & F). destruct o as [k gen|]; cbn [istep ref_step].
    - unfold key2id. rewrite F. destruct (in_dec keq k l) as [Hin|Hin].
      + cbn. split; [reflexivity|repeat split; auto].
      + destruct gen; cbn [fst snd].
        * split; [unfold size; lia|].
          split; [apply (Permutation_NoDup (l := k :: l)); [apply Permutation_cons_append|now constructor]|].
          cbn [lbt tbl]. split; [now rewrite EL|]. split; [rewrite app_length; cbn; lia|].
          intros k'. cbn [Intern_Model.find]. destruct (keq k k') as [<-|Hne].
          -- destruct (in_dec keq k (l ++ [k])) as [_|N]; [|exfalso; apply N; apply in_or_app; right; now left].
             unfold pos. rewrite pos_from_last by assumption. unfold size. f_equal. lia.
          -- rewrite F. destruct (in_dec keq k' l) as [Hi|Hi], (in_dec keq k' (l ++ [k])) as [Hj|Hj]; try reflexivity.
             ++ unfold pos. now rewrite pos_from_app.
             ++ exfalso. apply Hj, in_or_app. now left.
             ++ exfalso. apply in_app_or in Hj as [Hj|[Hj|[]]]; congruence.
        * split; [reflexivity|repeat split; auto].
    - cbn. split; [reflexivity|apply good_init].
  Qed.

  Lemma run_good ops : forall s l, good s l ->
    fst (irun K keq ops s) = fst (ref_run K keq ops l) /\ good (snd (irun K keq ops s)) (snd (ref_run K keq ops l)).
  Proof.
    induction ops as [|o ops IH]; intros s l G; [cbn; auto|].
    cbn [irun ref_run]. destruct (step_good s l o G) as [E1 G1].
    destruct (istep K keq s o) as [x s1], (ref_step K keq l o) as [y l1]. cbn [fst snd] in *.
    destruct (IH s1 l1 G1) as [E2 G2].
    destruct (irun K keq ops s1) as [xs s2], (ref_run K keq ops l1) as [ys l2]. cbn [fst snd] in *.
    split; [congruence|assumption].
  Qed.

  Lemma good_shows s l : good s l -> shows K keq s l.
  Proof.
    intros (ND & EL & EN & F). unfold shows.
    assert (KI : forall k, key2id_nogen K keq s k = pos k l).
    { intros k. unfold key2id_nogen. rewrite F. destruct (in_dec keq k l); [reflexivity|]. unfold pos. now rewrite pos_from_notin. }
    assert (IK : forall id k, id2key s id = Ok k <-> 0 <= id /\ nth_error l (Z.to_nat id) = Some k).
    { intros id k. unfold id2key. rewrite EL. destruct (id <? 0) eqn:E; [split; [discriminate|lia]|].
      destruct (nth_error l (Z.to_nat id)) as [k'|]; split.
      - intros [= ->]. split; [lia|reflexivity].
      - intros [_ [= ->]]. reflexivity.
      - discriminate.
      - intros [_ H]. discriminate. }
    split; [exact ND|]. split; [unfold size; lia|].
    split. { unfold empty. destruct (tbl s); cbn in EN; destruct l; cbn in *; congruence || lia. }
    split; [exact KI|].
    split. { intros k. unfold exist_key. rewrite F. destruct (in_dec keq k l); split; auto; try discriminate; tauto. }
    split. { intros id. unfold exist_id. rewrite EL. lia. }
    split; [exact IK|]. intros k id H. split.
    - intros <-. apply IK. split; [assumption|]. rewrite KI in *. unfold pos in *.
      destruct (in_dec keq k l) as [Hin|Hin].
      + destruct (pos_from_in 0 k l Hin) as (n & E & N). rewrite E. replace (Z.to_nat (0 + Z.of_nat n)) with n by lia. exact N.
      + rewrite pos_from_notin in H by assumption. lia.
    - intros Hid. apply IK in Hid as [H0 Hn]. rewrite KI. unfold pos.
      destruct (pos_from_in 0 k l (nth_error_In _ _ Hn)) as (n & E & N). rewrite E.
      assert (n = Z.to_nat id); [|lia].
      apply (proj1 (NoDup_nth_error l) ND); [apply nth_error_Some; congruence|congruence].
  Qed.

  Lemma find_in k t i : NoDup (map fst t) -> In (k, i) t -> find k t = Some i.
  Proof.
    induction t as [|[k' i'] t IH]; intros ND H; [destruct H|]. cbn in *. inversion ND as [|? ? N1 N2]; subst.
    destruct H as [[= -> ->]|H].
    - destruct (keq k k); congruence.
    - destruct (keq k' k) as [->|]; [exfalso; apply N1; now apply (in_map fst) in H|auto].
  Qed.
  Lemma find_some k t i : find k t = Some i -> In (k, i) t.
  Proof.
    induction t as [|[k' i'] t IH]; cbn; [discriminate|]. destruct (keq k' k) as [->|]; [intros [= ->]; now left|right; auto].
  Qed.
  Lemma find_none k t : find k t = None -> ~ In k (map fst t).
  Proof.
    induction t as [|[k' i'] t IH]; cbn; [tauto|]. destruct (keq k' k) as [->|]; [discriminate|].
    intros H [H'|H']; [congruence|now apply IH].
  Qed.

  Lemma set_nth_length l i k : length (set_nth K l i k) = length l.
  Proof. revert i. induction l as [|x l IH]; intros [|i]; cbn; auto. Qed.
  Lemma set_nth_nth l i k j : nth_error (set_nth K l i k) j =
    if (i =? j)%nat then option_map (fun _ => k) (nth_error l j) else nth_error l j.
  Proof. revert i j. induction l as [|y l IH]; intros [|i] [|j]; cbn; auto; try (now destruct (i =? j)%nat); apply IH. Qed.

  (** Rebuilding from entries that are pairs (key, position in [l]). *)
  Lemma rebuild_spec (l : list K) t : forall b, length b = length l ->
    (forall k i, In (k, i) t -> 0 <= i /\ nth_error l (Z.to_nat i) = Some k) ->
    exists b', rebuild K t b = Ok b' /\ length b' = length l /\
      forall n, nth_error b' n = nth_error b n \/ nth_error b' n = nth_error l n.
  Proof.
    induction t as [|[k i] t IH]; intros b Lb H.
    - exists b. cbn. auto.
    - destruct (H k i (or_introl eq_refl)) as [H0 Hn].
      assert (Hl : (Z.to_nat i < length l)%nat) by (apply nth_error_Some; congruence).
      cbn [rebuild]. replace ((0 <=? i) && (i <? Z.of_nat (length b))) with true by lia.
      destruct (IH (set_nth K b (Z.to_nat i) k)) as (b' & E & L & N).
      + now rewrite set_nth_length.
      + intros k' i' Hin. apply H. now right.
      + exists b'. split; [exact E|]. split; [exact L|]. intros n. destruct (N n) as [N1|N1]; [|now right].
        rewrite set_nth_nth in N1. destruct (Z.to_nat i =? n)%nat eqn:En; [|now left].
        apply Nat.eqb_eq in En. subst n. right. rewrite N1, Hn.
        destruct (nth_error b (Z.to_nat i)) eqn:Eb; [reflexivity|]. apply nth_error_None in Eb. lia.
  Qed.

  Lemma rebuild_keeps l t : forall b b', rebuild K t b = Ok b' ->
    (forall k i, In (k, i) t -> 0 <= i /\ nth_error l (Z.to_nat i) = Some k) -> length b = length l ->
    forall n, nth_error b n = nth_error l n -> nth_error b' n = nth_error l n.
  Proof.
    induction t as [|[k i] t IH]; intros b b' E H Lb n Hn; cbn [rebuild] in E.
    - now injection E as <-.
    - destruct ((0 <=? i) && (i <? Z.of_nat (length b))) eqn:Er; [|discriminate].
      apply (IH _ _ E); [intros; apply H; now right|now rewrite set_nth_length|].
      rewrite set_nth_nth. destruct (Z.to_nat i =? n)%nat eqn:En; [|assumption]. apply Nat.eqb_eq in En. subst n.
      destruct (H k i (or_introl eq_refl)) as [_ Hk]. rewrite Hk.
      destruct (nth_error b (Z.to_nat i)) eqn:Eb; [reflexivity|]. apply nth_error_None in Eb. lia.
  Qed.

  Lemma rebuild_sets l t : forall b b', rebuild K t b = Ok b' ->
    (forall k i, In (k, i) t -> 0 <= i /\ nth_error l (Z.to_nat i) = Some k) -> length b = length l ->
    forall k i, In (k, i) t -> nth_error b' (Z.to_nat i) = nth_error l (Z.to_nat i).
  Proof.
    induction t as [|[k i] t IH]; intros b b' E H Lb k' i' Hin; cbn [rebuild] in E; [destruct Hin|].
    destruct ((0 <=? i) && (i <? Z.of_nat (length b))) eqn:Er; [|discriminate].
    destruct Hin as [[= -> ->]|Hin].
    - apply (rebuild_keeps l t _ _ E); [intros; apply H; now right|now rewrite set_nth_length|].
      rewrite set_nth_nth, Nat.eqb_refl. destruct (H k' i' (or_introl eq_refl)) as [_ Hk]. rewrite Hk.
      destruct (nth_error b (Z.to_nat i')) eqn:Eb; [reflexivity|]. apply nth_error_None in Eb. lia.
    - apply (IH _ _ E) with (k := k'); [intros; apply H; now right|now rewrite set_nth_length|assumption].
  Qed.

  Lemma reload_good d s l t : good s l -> Permutation t (tbl s) -> NoDup (map fst (tbl s)) ->
    exists s', reload K d t = Ok s' /\ good s' l.
  Proof.
    intros (ND & EL & EN & F) HP NK.
    assert (Hlen : length t = length l) by (rewrite (Permutation_length HP); lia).
    assert (H : forall k i, In (k, i) t -> 0 <= i /\ nth_error l (Z.to_nat i) = Some k).
    { intros k i Hin. apply (Permutation_in _ HP) in Hin. apply (find_in _ _ _ NK) in Hin. rewrite F in Hin.
      destruct (in_dec keq k l) as [Hl|]; [|discriminate]. injection Hin as <-. unfold pos.
      destruct (pos_from_in 0 k l Hl) as (n & E & N). rewrite E. split; [lia|]. now replace (Z.to_nat (0 + Z.of_nat n)) with n by lia. }
    destruct (rebuild_spec l t (repeat d (length t))) as (b & E & L & _); [now rewrite repeat_length|exact H|].
    unfold reload. rewrite E. cbn [obind]. eexists. split; [reflexivity|].
    split; [exact ND|]. cbn [lbt tbl]. split; [|split; [exact Hlen|]].
    - assert (X : forall n, nth_error b n = nth_error l n).
      { intros n. destruct (nth_error l n) as [k|] eqn:En.
        - assert (Hk : In (k, Z.of_nat n) t).
          { apply (Permutation_in _ (Permutation_sym HP)). apply find_some. rewrite F.
            destruct (in_dec keq k l) as [Hl|Hl]; [|exfalso; apply Hl; eapply nth_error_In; eassumption].
            f_equal. unfold pos. destruct (pos_from_in 0 k l Hl) as (m & Em & Nm). rewrite Em.
            assert (m = n); [|lia]. apply (proj1 (NoDup_nth_error l) ND); [apply nth_error_Some; congruence|congruence]. }
          pose proof (rebuild_sets l t _ _ E H ltac:(now rewrite repeat_length) k (Z.of_nat n) Hk) as R.
          rewrite Nat2Z.id in R. congruence.
        - apply nth_error_None in En. apply nth_error_None. lia. }
      clear - X. revert l X. induction b as [|x b IH]; intros [|y l] X; auto; try (specialize (X O); discriminate).
      pose proof (X O) as X0. injection X0 as ->. f_equal. apply IH. intros n. apply (X (S n)).
    - intros k. rewrite <- F. destruct (find k (tbl s)) as [i|] eqn:Ef.
      + apply find_in; [apply (Permutation_NoDup (Permutation_map fst (Permutation_sym HP)) NK)|].
        apply (Permutation_in _ (Permutation_sym HP)). now apply find_some.
      + apply find_none in Ef. destruct (find k t) as [i|] eqn:Et; [|reflexivity]. exfalso. apply Ef.
        apply find_some in Et. apply (Permutation_in _ HP) in Et. now apply (in_map fst) in Et.
  Qed.

  Lemma run_nodup ops : forall s, NoDup (map fst (tbl s)) -> NoDup (map fst (tbl (snd (irun K keq ops s)))).
  Proof.
    induction ops as [|o ops IH]; intros s H; [exact H|]. cbn [irun].
    destruct (istep K keq s o) as [x s1] eqn:E1.
    destruct (irun K keq ops s1) as [xs s2] eqn:E2. cbn [snd].
    replace s2 with (snd (irun K keq ops s1)) by now rewrite E2. apply IH.
    destruct o as [k gen|]; cbn in E1.
    - unfold key2id in E1. destruct (find k (tbl s)) eqn:F; [injection E1 as _ <-; exact H|].
      destruct gen; injection E1 as _ <-; [|exact H]. cbn. constructor; [now apply find_none|exact H].
    - injection E1 as _ <-. constructor.
  Qed.
End Proof.
