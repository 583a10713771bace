From Verif Require Import Common CommonLemmas Optional_Model Optional_Spec.

Section Proof.
  Variable T : Type.
  Notation hget := (hget T). Notation hset := (hset T). Notation hdel := (hdel T).

  Record inv (s : st T) (e : nat -> option T) : Prop := {
    i_nodup : NoDup (map fst (heap s));
    i_fresh : forall l, In l (map fst (heap s)) -> l < nxt s;
    i_own : forall l, In l (map fst (heap s)) -> exists x, env s x = Some l;
    i_inj : forall x y l, env s x = Some l -> env s y = Some l -> x = y;
    i_val : forall x, match env s x with None => e x = None | Some l => exists v, hget l (heap s) = Some v /\ e x = Some v end }.

  Lemma hget_in l h : hget l h <> None <-> In l (map fst h).
  Proof.
    induction h as [|[a v] h IH]; cbn; [tauto|]. destruct (Nat.eqb_spec a l) as [->|]; [split; [now left|discriminate]|].
    rewrite IH. split; [now right|intros [|]; [lia|assumption]].
  Qed.
  Lemma hget_hset l v h l' : hget l h <> None -> hget l' (hset l v h) = if (l =? l')%nat then Some v else hget l' h.
  Proof.
    induction h as [|[a w] h IH]; cbn; [congruence|]. destruct (Nat.eqb_spec a l) as [->|]; cbn.
    - intros _. destruct (Nat.eqb_spec l l'); reflexivity.
    - intros H. destruct (Nat.eqb_spec a l') as [->|]; [destruct (Nat.eqb_spec l l'); [lia|reflexivity]|now apply IH].
  Qed.
  Lemma hset_keys l v h : map fst (hset l v h) = map fst h.
  Proof. induction h as [|[a w] h IH]; cbn; [reflexivity|]. destruct (Nat.eqb_spec a l) as [->|]; cbn; [reflexivity|now rewrite IH]. Qed.
  Lemma hget_hdel l h l' : NoDup (map fst h) -> hget l' (hdel l h) = if (l =? l')%nat then None else hget l' h.
  Proof.
    induction h as [|[a w] h IH]; cbn; intros ND; [now destruct (l =? l')%nat|]. inversion ND as [|? ? N1 N2]; subst.
    destruct (Nat.eqb_spec a l) as [->|]; cbn.
    - destruct (Nat.eqb_spec l l') as [E'|]; [|reflexivity]. rewrite <- E'.
      destruct (hget l h) eqn:E; [|reflexivity]. exfalso. apply N1, hget_in. congruence.
    - destruct (Nat.eqb_spec a l') as [->|]; [destruct (Nat.eqb_spec l l'); [lia|reflexivity]|now apply IH].
  Qed.
  Lemma hdel_keys l h x : NoDup (map fst h) -> In x (map fst (hdel l h)) <-> In x (map fst h) /\ x <> l.
  Proof.
    intros ND. rewrite <- !hget_in, hget_hdel by assumption. destruct (Nat.eqb_spec l x) as [Ex|Ex]; split.
    - congruence.
    - intros [_ H]. congruence.
    - intros H. split; congruence.
    - tauto.
  Qed.
  Lemma hdel_nodup l h : NoDup (map fst h) -> NoDup (map fst (hdel l h)).
  Proof.
    induction h as [|[a w] h IH]; cbn; intros ND; [constructor|]. inversion ND as [|? ? N1 N2]; subst.
    destruct (Nat.eqb_spec a l); cbn; [assumption|]. constructor; [rewrite hdel_keys by assumption; tauto|auto].
  Qed.

  Lemma inv_init : inv opt_init (fun _ => None).
  Proof. split; cbn; try constructor; try tauto; discriminate || reflexivity. Qed.

  Lemma inv_get s e x l : inv s e -> env s x = Some l -> exists v, hget l (heap s) = Some v /\ e x = Some v.
  Proof. intros I H. pose proof (i_val _ _ I x) as V. rewrite H in V. exact V. Qed.
  Lemma inv_none s e x : inv s e -> (env s x = None <-> e x = None).
  Proof.
    intros I. pose proof (i_val _ _ I x) as V. destruct (env s x) as [l|]; [|tauto].
    destruct V as (v & _ & ->). split; discriminate.
  Qed.
  Lemma inv_fresh s e x : inv s e -> env s x <> Some (nxt s).
  Proof.
    intros I H. destruct (inv_get _ _ _ _ I H) as (v & Hv & _).
    assert (In (nxt s) (map fst (heap s))) as Hin by (apply hget_in; congruence). apply (i_fresh _ _ I) in Hin. lia.
  Qed.

  (** x gets a fresh cell holding [v]; the old cell is deleted. *)
  Lemma replace_some s e x v : inv s e -> exists h2, delete T (env s x) ((nxt s, v) :: heap s) = Ok h2 /\
    inv (mkSt (eset (env s) x (Some (nxt s))) h2 (S (nxt s))) (vset T e x (Some v)).
  Proof.
    intros I. pose proof (i_nodup _ _ I) as ND.
    assert (Fr : ~ In (nxt s) (map fst (heap s))) by (intros H; apply (i_fresh _ _ I) in H; lia).
    assert (ND' : NoDup (map fst ((nxt s, v) :: heap s))) by (cbn; now constructor).
    assert (Hh : exists h2, delete T (env s x) ((nxt s, v) :: heap s) = Ok h2 /\ NoDup (map fst h2) /\
       (forall l, In l (map fst h2) <-> (l = nxt s \/ In l (map fst (heap s))) /\ env s x <> Some l) /\
       (forall l, env s x <> Some l -> hget l h2 = if (nxt s =? l)%nat then Some v else hget l (heap s))).
    { unfold delete. destruct (env s x) as [l|] eqn:Ex.
      - destruct (inv_get _ _ _ _ I Ex) as (w & Hw & _).
        assert (Hl : nxt s <> l) by (intros <-; apply Fr, hget_in; congruence).
        cbn [Optional_Model.hget]. destruct (Nat.eqb_spec (nxt s) l); [lia|]. rewrite Hw.
        eexists. split; [reflexivity|]. split; [now apply hdel_nodup|]. split.
        + intros l'. rewrite hdel_keys by assumption. cbn. split; intros [H1 H2]; split; try tauto; try congruence.
          destruct H1 as [->|]; [now left|now right].
          destruct H1 as [->|]; [now left|now right].
        + intros l' Hl'. rewrite hget_hdel by assumption. destruct (Nat.eqb_spec l l'); [congruence|reflexivity].
      - eexists. split; [reflexivity|]. split; [assumption|]. split.
        + intros l'. cbn. split; [intros [<-|H]; split; auto; discriminate|intros [[->|H] _]; auto].
        + intros l' _. reflexivity. }
    destruct Hh as (h2 & E & N2 & K2 & G2). exists h2. split; [exact E|]. split; cbn [env heap nxt].
    - assumption.
    - intros l Hl. apply K2 in Hl as [[->|Hl] _]; [lia|]. apply (i_fresh _ _ I) in Hl. lia.
    - intros l Hl. apply K2 in Hl as [[->|Hl] Hn]; [exists x; unfold eset; now rewrite Nat.eqb_refl|].
      destruct (i_own _ _ I l Hl) as (y & Hy). exists y. unfold eset. destruct (Nat.eqb_spec y x); [congruence|assumption].
    - intros a b l Ha Hb. unfold eset in *. destruct (Nat.eqb_spec a x), (Nat.eqb_spec b x); subst; auto.
      + injection Ha as <-. exfalso. eapply inv_fresh; eassumption.
      + injection Hb as <-. exfalso. eapply inv_fresh; eassumption.
      + eapply (i_inj _ _ I); eassumption.
    - intros y. unfold eset, vset. destruct (Nat.eqb_spec y x) as [->|Hne].
      + exists v. split; [|reflexivity]. rewrite G2 by (eapply inv_fresh; eassumption). now rewrite Nat.eqb_refl.
      + pose proof (i_val _ _ I y) as V. destruct (env s y) as [l|] eqn:Ey; [|assumption].
        destruct V as (w & Hw & He). exists w. split; [|assumption]. rewrite G2.
        * destruct (Nat.eqb_spec (nxt s) l) as [<-|]; [exfalso; eapply inv_fresh; eassumption|assumption].
        * intros Hx. apply Hne. eapply (i_inj _ _ I); eassumption.
  Qed.

  Lemma replace_none s e x : inv s e -> exists h2, delete T (env s x) (heap s) = Ok h2 /\
    inv (mkSt (eset (env s) x None) h2 (nxt s)) (vset T e x None).
  Proof.
    intros I. pose proof (i_nodup _ _ I) as ND.
    assert (Hh : exists h2, delete T (env s x) (heap s) = Ok h2 /\ NoDup (map fst h2) /\
       (forall l, In l (map fst h2) <-> In l (map fst (heap s)) /\ env s x <> Some l) /\
       (forall l, env s x <> Some l -> hget l h2 = hget l (heap s))).
    { unfold delete. destruct (env s x) as [l|] eqn:Ex.
      - destruct (inv_get _ _ _ _ I Ex) as (w & Hw & _). rewrite Hw.
        eexists. split; [reflexivity|]. split; [now apply hdel_nodup|]. split.
        + intros l'. rewrite hdel_keys by assumption. split; intros [H1 H2]; split; try tauto; try congruence.
        + intros l' Hl'. rewrite hget_hdel by assumption. destruct (Nat.eqb_spec l l'); [congruence|reflexivity].
      - eexists. split; [reflexivity|]. split; [assumption|]. split; [|reflexivity].
        intros l'. split; [intros; split; [assumption|discriminate]|tauto]. }
    destruct Hh as (h2 & E & N2 & K2 & G2). exists h2. split; [exact E|]. split; cbn [env heap nxt].
    - assumption.
    - intros l Hl. apply K2 in Hl as [Hl _]. now apply (i_fresh _ _ I).
    - intros l Hl. apply K2 in Hl as [Hl Hn].
      destruct (i_own _ _ I l Hl) as (y & Hy). exists y. unfold eset. destruct (Nat.eqb_spec y x); [congruence|assumption].
    - intros a b l Ha Hb. unfold eset in *. destruct (Nat.eqb_spec a x), (Nat.eqb_spec b x); subst; auto; try discriminate.
      eapply (i_inj _ _ I); eassumption.
    - intros y. unfold eset, vset. destruct (Nat.eqb_spec y x) as [->|Hne]; [reflexivity|].
      pose proof (i_val _ _ I y) as V. destruct (env s y) as [l|] eqn:Ey; [|assumption].
      destruct V as (w & Hw & He). exists w. split; [|assumption]. rewrite G2; [assumption|].
      intros Hx. apply Hne. eapply (i_inj _ _ I); eassumption.
  Qed.

  Lemma overwrite s e x l v w : inv s e -> env s x = Some l -> hget l (heap s) = Some w ->
    inv (mkSt (env s) (hset l v (heap s)) (nxt s)) (vset T e x (Some v)).
  Proof.
    intros I Hx Hl. assert (Hn : hget l (heap s) <> None) by congruence.
    split; cbn [env heap nxt]; try rewrite hset_keys.
    - apply (i_nodup _ _ I).
    - apply (i_fresh _ _ I).
    - apply (i_own _ _ I).
    - apply (i_inj _ _ I).
    - intros y. pose proof (i_val _ _ I y) as V. unfold vset. destruct (Nat.eqb_spec y x) as [->|Hne].
      + rewrite Hx. exists v. rewrite hget_hset by assumption. rewrite Nat.eqb_refl. auto.
      + destruct (env s y) as [l'|] eqn:Ey; [|assumption]. destruct V as (u & Hu & He). exists u. split; [|assumption].
        rewrite hget_hset by assumption. destruct (Nat.eqb_spec l l') as [<-|]; [|assumption].
        exfalso. apply Hne. eapply (i_inj _ _ I); eassumption.
  Qed.

  Lemma assign_val_ok s e x v : inv s e -> exists s', assign_val T x v s = Ok s' /\ inv s' (vset T e x (Some v)).
  Proof.
    intros I. unfold assign_val. destruct (env s x) as [l|] eqn:Ex.
    - destruct (inv_get _ _ _ _ I Ex) as (w & Hw & _). rewrite Hw. eexists. split; [reflexivity|]. now apply overwrite with (w := w).
    - destruct (replace_some s e x v I) as (h2 & E & I2). rewrite Ex in E. cbn in E. injection E as <-. eexists. split; [reflexivity|exact I2].
  Qed.

  (** Updating functions pointwise is enough. *)
  Lemma inv_ext s e e' : (forall x, e x = e' x) -> inv s e -> inv s e'.
  Proof.
    intros H I. destruct I as [A B C D E]. split; auto. intros x. specialize (E x). rewrite <- H. exact E.
  Qed.

  Lemma step_ok s e o : inv s e -> match ref_step T e o with
    | Ok e' => exists s', ostep T s o = Ok s' /\ inv s' e'
    | UB => ostep T s o = UB
    | _ => False
    end.
  Proof.
    intros I. destruct o as [x|x y|x v|x y|x v|x y]; cbn [ref_step ostep].
    - unfold assign_opt. cbn [copy obind]. destruct (replace_none s e x I) as (h2 & -> & I2). cbn [obind]. eexists. split; [reflexivity|exact I2].
    - unfold assign_opt, copy. destruct (env s y) as [l|] eqn:Ey.
      + destruct (inv_get _ _ _ _ I Ey) as (v & Hv & He). cbn [deref]. rewrite Hv. cbn [obind].
        destruct (replace_some s e x v I) as (h2 & -> & I2). cbn [obind]. eexists. split; [reflexivity|]. now rewrite He.
      + cbn [obind]. destruct (replace_none s e x I) as (h2 & -> & I2). cbn [obind]. eexists. split; [reflexivity|].
        apply (inv_none _ _ _ I) in Ey. now rewrite Ey.
    - now apply assign_val_ok.
    - destruct (env s y) as [l|] eqn:Ey.
      + destruct (inv_get _ _ _ _ I Ey) as (v & Hv & He). rewrite He. cbn [deref]. rewrite Hv. cbn [obind]. now apply assign_val_ok.
      + assert (e y = None) as -> by now apply (inv_none _ _ _ I). reflexivity.
    - unfold write. destruct (env s x) as [l|] eqn:Ex.
      + destruct (inv_get _ _ _ _ I Ex) as (w & Hw & He). rewrite He, Hw. eexists. split; [reflexivity|]. now apply overwrite with (w := w).
      + assert (e x = None) as -> by now apply (inv_none _ _ _ I). reflexivity.
    - eexists. split; [reflexivity|]. unfold swap. split; cbn [env heap nxt].
      + apply (i_nodup _ _ I).
      + apply (i_fresh _ _ I).
      + intros l Hl. destruct (i_own _ _ I l Hl) as (z & Hz). unfold eset.
        destruct (Nat.eqb_spec z x) as [->|]; [exists y; rewrite Nat.eqb_refl; assumption|].
        destruct (Nat.eqb_spec z y) as [->|]; [exists x; destruct (Nat.eqb_spec x y) as [->|]; [congruence|rewrite Nat.eqb_refl; assumption]|].
        exists z. destruct (Nat.eqb_spec z y); [congruence|]. destruct (Nat.eqb_spec z x); [congruence|assumption].
      + intros a b l. unfold eset. pose proof (i_inj _ _ I) as J.
        destruct (Nat.eqb_spec a y), (Nat.eqb_spec a x), (Nat.eqb_spec b y), (Nat.eqb_spec b x); subst; intros Ha Hb; auto;
          match type of Ha with env s ?p = _ => match type of Hb with env s ?q = _ => pose proof (J p q l Ha Hb) end end; congruence.
      + intros z. unfold eset, vset. pose proof (i_val _ _ I) as V.
        destruct (Nat.eqb_spec z y) as [->|]; [apply (V x)|]. destruct (Nat.eqb_spec z x) as [->|]; [apply (V y)|apply V].
  Qed.

  Lemma run_ok ops : forall s e, inv s e -> match ref_run T ops e with
    | Ok e' => exists s', orun T ops s = Ok s' /\ inv s' e'
    | UB => orun T ops s = UB
    | _ => False
    end.
  Proof.
    induction ops as [|o ops IH]; intros s e I; cbn [ref_run orun]; [eauto|].
    pose proof (step_ok s e o I) as S. destruct (ref_step T e o) as [e'| | |]; cbn [obind]; try contradiction.
    - destruct S as (s' & -> & I'). cbn [obind]. now apply IH.
    - now rewrite S.
  Qed.

  Theorem optional_value_semantics ops : match ref_run T ops (fun _ => None) with
    | Ok e => exists s, orun T ops opt_init = Ok s /\ (forall x, read T s x = Ok (e x)) /\ no_leak T s
    | r => orun T ops opt_init = UB /\ r = UB
    end.
  Proof.
    pose proof (run_ok ops _ _ inv_init) as R. destruct (ref_run T ops (fun _ => None)) as [e| | |]; try contradiction; auto.
    destruct R as (s & E & I). exists s. split; [exact E|]. split.
    - intros x. unfold read. pose proof (i_val _ _ I x) as V. destruct (env s x) as [l|]; [|now rewrite V].
      destruct V as (v & Hv & ->). cbn. now rewrite Hv.
    - split; [apply (i_nodup _ _ I)|]. intros l. split.
      + intros Hl. destruct (i_own _ _ I l Hl) as (x & Hx). exists x. split; [assumption|]. intros y Hy. eapply (i_inj _ _ I); eassumption.
      + intros (x & Hx & _). destruct (inv_get _ _ _ _ I Hx) as (v & Hv & _). apply hget_in. congruence.
  Qed.

  Variable eqb ltb : T -> T -> bool.
  Theorem optional_order : total_order eqb ltb ->
    total_order (o_eq T eqb) (o_lt T ltb) /\
    (forall v, o_lt T ltb None (Some v) = true) /\
    (forall a b, o_ne T eqb a b = negb (o_eq T eqb a b)) /\
    (forall a b, o_gt T ltb a b = true <-> o_lt T ltb b a = true) /\
    (forall a b, o_le T ltb a b = true <-> o_lt T ltb a b = true \/ a = b) /\
    (forall a b, o_ge T ltb a b = true <-> o_gt T ltb a b = true \/ a = b).
  Proof.
    intros (E & Ir & Tr & To).
    assert (TO : total_order (o_eq T eqb) (o_lt T ltb)).
    { split; [|split; [|split]].
      - intros [a|] [b|]; cbn; try (split; [discriminate|congruence]); [rewrite E; split; congruence|split; reflexivity].
      - intros [a|]; cbn; auto.
      - intros [a|] [b|] [c|]; cbn; try discriminate; auto. apply Tr.
      - intros [a|] [b|]; cbn; auto. destruct (To a b) as [|[->|]]; auto. }
    split; [exact TO|]. split; [reflexivity|]. split; [reflexivity|]. split; [reflexivity|].
    destruct TO as (E' & Ir' & Tr' & To').
    assert (LE : forall a b, negb (o_lt T ltb b a) = true <-> o_lt T ltb a b = true \/ a = b).
    { intros a b. rewrite negb_true_iff. split.
      - intros H. destruct (To' a b) as [|[|]]; auto. congruence.
      - intros [H| ->]; [|apply Ir']. destruct (o_lt T ltb b a) eqn:X; [|reflexivity].
        pose proof (Tr' _ _ _ H X) as Y. rewrite Ir' in Y. discriminate. }
    split; [exact LE|]. intros a b. unfold o_ge, o_gt. rewrite LE. split; intros [H|H]; auto.
  Qed.
End Proof.
