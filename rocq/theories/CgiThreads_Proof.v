(** Invariants of the web server's threads. *)
From Verif Require Import Common CommonLemmas CgiThreads_Spec CgiThreads_Model.
Local Open Scope Z_scope.

Lemma put_same {T} (l : list T) i x y : nth_error l i = Some y -> nth_error (put l i x) i = Some x.
Proof. revert i. induction l as [|z l IH]; intros [|i] H; cbn in *; try discriminate; auto. Qed.
Lemma put_other {T} (l : list T) i j x : i <> j -> nth_error (put l i x) j = nth_error l j.
Proof. revert i j. induction l as [|z l IH]; intros [|i] [|j] H; cbn; auto; try congruence. Qed.
Lemma put_length {T} (l : list T) i x : length (put l i x) = length l.
Proof. revert i. induction l as [|z l IH]; intros [|i]; cbn; auto. Qed.
Lemma put_map {T U} (f : T -> U) (l : list T) i x y : nth_error l i = Some y -> f x = f y -> map f (put l i x) = map f l.
Proof. revert i. induction l as [|z l IH]; intros [|i] H E; cbn in *; try discriminate; [injection H as ->; congruence|]. f_equal. eauto. Qed.

Lemma put_put {T} (l : list T) i x y : put (put l i x) i y = put l i y.
Proof. revert i. induction l as [|z l IH]; intros [|i]; cbn; auto. f_equal. auto. Qed.
Lemma NoDup_app_l {T} (a b : list T) : NoDup (a ++ b) -> NoDup a.
Proof. induction a as [|x a IH]; intros H; [constructor|]. cbn in H. inversion H as [|? ? H1 H2]; subst. constructor; auto. intros X. apply H1, in_or_app. auto. Qed.
Lemma NoDup_snoc {T} (a : list T) x : NoDup a -> ~ In x a -> NoDup (a ++ [x]).
Proof.
  induction a as [|y a IH]; intros H N; cbn; [constructor; [intros []|constructor]|]. inversion H as [|? ? H1 H2]; subst. constructor.
  - intros X. apply in_app_or in X as [X|[X|[]]]; [auto|]. apply N. left. auto.
  - apply IH; auto. intros X. apply N. now right.
Qed.

(** What a worker, a CGI object is left with. *)
Definition turn_of (w : nat) (cur : option nat) (e : event) : option nat :=
  match e with
  | Accepted w' c => if Nat.eqb w' w then Some c else cur
  | Closed w' _ => if Nat.eqb w' w then None else cur
  | _ => cur
  end.
Definition work_of (k : nat) (cur : option nat) (e : event) : option nat :=
  match e with
  | Begin _ k' c => if Nat.eqb k' k then Some c else cur
  | End _ k' _ => if Nat.eqb k' k then None else cur
  | _ => cur
  end.
Lemma in_turn_snoc w l e cur : in_turn w cur l -> in_turn w (fold_left (turn_of w) l cur) [e] -> in_turn w cur (l ++ [e]).
Proof.
  revert cur. induction l as [|x l IH]; intros cur H He; [exact He|].
  cbn [app fold_left] in *. destruct x; cbn [in_turn turn_of] in *; try destruct (Nat.eqb _ _); try destruct H; auto.
Qed.
Lemma alone_snoc k l e cur : alone k cur l -> alone k (fold_left (work_of k) l cur) [e] -> alone k cur (l ++ [e]).
Proof.
  revert cur. induction l as [|x l IH]; intros cur H He; [exact He|].
  cbn [app fold_left] in *. destruct x; cbn [alone work_of] in *; try destruct (Nat.eqb _ _); try destruct H; auto.
Qed.
Lemma fold_snoc {A B} (f : A -> B -> A) l e a : fold_left f (l ++ [e]) a = f (fold_left f l a) e.
Proof. rewrite fold_left_app. reflexivity. Qed.

Definition conn_of (p : wpc) : option nat := match p with Timing c | Reading c | Working c | Sending c => Some c | _ => None end.
Definition work_on (p : wpc) : option nat := match p with Working c => Some c | _ => None end.
Definition early (p : wpc) : Prop := match p with Timing _ | Reading _ => True | _ => False end.
Definition turn (s : server) (w : nat) : option nat := match nth_error (workers s) w with Some x => conn_of (pc x) | None => None end.
(** The clones that have no thread yet. *)
Definition spare (o : opc) : list nat := match o with Cloning _ cs => cs | Starting _ i cs => skipn i cs | _ => [] end.

Record Inv (s : server) : Prop := {
  i_turn : forall w, in_turn w None (log s) /\ fold_left (turn_of w) (log s) None = turn s w;
  i_alone : forall k, alone k None (log s);
  i_work : forall w x, nth_error (workers s) w = Some x -> fold_left (work_of (object x)) (log s) None = work_on (pc x);
  i_none : forall k, ~ In k (map object (workers s)) -> fold_left (work_of k) (log s) None = None;
  i_objs : NoDup (map object (workers s) ++ spare (owner s));
  i_lt : forall k, In k (map object (workers s) ++ spare (owner s)) -> (k < objects s)%nat;
  i_acc : NoDup (accepted (log s)) /\ forall c, In c (accepted (log s)) -> (c < conns s)%nat;
  i_held : forall w c, turn s w = Some c -> In c (accepted (log s));
  i_diff : forall w w' c, turn s w = Some c -> turn s w' = Some c -> w = w';
  i_beg : NoDup (begun (log s)) /\ forall c, In c (begun (log s)) -> In c (accepted (log s));
  i_early : forall w x c, nth_error (workers s) w = Some x -> early (pc x) -> conn_of (pc x) = Some c -> ~ In c (begun (log s));
  i_own : forall w k c, In (Begin w k c) (log s) -> exists x, nth_error (workers s) w = Some x /\ object x = k }.

Lemma accepted_app a b : accepted (a ++ b) = accepted a ++ accepted b.
Proof. apply flat_map_app. Qed.
Lemma begun_app a b : begun (a ++ b) = begun a ++ begun b.
Proof. apply flat_map_app. Qed.

(** Events that are not about connections, and changes to the owner *)
Definition quiet (e : event) : Prop := match e with Accepted _ _ | Closed _ _ | Begin _ _ _ | End _ _ _ => False | _ => True end.
Lemma inv_quiet s e : quiet e -> Inv s -> Inv (note s e).
Proof.
  intros Q [I1 I2 I3 I4 I5 I6 I7 I8 I9 I10 I11 I12].
  assert (Ea : accepted (log s ++ [e]) = accepted (log s)) by (rewrite accepted_app; destruct e; cbn in *; try contradiction; apply app_nil_r).
  assert (Eb : begun (log s ++ [e]) = begun (log s)) by (rewrite begun_app; destruct e; cbn in *; try contradiction; apply app_nil_r).
  split; unfold turn in *; cbn [note log workers owner objects conns] in *; rewrite ?Ea, ?Eb; auto.
  - intros w. destruct (I1 w) as [H1 H2]. split; [apply in_turn_snoc; auto; destruct e; cbn in *; try contradiction; auto|].
    rewrite fold_snoc, H2. destruct e; cbn in *; try contradiction; reflexivity.
  - intros k. apply alone_snoc; auto. destruct e; cbn in *; try contradiction; auto.
  - intros w x H. rewrite fold_snoc, (I3 w x H). destruct e; cbn in *; try contradiction; reflexivity.
  - intros k H. rewrite fold_snoc, (I4 k H). destruct e; cbn in *; try contradiction; reflexivity.
  - intros w k c H. apply in_app_or in H as [H|[H|[]]]; [eauto|subst e; contradiction].
Qed.
Lemma inv_owner s o : (forall x, In x (spare o) -> In x (spare (owner s))) -> NoDup (map object (workers s) ++ spare o) -> Inv s -> Inv (set_owner s o).
Proof.
  intros HI HN [I1 I2 I3 I4 I5 I6 I7 I8 I9 I10 I11 I12]. split; unfold turn in *; cbn [set_owner log workers owner objects conns] in *; auto.
  intros k H. apply I6. apply in_app_or in H as [H|H]; apply in_or_app; auto.
Qed.
Lemma inv_nospare s o : spare o = [] -> Inv s -> Inv (set_owner s o).
Proof.
  intros E H. apply inv_owner; auto; rewrite E; [intros x []|]. rewrite app_nil_r.
  destruct H as [_ _ _ _ H _ _ _ _ _ _ _]. now apply NoDup_app_l in H.
Qed.
Lemma inv_ths s x : Inv s -> Inv (set_ths s x).
Proof. intros [I1 I2 I3 I4 I5 I6 I7 I8 I9 I10 I11 I12]. split; auto. Qed.
Lemma inv_gone s : Inv s -> Inv (set_gone s).
Proof. intros [I1 I2 I3 I4 I5 I6 I7 I8 I9 I10 I11 I12]. split; auto. Qed.
Lemma inv_dead s : Inv s -> Inv (set_dead s).
Proof. intros [I1 I2 I3 I4 I5 I6 I7 I8 I9 I10 I11 I12]. split; auto. Qed.

Lemma inv_fresh l n : Inv (fresh l n).
Proof.
  split; unfold turn; cbn; auto; try (now constructor); try (split; [constructor|intros ? []]); try (now intros [|w]); try (now intros ? []).
Qed.

Lemma skipn_nth {T} (l : list T) i x : nth_error l i = Some x -> skipn i l = x :: skipn (S i) l.
Proof. revert i. induction l as [|y l IH]; intros [|i] H; cbn in *; try discriminate; [congruence|]. now apply IH. Qed.

Lemma inv_owner_step s ok : Inv s -> Inv (owner_step s ok).
Proof.
  intros H. unfold owner_step. destruct (owner s) as [|sync cs|sync i cs|j y] eqn:Eo; auto.
  - destruct (Nat.eqb _ _).
    + apply inv_owner; auto; [rewrite Eo; cbn [spare skipn]; auto|]. destruct H as [_ _ _ _ H _ _ _ _ _ _ _]. now rewrite Eo in H.
    + destruct ok; [|apply inv_quiet; [exact I|apply inv_nospare; auto]].
      destruct H as [I1 I2 I3 I4 I5 I6 I7 I8 I9 I10 I11 I12]. rewrite Eo in *. cbn [spare] in *.
      split; unfold turn in *; cbn [set_owner new_object log workers owner objects conns spare] in *; auto.
      * rewrite app_assoc. apply NoDup_snoc; auto. intros X. apply I6 in X. lia.
      * intros k Hk. rewrite app_assoc in Hk. apply in_app_or in Hk as [Hk|[<-|[]]]; [apply I6 in Hk; lia|lia].
  - destruct (nth_error cs i) as [k|] eqn:En.
    + destruct ok; [|apply inv_quiet; [exact I|]; apply inv_nospare; [reflexivity|apply inv_ths, H]].
      apply inv_quiet; [exact I|].
      destruct H as [I1 I2 I3 I4 I5 I6 I7 I8 I9 I10 I11 I12]. rewrite Eo in *. cbn [spare] in *. rewrite (skipn_nth _ _ _ En) in *.
      assert (Ht : forall w, (match nth_error (workers s ++ [mkW Fresh k]) w with Some x => conn_of (pc x) | None => None end) = turn s w).
      { intros w. unfold turn. destruct (Nat.lt_ge_cases w (length (workers s))); [now rewrite nth_error_app1|]. rewrite nth_error_app2 by assumption.
        rewrite (proj2 (nth_error_None _ _) H). destruct (w - length (workers s))%nat as [|[|]]; reflexivity. }
      assert (Hk : ~ In k (map object (workers s))).
      { intros X. apply NoDup_remove_2 in I5. apply I5, in_or_app. auto. }
      split; unfold turn; cbn [set_owner set_workers set_ths log workers owner objects conns spare]; auto.
      * intros w. rewrite Ht. apply I1.
      * intros w x Hx. destruct (Nat.lt_ge_cases w (length (workers s))); [rewrite nth_error_app1 in Hx by assumption; eauto|].
        rewrite nth_error_app2 in Hx by assumption. destruct (w - length (workers s))%nat as [|[|]]; try discriminate. injection Hx as <-. cbn. apply I4, Hk.
      * intros k' Hk'. apply I4. intros X. apply Hk'. rewrite map_app. apply in_or_app. auto.
      * rewrite map_app, <- app_assoc. exact I5.
      * intros k'. rewrite map_app, <- app_assoc. apply I6.
      * intros w c. rewrite Ht. apply I8.
      * intros w w' c. rewrite !Ht. apply I9.
      * intros w x c Hx He Hc. destruct (Nat.lt_ge_cases w (length (workers s))); [rewrite nth_error_app1 in Hx by assumption; eauto|].
        rewrite nth_error_app2 in Hx by assumption. destruct (w - length (workers s))%nat as [|[|]]; try discriminate. injection Hx as <-. discriminate.
      * intros w k' c X. destruct (I12 _ _ _ X) as (x & Hx & Ex). exists x. split; auto. rewrite nth_error_app1; auto. apply nth_error_Some. congruence.
    + destruct sync; [apply inv_nospare; auto|]. apply inv_quiet; [exact I|apply inv_nospare; auto].
  - destruct (nth_error (ths s) j) as [[w|]|]; auto; [apply inv_nospare; auto|]. unfold return_.
    destruct y; (apply inv_quiet; [exact I|]); try apply inv_gone; apply inv_nospare; try reflexivity; apply inv_ths, H.
Qed.

Section Move.
  Context (s : server) (w : nat) (p : wpc) (k : nat) (Hw : nth_error (workers s) w = Some (mkW p k)) (H : Inv s).
  Definition go (s : server) (q : wpc) : server := set_workers s (put (workers s) w (mkW q k)).

  Lemma go_turn (l : list worker) q v : l = workers s ->
    (match nth_error (put l w (mkW q k)) v with Some x => conn_of (pc x) | None => None end) = if Nat.eqb v w then conn_of q else turn s v.
  Proof.
    intros ->. destruct (Nat.eqb_spec v w) as [->|N]; [now rewrite (put_same _ _ _ _ Hw)|]. rewrite put_other by auto. reflexivity.
  Qed.
  Lemma go_nth q v x : nth_error (put (workers s) w (mkW q k)) v = Some x -> (v = w /\ x = mkW q k) \/ (v <> w /\ nth_error (workers s) v = Some x).
  Proof.
    intros E. destruct (Nat.eq_dec v w) as [->|N]; [left; rewrite (put_same _ _ _ _ Hw) in E; injection E as <-; auto|]. right. rewrite put_other in E by auto. auto.
  Qed.
  Lemma go_objects q : map object (put (workers s) w (mkW q k)) = map object (workers s).
  Proof. apply (put_map object _ _ _ _ Hw). reflexivity. Qed.
  Lemma turn_here : turn s w = conn_of p.
  Proof. unfold turn. now rewrite Hw. Qed.
  Lemma own_object v x : nth_error (workers s) v = Some x -> object x = k -> v = w.
  Proof.
    intros E Ek. destruct H as [_ _ _ _ I5 _ _ _ _ _ _ _]. apply NoDup_app_l in I5.
    apply (proj1 (NoDup_nth_error _) I5).
    - rewrite map_length. apply nth_error_Some. congruence.
    - rewrite !nth_error_map, E, Hw. cbn. congruence.
  Qed.
  Lemma go_own (l : list event) q : (forall v j c, In (Begin v j c) l -> exists x, nth_error (workers s) v = Some x /\ object x = j) ->
    forall v j c, In (Begin v j c) l -> exists x, nth_error (put (workers s) w (mkW q k)) v = Some x /\ object x = j.
  Proof.
    intros HO v j c X. destruct (HO v j c X) as (x & Ex & Eo). destruct (Nat.eq_dec v w) as [->|N].
    - rewrite Hw in Ex. injection Ex as <-. exists (mkW q k). split; [apply (put_same _ _ _ _ Hw)|exact Eo].
    - exists x. rewrite put_other by auto. auto.
  Qed.

  Lemma inv_move q : conn_of q = conn_of p -> work_on q = work_on p -> (early q -> early p) -> Inv (go s q).
  Proof.
    intros Ec Ew Ee. pose proof turn_here as HT. destruct H as [I1 I2 I3 I4 I5 I6 I7 I8 I9 I10 I11 I12].
    assert (HA : forall v, turn (go s q) v = turn s v).
    { intros v. unfold turn at 1. cbn [go set_workers workers]. rewrite go_turn by reflexivity. destruct (Nat.eqb_spec v w) as [->|N]; congruence. }
    split; cbn [go set_workers log workers owner objects conns]; rewrite ?go_objects; auto.
    - intros v. rewrite HA. apply I1.
    - intros v x E. apply go_nth in E as [[-> ->]|[N E]]; [|eauto]. pose proof (I3 w _ Hw) as X. cbn [object pc] in *. congruence.
    - intros v c. rewrite HA. apply I8.
    - intros v v' c. rewrite !HA. apply I9.
    - intros v x c E He Hc. apply go_nth in E as [[-> ->]|[N E]]; [|eauto]. cbn [pc] in *. apply (I11 w _ c Hw); cbn; auto. congruence.
    - apply go_own. exact I12.
  Qed.
  Lemma inv_accept : p = Accepting -> Inv (go (note (new_conn s) (Accepted w (conns s))) (Timing (conns s))).
  Proof.
    intros Ep. pose proof turn_here as HT. rewrite Ep in HT. cbn [conn_of] in HT. destruct H as [I1 I2 I3 I4 I5 I6 I7 I8 I9 I10 I11 I12].
    assert (HA : forall v, turn (go (note (new_conn s) (Accepted w (conns s))) (Timing (conns s))) v = if Nat.eqb v w then Some (conns s) else turn s v).
    { intros v. unfold turn at 1. cbn [go set_workers note new_conn workers]. rewrite go_turn by reflexivity. reflexivity. }
    assert (Ea : accepted (log s ++ [Accepted w (conns s)]) = accepted (log s) ++ [conns s]) by (rewrite accepted_app; reflexivity).
    assert (Eb : begun (log s ++ [Accepted w (conns s)]) = begun (log s)) by (rewrite begun_app; apply app_nil_r).
    assert (HF : ~ In (conns s) (accepted (log s))) by (intros X; apply I7 in X; lia).
    split; cbn [go set_workers note new_conn log workers owner objects conns]; rewrite ?go_objects, ?Ea, ?Eb; auto.
    - intros v. destruct (I1 v) as [H1 H2]. rewrite HA, fold_snoc, H2. cbn [turn_of]. rewrite (Nat.eqb_sym w v). split.
      + apply in_turn_snoc; auto. rewrite H2. cbn [in_turn]. destruct (Nat.eqb_spec w v) as [->|N]; auto.
      + destruct (Nat.eqb_spec v w) as [->|N]; auto.
    - intros j. apply alone_snoc; cbn; auto.
    - intros v x E. rewrite fold_snoc. cbn [work_of]. apply go_nth in E as [[-> ->]|[N E]]; [|eauto]. pose proof (I3 w _ Hw) as X. rewrite Ep in X. exact X.
    - intros j Hj. rewrite fold_snoc. cbn [work_of]. auto.
    - split; [apply NoDup_snoc; auto; apply I7|]. intros c X. apply in_app_or in X as [X|[<-|[]]]; [apply I7 in X; lia|lia].
    - intros v c. rewrite HA. destruct (Nat.eqb v w); [intros [= <-]|intros X; apply I8 in X]; apply in_or_app; cbn; auto.
    - intros v v' c. rewrite !HA. destruct (Nat.eqb_spec v w) as [->|N], (Nat.eqb_spec v' w) as [->|N']; auto.
      + intros [= <-] X. apply I8 in X. contradiction.
      + intros X [= <-]. apply I8 in X. contradiction.
      + apply I9.
    - split; [apply I10|]. intros c X. apply in_or_app. left. now apply I10.
    - intros v x c E He Hc. apply go_nth in E as [[-> ->]|[N E]]; [|eauto]. cbn [pc conn_of] in Hc. injection Hc as <-. intros X. apply I10 in X. contradiction.
    - apply go_own. intros v j c X. apply in_app_or in X as [X|[X|[]]]; [eauto|discriminate].
  Qed.
  Lemma inv_begin c : p = Reading c -> Inv (go (note s (Begin w k c)) (Working c)).
  Proof.
    intros Ep. pose proof turn_here as HT. rewrite Ep in HT. cbn [conn_of] in HT. pose proof own_object as HO. destruct H as [I1 I2 I3 I4 I5 I6 I7 I8 I9 I10 I11 I12].
    assert (HA : forall v, turn (go (note s (Begin w k c)) (Working c)) v = turn s v).
    { intros v. unfold turn at 1. cbn [go set_workers note workers]. rewrite go_turn by reflexivity. destruct (Nat.eqb_spec v w) as [->|N]; auto. }
    assert (Ea : accepted (log s ++ [Begin w k c]) = accepted (log s)) by (rewrite accepted_app; apply app_nil_r).
    assert (Eb : begun (log s ++ [Begin w k c]) = begun (log s) ++ [c]) by (rewrite begun_app; reflexivity).
    assert (HB : ~ In c (begun (log s))) by (apply (I11 w _ c Hw); cbn [pc]; rewrite Ep; cbn; auto).
    pose proof (I3 w _ Hw) as HW. cbn [object pc] in HW. rewrite Ep in HW. cbn [work_on] in HW.
    split; cbn [go set_workers note log workers owner objects conns]; rewrite ?go_objects, ?Ea, ?Eb; auto.
    - intros v. destruct (I1 v) as [H1 H2]. rewrite HA, fold_snoc, H2. split; [|reflexivity].
      apply in_turn_snoc; auto. rewrite H2. cbn [in_turn]. destruct (Nat.eqb_spec w v) as [<-|N]; auto.
    - intros j. apply alone_snoc; auto. cbn [alone]. destruct (Nat.eqb_spec k j) as [<-|N]; auto.
    - intros v x E. rewrite fold_snoc. cbn [work_of]. apply go_nth in E as [[-> ->]|[N E]]; [cbn; now rewrite Nat.eqb_refl|].
      destruct (Nat.eqb_spec k (object x)) as [E'|_]; [exfalso; apply N, (HO v x E); auto|eauto].
    - intros j Hj. rewrite fold_snoc. cbn [work_of]. destruct (Nat.eqb_spec k j) as [<-|_]; [|auto]. exfalso. apply Hj.
      apply (in_map object _ (mkW p k)). eapply nth_error_In; eauto.
    - intros v c'. rewrite HA. apply I8.
    - intros v v' c'. rewrite !HA. apply I9.
    - split; [apply NoDup_snoc; auto; apply I10|]. intros c' X. apply in_app_or in X as [X|[<-|[]]]; [now apply I10|eauto].
    - intros v x c' E He Hc X. apply go_nth in E as [[-> ->]|[N E]]; [contradiction|]. apply in_app_or in X as [X|[<-|[]]]; [eapply I11; eauto|].
      apply N. apply (I9 v w c); [|exact HT]. unfold turn. now rewrite E.
    - apply go_own. intros v j c' X. apply in_app_or in X as [X|[X|[]]]; [eauto|]. injection X as <- <- <-. eauto.
  Qed.
  Lemma inv_end c : p = Working c -> Inv (go (note s (End w k c)) (Sending c)).
  Proof.
    intros Ep. pose proof turn_here as HT. rewrite Ep in HT. cbn [conn_of] in HT. pose proof own_object as HO. destruct H as [I1 I2 I3 I4 I5 I6 I7 I8 I9 I10 I11 I12].
    assert (HA : forall v, turn (go (note s (End w k c)) (Sending c)) v = turn s v).
    { intros v. unfold turn at 1. cbn [go set_workers note workers]. rewrite go_turn by reflexivity. destruct (Nat.eqb_spec v w) as [->|N]; auto. }
    assert (Ea : accepted (log s ++ [End w k c]) = accepted (log s)) by (rewrite accepted_app; apply app_nil_r).
    assert (Eb : begun (log s ++ [End w k c]) = begun (log s)) by (rewrite begun_app; apply app_nil_r).
    pose proof (I3 w _ Hw) as HW. cbn [object pc] in HW. rewrite Ep in HW. cbn [work_on] in HW.
    split; cbn [go set_workers note log workers owner objects conns]; rewrite ?go_objects, ?Ea, ?Eb; auto.
    - intros v. destruct (I1 v) as [H1 H2]. rewrite HA, fold_snoc, H2. split; [|reflexivity].
      apply in_turn_snoc; auto. rewrite H2. cbn [in_turn]. destruct (Nat.eqb_spec w v) as [<-|N]; auto.
    - intros j. apply alone_snoc; auto. cbn [alone]. destruct (Nat.eqb_spec k j) as [<-|N]; auto.
    - intros v x E. rewrite fold_snoc. cbn [work_of]. apply go_nth in E as [[-> ->]|[N E]]; [cbn; now rewrite Nat.eqb_refl|].
      destruct (Nat.eqb_spec k (object x)) as [E'|_]; [exfalso; apply N, (HO v x E); auto|eauto].
    - intros j Hj. rewrite fold_snoc. cbn [work_of]. rewrite (I4 j Hj). now destruct (Nat.eqb k j).
    - intros v c'. rewrite HA. apply I8.
    - intros v v' c'. rewrite !HA. apply I9.
    - intros v x c' E He Hc X. apply go_nth in E as [[-> ->]|[N E]]; [contradiction|]. eapply I11; eauto.
    - apply go_own. intros v j c' X. apply in_app_or in X as [X|[X|[]]]; [eauto|discriminate].
  Qed.
  Lemma inv_close c : conn_of p = Some c -> work_on p = None -> Inv (go (note s (Closed w c)) Accepting).
  Proof.
    intros Ec Ew. pose proof turn_here as HT. rewrite Ec in HT. pose proof own_object as HO. destruct H as [I1 I2 I3 I4 I5 I6 I7 I8 I9 I10 I11 I12].
    assert (HA : forall v, turn (go (note s (Closed w c)) Accepting) v = if Nat.eqb v w then None else turn s v).
    { intros v. unfold turn at 1. cbn [go set_workers note workers]. rewrite go_turn by reflexivity. reflexivity. }
    assert (Ea : accepted (log s ++ [Closed w c]) = accepted (log s)) by (rewrite accepted_app; apply app_nil_r).
    assert (Eb : begun (log s ++ [Closed w c]) = begun (log s)) by (rewrite begun_app; apply app_nil_r).
    pose proof (I3 w _ Hw) as HW. cbn [object pc] in HW. rewrite Ew in HW.
    split; cbn [go set_workers note log workers owner objects conns]; rewrite ?go_objects, ?Ea, ?Eb; auto.
    - intros v. destruct (I1 v) as [H1 H2]. rewrite HA, fold_snoc, H2. cbn [turn_of]. rewrite (Nat.eqb_sym w v). split.
      + apply in_turn_snoc; auto. rewrite H2. cbn [in_turn]. destruct (Nat.eqb_spec w v) as [<-|N]; auto.
      + destruct (Nat.eqb_spec v w) as [->|N]; auto.
    - intros j. apply alone_snoc; cbn; auto.
    - intros v x E. rewrite fold_snoc. cbn [work_of]. apply go_nth in E as [[-> ->]|[N E]]; [exact HW|eauto].
    - intros j Hj. rewrite fold_snoc. cbn [work_of]. auto.
    - intros v c'. rewrite HA. destruct (Nat.eqb v w); [discriminate|apply I8].
    - intros v v' c'. rewrite !HA. destruct (Nat.eqb v w), (Nat.eqb v' w); try discriminate. apply I9.
    - intros v x c' E He Hc X. apply go_nth in E as [[-> ->]|[N E]]; [contradiction|]. eapply I11; eauto.
    - apply go_own. intros v j c' X. apply in_app_or in X as [X|[X|[]]]; [eauto|discriminate].
  Qed.
End Move.

Lemma inv_worker s w a s' : Inv s -> worker_step s w a = Ok s' -> Inv s'.
Proof.
  intros H E. unfold worker_step in E. destruct (nth_error (workers s) w) as [[p k]|] eqn:Hw; [|injection E as <-; exact H].
  destruct p as [| |c|c|c|c].
  - destruct (gone s); [discriminate|]. injection E as <-. apply (inv_move s w Fresh k Hw H); auto.
  - destruct a; injection E as <-; auto. now apply (inv_accept s w Accepting k Hw H).
  - destruct a; injection E as <-; [apply (inv_move s w (Timing c) k Hw H); cbn; auto|apply (inv_close s w (Timing c) k Hw H c); auto..].
  - destruct a; injection E as <-; [now apply (inv_begin s w (Reading c) k Hw H)|apply (inv_close s w (Reading c) k Hw H c); auto..].
  - destruct a; injection E as <-; [now apply (inv_end s w (Working c) k Hw H)| |apply inv_dead, inv_quiet; [exact I|exact H]].
    pose proof (inv_end s w (Working c) k Hw H c eq_refl) as H1.
    assert (Hw1 : nth_error (workers (go w k (note s (End w k c)) (Sending c))) w = Some (mkW (Sending c) k)) by (apply (put_same _ _ _ _ Hw)).
    pose proof (inv_close _ w (Sending c) k Hw1 H1 c eq_refl eq_refl) as H2. unfold go in H2. cbn [set_workers note workers] in *. rewrite put_put in H2. exact H2.
  - injection E as <-. apply (inv_close s w (Sending c) k Hw H c); auto.
Qed.
Lemma inv_step s m s' : Inv s -> step s m = Ok s' -> Inv s'.
Proof.
  intros H E. unfold step in E. destruct (dead s); [injection E as <-; exact H|].
  assert (B : forall sync, owner s = Idle -> Inv (begin_run s sync)).
  { intros sync Eo. unfold begin_run. destruct (negb _); [apply inv_quiet; [exact I|exact H]|]. destruct (_ <? _).
    - apply inv_quiet; [exact I|apply inv_ths, H].
    - apply inv_nospare; [reflexivity|apply inv_ths, H]. }
  destruct m.
  1-3: destruct (gone s); [discriminate|]; destruct (owner s); injection E as <-; auto; apply inv_nospare; auto.
  - injection E as <-. now apply inv_owner_step.
  - eapply inv_worker; eauto.
Qed.
Lemma run_inv (P : server -> Prop) (HP : forall s m s', P s -> step s m = Ok s' -> P s') ms : forall s s', P s -> run s ms = Ok s' -> P s'.
Proof.
  induction ms as [|m ms IH]; intros s s' H E; cbn [run] in E; [injection E as <-; exact H|].
  destruct (step s m) as [t| | |] eqn:Es; cbn [obind] in E; try discriminate. eauto.
Qed.
Lemma inv_reached l n s : reached l n s -> Inv s.
Proof. intros (ms & E). eapply run_inv; eauto using inv_step, inv_fresh. Qed.
Lemma inv_orderly s : Inv s -> orderly (log s).
Proof.
  intros H. pose proof H as [I1 I2 I3 I4 I5 I6 I7 I8 I9 I10 I11 I12]. split; [apply I1|]. split; [exact I2|]. split; [split; [apply I7|apply I10]|].
  intros w k c w' k' c' X X'. apply I12 in X as (x & Ex & <-). apply I12 in X' as (x' & Ex' & <-). split; [congruence|]. intros E.
  destruct x' as [p' k']. cbn [object] in E. exact (own_object s w' p' k' Ex' H w x Ex E).
Qed.

(** ** What one move does to a worker *)
Definition left (p : wpc) : nat := match p with Accepting => 0 | Fresh => 0 | Timing _ => 4 | Reading _ => 3 | Working _ => 2 | Sending _ => 1 end.
Definition closed (w c : nat) (l : list event) : Prop := In (Closed w c) l.
Lemma begin_run_workers s sync : workers (begin_run s sync) = workers s.
Proof. unfold begin_run. destruct (negb _); [reflexivity|]. now destruct (_ <? _). Qed.
Lemma begin_run_dead s sync : dead (begin_run s sync) = dead s.
Proof. unfold begin_run. destruct (negb _); [reflexivity|]. now destruct (_ <? _). Qed.
Lemma begin_run_gone s sync : gone (begin_run s sync) = gone s.
Proof. unfold begin_run. destruct (negb _); [reflexivity|]. now destruct (_ <? _). Qed.
Lemma begin_run_log s sync e : In e (log s) -> In e (log (begin_run s sync)).
Proof. unfold begin_run. intros H. destruct (negb _); cbn; [apply in_or_app; auto|]. destruct (_ <? _); cbn; auto. apply in_or_app; auto. Qed.
Lemma owner_workers s ok : workers (owner_step s ok) = workers s \/ exists k, workers (owner_step s ok) = workers s ++ [mkW Fresh k].
Proof.
  unfold owner_step. destruct (owner s) as [|sync cs|sync i cs|j y]; auto.
  - destruct (Nat.eqb _ _); auto. destruct ok; auto.
  - destruct (nth_error cs i) as [k|]; [destruct ok; [right; exists k|]; auto|destruct sync; auto].
  - destruct (nth_error (ths s) j) as [[?|]|]; auto. destruct y; auto.
Qed.
Lemma owner_dead s ok : dead (owner_step s ok) = dead s.
Proof.
  unfold owner_step. destruct (owner s) as [|sync cs|sync i cs|j y]; auto.
  - destruct (Nat.eqb _ _); auto. destruct ok; auto.
  - destruct (nth_error cs i) as [k|]; [destruct ok; auto|destruct sync; auto].
  - destruct (nth_error (ths s) j) as [[?|]|]; auto. destruct y; auto.
Qed.
Lemma owner_log s ok e : In e (log s) -> In e (log (owner_step s ok)).
Proof.
  intros H. assert (HS : forall x, In e (log s ++ [x])) by (intros; apply in_or_app; auto).
  unfold owner_step. destruct (owner s) as [|sync cs|sync i cs|j y]; auto.
  - destruct (Nat.eqb _ _); auto. destruct ok; cbn; auto.
  - destruct (nth_error cs i) as [k|]; [destruct ok; cbn; auto|destruct sync; cbn; auto].
  - destruct (nth_error (ths s) j) as [[?|]|]; auto. destruct y; cbn; auto.
Qed.
Lemma owner_nth s ok w x : nth_error (workers s) w = Some x -> nth_error (workers (owner_step s ok)) w = Some x.
Proof. intros H. destruct (owner_workers s ok) as [->|(k & ->)]; auto. rewrite nth_error_app1; auto. apply nth_error_Some. congruence. Qed.
Lemma worker_log s w a s' e : worker_step s w a = Ok s' -> In e (log s) -> In e (log s').
Proof.
  intros E H. assert (HS : forall l x, In e l -> In e (l ++ [x])) by (intros; apply in_or_app; auto).
  unfold worker_step in E. destruct (nth_error (workers s) w) as [[p k]|]; [|injection E as <-; auto].
  destruct p; [destruct (gone s); [discriminate|]|destruct a..|]; injection E as <-; cbn; auto.
Qed.
Lemma step_log s m s' e : step s m = Ok s' -> In e (log s) -> In e (log s').
Proof.
  intros E H. unfold step in E. destruct (dead s); [injection E as <-; auto|]. destruct m.
  1-3: destruct (gone s); [discriminate|]; destruct (owner s); injection E as <-; cbn; auto using begin_run_log.
  - injection E as <-. auto using owner_log.
  - eauto using worker_log.
Qed.
Lemma run_log ms e s s' : run s ms = Ok s' -> In e (log s) -> In e (log s').
Proof. intros E H. apply (run_inv (fun s => In e (log s))) with (2 := H) (3 := E). intros; eauto using step_log. Qed.
Lemma run_dead ms : forall s s', dead s = true -> run s ms = Ok s' -> s' = s.
Proof.
  induction ms as [|m ms IH]; intros s s' H E; cbn [run] in E; [now injection E as <-|].
  unfold step in E at 1. rewrite H in E. cbn [obind] in E. auto.
Qed.

(** The worker that has connection [c]: it has closed it, or it has it and so many of its own steps to go *)
Definition todo (w c d : nat) (s : server) : Prop :=
  closed w c (log s) \/ exists p k, nth_error (workers s) w = Some (mkW p k) /\ conn_of p = Some c /\ (left p <= d)%nat.
Lemma todo_other w c d s m s' : (forall a, m <> M_worker w a) -> dead s' = false -> step s m = Ok s' -> todo w c d s -> todo w c d s'.
Proof.
  intros N HD E [H|(p & k & H & Hc & Hl)]; [left; eapply step_log; eauto|]. right. exists p, k. split; [|auto].
  unfold step in E. destruct (dead s); [injection E as <-; auto|]. destruct m as [sync| | |ok|v a].
  1-3: destruct (gone s); [discriminate|]; destruct (owner s); injection E as <-; cbn; auto. { now rewrite begin_run_workers. }
  - injection E as <-. auto using owner_nth.
  - assert (v <> w) as Nv by (intros ->; eapply N; reflexivity).
    unfold worker_step in E. destruct (nth_error (workers s) v) as [[q j]|] eqn:Ev; [|injection E as <-; auto].
    destruct q; [destruct (gone s); [discriminate|]|destruct a..|]; injection E as <-; cbn [workers set_workers note new_conn set_dead]; auto; rewrite put_other; auto.
Qed.
Lemma todo_own w c d s a s' : dead s' = false -> step s (M_worker w a) = Ok s' -> todo w c (S d) s -> todo w c d s'.
Proof.
  intros HD E [H|(p & k & H & Hc & Hl)]; [left; eapply step_log; eauto|].
  unfold step in E. destruct (dead s) eqn:Hd; [injection E as <-; congruence|].
  unfold worker_step in E. rewrite H in E.
  assert (HC : forall l, In (Closed w c) (l ++ [Closed w c])) by (intros; apply in_or_app; cbn; auto).
  destruct p as [| |c'|c'|c'|c']; try discriminate; injection Hc as ->; cbn [left] in Hl; unfold todo, closed;
    destruct a; injection E as <-; cbn [set_workers note log workers]; auto; try discriminate;
    right; eexists _, k; (split; [apply (put_same _ _ _ _ H)|]); cbn; split; auto; lia.
Qed.
Fixpoint turns (w : nat) (ms : list move) : nat :=
  match ms with [] => 0 | M_worker v _ :: r => (if Nat.eqb v w then 1 else 0) + turns w r | _ :: r => turns w r end.
Lemma todo_run w c ms : forall d s s', dead s' = false -> run s ms = Ok s' -> todo w c d s -> todo w c (d - turns w ms) s'.
Proof.
  induction ms as [|m ms IH]; intros d s s' HD E H; cbn [run] in E; [injection E as <-; cbn; now rewrite Nat.sub_0_r|].
  destruct (step s m) as [t| | |] eqn:Es; cbn [obind] in E; try discriminate.
  assert (Ht : dead t = false). { destruct (dead t) eqn:X; [|reflexivity]. rewrite (run_dead _ _ _ X E) in HD. congruence. }
  assert (forall v a, m = M_worker v a -> v = w -> todo w c (d - turns w (m :: ms)) s').
  { intros v a -> ->. cbn [turns]. rewrite Nat.eqb_refl. destruct d as [|d].
    - apply (IH 0%nat t); auto. apply (todo_own w c 0 s a t Ht Es). destruct H as [H|(p & k & H)]; [now left|right; exists p, k; intuition lia].
    - replace (S d - (1 + turns w ms))%nat with (d - turns w ms)%nat by lia. apply (IH d t); auto. now apply (todo_own w c d s a t Ht Es). }
  destruct m as [sync| | |ok|v a]; cbn [turns]; try (apply (IH d t); auto; apply (todo_other w c d s _ t) with (3 := Es); auto; intros; discriminate).
  destruct (Nat.eqb_spec v w) as [->|N]; [specialize (H0 _ _ eq_refl eq_refl); cbn [turns] in H0; now rewrite Nat.eqb_refl in H0|]. cbn. apply (IH d t); auto. apply (todo_other w c d s _ t) with (3 := Es); auto. intros a' [= -> ->]. auto.
Qed.

(** A connection that was accepted is closed, or its worker has it *)
Lemma accepted_turn s w c : Inv s -> In (Accepted w c) (log s) -> closed w c (log s) \/ turn s w = Some c.
Proof.
  intros [I1 _ _ _ _ _ _ _ _ _ _ _] H. destruct (I1 w) as [H1 H2]. rewrite <- H2. clear H2. revert H H1. generalize (log s) as l. clear.
  assert (G : forall l cur, in_turn w cur l -> (In (Accepted w c) l \/ cur = Some c) -> closed w c l \/ fold_left (turn_of w) l cur = Some c).
  { induction l as [|e l IH]; intros cur H [X|X]; cbn in X; try contradiction; [now right| |].
    - destruct X as [->|X].
      + cbn in *. rewrite Nat.eqb_refl in *. destruct H as [_ H]. destruct (IH (Some c) H) as [Y|Y]; [auto|left; now right|now right].
      + cbn [fold_left]. destruct (IH (turn_of w cur e)) as [Y|Y]; [|now left|left; now right|now right].
        destruct e; cbn in *; auto; destruct (Nat.eqb _ _); intuition congruence.
    - destruct e; cbn [fold_left turn_of in_turn] in *; try (destruct (IH cur) as [Y|Y]; auto; left; now right);
        destruct (Nat.eqb_spec w0 w) as [->|N]; try (destruct (IH cur) as [Y|Y]; intuition auto; left; now right); destruct H as [H H']; try congruence.
      left. left. congruence. }
  intros l H1 H2. apply (G l None); auto.
Qed.
Lemma reached_closes l n s ms s' w c : reached l n s -> In (Accepted w c) (log s) -> run s ms = Ok s' -> dead s' = false -> (4 <= turns w ms)%nat -> In (Closed w c) (log s').
Proof.
  intros HR HA E HD HT. assert (H : todo w c 4 s).
  { destruct (accepted_turn s w c (inv_reached _ _ _ HR) HA) as [X|X]; [now left|right]. unfold turn in X. destruct (nth_error (workers s) w) as [[p k]|] eqn:Ew; [|discriminate].
    exists p, k. split; [reflexivity|]. split; [exact X|]. destruct p; cbn; lia. }
  apply (todo_run w c ms 4 s s' HD E) in H. replace (4 - turns w ms)%nat with 0%nat in H by lia. destruct H as [H|(p & k & _ & Hc & Hl)]; [exact H|].
  destruct p; cbn in *; try discriminate; lia.
Qed.
(** A worker without a connection takes the next that there is. *)
Lemma reached_accepts s w k : dead s = false -> nth_error (workers s) w = Some (mkW Accepting k) ->
  exists s', step s (M_worker w Good) = Ok s' /\ log s' = log s ++ [Accepted w (conns s)].
Proof. intros HD H. unfold step, worker_step. rewrite HD, H. eexists. split; [reflexivity|]. reflexivity. Qed.

(** ** Starting threads *)
Lemma started_app a b : started (a ++ b) = (started a + started b)%nat.
Proof. unfold started. now rewrite flat_map_app, app_length. Qed.
Definition Count (s : server) : Prop := started (log s) = length (workers s).
Ltac cnt := cbn [set_owner set_ths set_workers note new_object new_conn set_gone set_dead log workers]; rewrite ?started_app, ?put_length, ?app_length; cbn [started flat_map length app]; lia.
Lemma count_step s m s' : Count s -> step s m = Ok s' -> Count s'.
Proof.
  unfold Count. intros H E. unfold step in E. destruct (dead s); [injection E as <-; exact H|].
  destruct m as [sync| | |ok|w a].
  1-3: destruct (gone s); [discriminate|]; destruct (owner s); injection E as <-; try cnt.
  - unfold begin_run. destruct (negb _); [cnt|]. destruct (_ <? _); cnt.
  - injection E as <-. unfold owner_step. destruct (owner s) as [|sync cs|sync i cs|j y]; [exact H|..].
    + destruct (Nat.eqb _ _); [cnt|]. destruct ok; cnt.
    + destruct (nth_error cs i) as [k|]; [destruct ok|destruct sync]; cnt.
    + destruct (nth_error (ths s) j) as [[?|]|]; [exact H|cnt|]. unfold return_. destruct y; cnt.
  - unfold worker_step in E. destruct (nth_error (workers s) w) as [[p k]|]; [|injection E as <-; exact H].
    destruct p; [destruct (gone s); [discriminate|]|destruct a..|]; injection E as <-; cnt.
Qed.
Lemma count_reached l n s : reached l n s -> Count s.
Proof. intros (ms & E). eapply run_inv with (2 := eq_refl : Count (fresh l n)); eauto using count_step. Qed.

(** A move of the threads, or one of the owner that succeeds *)
Definition smooth (m : move) : Prop := match m with M_owner ok => ok = true | M_worker _ _ => True | _ => False end.
Fixpoint owners (ms : list move) : nat := match ms with [] => 0 | M_owner _ :: r => S (owners r) | _ :: r => owners r end.

(** How far a call of run() has come; [b] threads, [r] calls that returned and [t] that threw were there before *)
Inductive Phase (b r t d : nat) (s : server) : Prop :=
| P_clone cs : owner s = Cloning false cs -> length (workers s) = b -> (length cs <= Z.to_nat (threads s))%nat -> (2 * Z.to_nat (threads s) + 2 <= d + length cs)%nat ->
    returned (log s) = r -> threw (log s) = t -> Phase b r t d s
| P_start i cs : owner s = Starting false i cs -> length (workers s) = (b + i)%nat -> length cs = Z.to_nat (threads s) -> (i <= length cs)%nat -> (length cs + 1 <= d + i)%nat ->
    returned (log s) = r -> threw (log s) = t -> Phase b r t d s
| P_done : owner s = Idle -> length (workers s) = (b + Z.to_nat (threads s))%nat -> returned (log s) = S r -> threw (log s) = t -> Phase b r t d s.

Lemma returned_app a b : returned (a ++ b) = (returned a + returned b)%nat.
Proof. unfold returned. now rewrite flat_map_app, app_length. Qed.
Lemma threw_app a b : threw (a ++ b) = (threw a + threw b)%nat.
Proof. unfold threw. now rewrite flat_map_app, app_length. Qed.

(** What a move of a thread leaves as it is *)
Lemma worker_same s w a s' : worker_step s w a = Ok s' ->
  owner s' = owner s /\ threads s' = threads s /\ length (workers s') = length (workers s) /\ returned (log s') = returned (log s) /\ threw (log s') = threw (log s) /\ ths s' = ths s /\ gone s' = gone s.
Proof.
  intros E. unfold worker_step in E. destruct (nth_error (workers s) w) as [[p k]|]; [|injection E as <-; tauto].
  destruct p; [destruct (gone s) eqn:Eg; [discriminate|]|destruct a..|]; injection E as <-; cbn [owner threads workers log ths gone set_workers note new_conn set_dead];
    rewrite ?returned_app, ?threw_app, ?put_length; cbn; rewrite ?Nat.add_0_r; auto 10.
Qed.
Definition owned (m : move) : nat := match m with M_owner _ => 1 | _ => 0 end.
Lemma phase_step b r t d s m s' : Phase b r t d s -> smooth m -> step s m = Ok s' -> dead s' = false -> Phase b r t (d - owned m) s'.
Proof.
  intros H Hm E HD. unfold step in E. destruct (dead s) eqn:Hd; [injection E as <-; congruence|].
  destruct m as [sync| | |ok|w a]; try contradiction; cbn [owned]; cbn [smooth] in Hm.
  - subst ok. injection E as <-. unfold owner_step. destruct H as [cs Eo Hw Hl Hs Hr Ht|i cs Eo Hw Hl Hi Hs Hr Ht|Eo Hw Hr Ht]; rewrite Eo.
    + destruct (Nat.eqb_spec (length cs) (Z.to_nat (threads s))) as [X|X]; [eapply P_start with (i := O) (cs := cs)|eapply P_clone]; cbn; try reflexivity; rewrite ?app_length; cbn; auto; lia.
    + destruct (nth_error cs i) as [k|] eqn:En.
      * assert (i < length cs)%nat by (apply nth_error_Some; congruence).
        eapply P_start; cbn [owner workers threads log set_owner note set_workers set_ths]; try reflexivity; rewrite ?app_length, ?returned_app, ?threw_app; cbn; lia.
      * apply nth_error_None in En. apply P_done; cbn [owner workers threads log set_owner note]; auto; rewrite ?returned_app, ?threw_app; cbn; lia.
    + now apply P_done.
  - apply worker_same in E as (E1 & E2 & E3 & E4 & E5 & _). rewrite Nat.sub_0_r.
    destruct H; [eapply P_clone|eapply P_start|eapply P_done]; rewrite ?E1, ?E2, ?E3, ?E4, ?E5; eauto.
Qed.
Lemma phase_run b r t ms : forall d s s', Phase b r t d s -> Forall smooth ms -> run s ms = Ok s' -> dead s' = false -> Phase b r t (d - owners ms) s'.
Proof.
  induction ms as [|m ms IH]; intros d s s' H HF E HD; cbn [run] in E; [injection E as <-; cbn; now rewrite Nat.sub_0_r|].
  inversion HF as [|? ? Hm HF']; subst. destruct (step s m) as [u| | |] eqn:Es; cbn [obind] in E; try discriminate.
  assert (Hu : dead u = false). { destruct (dead u) eqn:X; [|reflexivity]. rewrite (run_dead _ _ _ X E) in HD. congruence. }
  replace (d - owners (m :: ms))%nat with (d - owned m - owners ms)%nat by (destruct m; cbn; lia).
  eapply IH; eauto. eapply phase_step; eauto.
Qed.
Lemma run_starts s ms s' : dead s = false -> gone s = false -> owner s = Idle -> listening s = true -> 0 <= threads s ->
  Forall smooth ms -> run s (M_run false :: ms) = Ok s' -> dead s' = false ->
  (owner s' = Idle \/ (owners ms < 2 * Z.to_nat (threads s) + 2)%nat) /\
  (owner s' = Idle -> length (workers s') = (length (workers s) + Z.to_nat (threads s))%nat /\ returned (log s') = S (returned (log s)) /\ threw (log s') = threw (log s)).
Proof.
  intros Hd Hg Ho Hl Hn HF E HD. cbn [run] in E. unfold step in E at 1. rewrite Hd, Hg, Ho in E. cbn [obind] in E.
  assert (Eb : begin_run s false = set_owner (set_ths s []) (Cloning false [])).
  { unfold begin_run. rewrite Hl. cbn [negb]. destruct (Z.ltb_spec (threads s) 0); [lia|reflexivity]. }
  rewrite Eb in E.
  assert (HT : threads s' = threads s).
  { assert (X : threads (set_owner (set_ths s []) (Cloning false [])) = threads s) by reflexivity.
    apply (run_inv (fun u => threads u = threads s)) with (2 := X) (3 := E). clear. intros u m u' H E. unfold step in E. destruct (dead u); [injection E as <-; exact H|].
    destruct m as [sync| | |ok|w a].
    1-3: destruct (gone u); [discriminate|]; destruct (owner u); injection E as <-; cbn; auto.
    - unfold begin_run. destruct (negb _); auto. now destruct (_ <? _).
    - injection E as <-. unfold owner_step. destruct (owner u) as [|sync cs|sync i cs|j y]; auto.
      + destruct (Nat.eqb _ _); auto. destruct ok; auto.
      + destruct (nth_error cs i) as [k|]; [destruct ok; auto|destruct sync; auto].
      + destruct (nth_error (ths u) j) as [[?|]|]; auto. destruct y; auto.
    - apply worker_same in E. intuition congruence. }
  assert (HP : Phase (length (workers s)) (returned (log s)) (threw (log s)) (2 * Z.to_nat (threads s) + 2) (set_owner (set_ths s []) (Cloning false []))).
  { eapply P_clone with (cs := []); cbn [owner workers threads log set_owner set_ths length]; try reflexivity; lia. }
  apply (phase_run _ _ _ ms _ _ _ HP HF E) in HD. destruct HD as [cs Eo Hw Hc Hs Hr Ht|i cs Eo Hw Hc Hi Hs Hr Ht|Eo Hw Hr Ht]; rewrite Eo, HT in *.
  - split; [right; lia|discriminate].
  - split; [right; lia|discriminate].
  - split; [now left|]. intros _. auto.
Qed.

(** ** The server is not used after it is gone, if clones and threads can be made *)
Definition some (l : list (option nat)) : Prop := exists w, In (Some w) l.
Definition full (l : list (option nat)) : Prop := forall x, In x l -> x <> None.
Definition Safe (s : server) : Prop :=
  full (ths s) /\ (threads s <= 0 -> workers s = []) /\ (gone s = true -> workers s = [] /\ owner s = Idle) /\
  match owner s with
  | Idle => workers s = [] \/ ths s <> []
  | Cloning _ cs => ths s = []
  | Starting _ i cs => length cs = Z.to_nat (threads s) /\ length (ths s) = i
  | Joining j _ => j = O /\ (workers s = [] \/ ths s <> [])
  end.
Lemma safe_fresh l n : Safe (fresh l n).
Proof. split; [intros x []|]. cbn. repeat split; auto; discriminate. Qed.
Lemma full_nil : full [].
Proof. intros x []. Qed.
Lemma safe_step s m s' : Safe s -> m <> M_owner false -> step s m = Ok s' -> Safe s'.
Proof.
  intros (S1 & S2 & S3 & S4) Hm E. unfold step in E. destruct (dead s); [injection E as <-; unfold Safe; auto|].
  destruct m as [sync| | |ok|w a].
  1-3: destruct (gone s) eqn:Eg; [discriminate|]; destruct (owner s) eqn:Eo; injection E as <-;
    try (unfold Safe; rewrite Eo, Eg; auto; fail); cbn [set_owner set_ths]; try (unfold Safe; cbn; rewrite Eg; repeat split; auto; discriminate).
  - unfold begin_run. destruct (negb _); [unfold Safe; cbn; rewrite Eo, Eg; auto|]. destruct (Z.ltb_spec (threads s) 0).
    + unfold Safe. cbn. rewrite Eo, Eg. split; [apply full_nil|]. split; [auto|]. split; [discriminate|]. left. apply S2. lia.
    + unfold Safe. cbn. rewrite Eg. split; [apply full_nil|]. split; [auto|]. split; [discriminate|reflexivity].
  - assert (ok = true) by (destruct ok; congruence). subst ok. injection E as <-. unfold owner_step.
    destruct (owner s) as [|sync cs|sync i cs|j y] eqn:Eo; [unfold Safe; rewrite Eo; auto|..].
    + assert (Eg : gone s = false) by (destruct (gone s); [destruct (S3 eq_refl); discriminate|reflexivity]).
      destruct (Nat.eqb_spec (length cs) (Z.to_nat (threads s))) as [X|X]; unfold Safe; cbn; rewrite Eg; (split; [auto|split; [auto|split; [discriminate|]]]); auto. split; [auto|]. now rewrite S4.
    + assert (Eg : gone s = false) by (destruct (gone s); [destruct (S3 eq_refl); discriminate|reflexivity]). destruct S4 as [L1 L2].
      destruct (nth_error cs i) as [k|] eqn:En.
      * assert (i < length cs)%nat by (apply nth_error_Some; congruence). unfold Safe; cbn; rewrite Eg. split; [|split; [intros; lia|split; [discriminate|]]].
        -- intros x X. apply in_app_or in X as [X|[<-|[]]]; [auto|discriminate].
        -- rewrite app_length. cbn. lia.
      * apply nth_error_None in En. assert (HW : workers s = [] \/ ths s <> []).
        { destruct (Z_le_gt_dec (threads s) 0); [auto|right]. intros X. rewrite X in L2. cbn in L2. lia. }
        destruct sync; unfold Safe; cbn; rewrite Eg; (split; [auto|split; [auto|split; [discriminate|]]]); auto.
    + assert (Eg : gone s = false) by (destruct (gone s); [destruct (S3 eq_refl); discriminate|reflexivity]). destruct S4 as [-> HW].
      destruct (nth_error (ths s) 0) as [[v|]|] eqn:En.
      * unfold Safe. rewrite Eo, Eg. split; [auto|split; [auto|split; [discriminate|auto]]].
      * exfalso. eapply S1; [eapply nth_error_In; eauto|reflexivity].
      * assert (ths s = []) by (destruct (ths s); [reflexivity|discriminate]). assert (workers s = []) by tauto.
        unfold return_. destruct y; unfold Safe; cbn; rewrite ?Eg; (split; [apply full_nil|split; [auto|split; auto; discriminate]]).
  - pose proof (worker_same _ _ _ _ E) as (E1 & E2 & E3 & _ & _ & E6 & E7). unfold Safe. rewrite E1, E2, E6, E7.
    assert (X : workers s = [] -> workers s' = []) by (intros X; rewrite X in E3; now destruct (workers s')).
    split; [auto|split; [auto|split; [intuition|]]]. destruct (owner s); auto; intuition.
Qed.
Lemma safe_run ms : forall s s', Safe s -> ~ In (M_owner false) ms -> run s ms = Ok s' -> Safe s'.
Proof.
  induction ms as [|m ms IH]; intros s s' H HN E; cbn [run] in E; [injection E as <-; exact H|].
  destruct (step s m) as [u| | |] eqn:Es; cbn [obind] in E; try discriminate. apply (IH u); auto; [|intros X; apply HN; now right].
  eapply safe_step; eauto. intros ->. apply HN. now left.
Qed.
(** Undefined behaviour then comes only with a call on a server that is gone. *)
Lemma safe_ub s m : Safe s -> step s m = UB -> gone s = true /\ match m with M_run _ | M_join | M_destroy => True | _ => False end.
Proof.
  intros (_ & _ & S3 & _) E. unfold step in E. destruct (dead s); [discriminate|]. destruct m as [sync| | |ok|w a].
  1-3: destruct (gone s); [auto|destruct (owner s); discriminate].
  - discriminate.
  - exfalso. unfold worker_step in E. destruct (gone s) eqn:Eg; [destruct (S3 eq_refl) as [X _]; rewrite X in E; destruct w; discriminate|].
    destruct (nth_error (workers s) w) as [[p k]|]; [|discriminate]. destruct p; [|destruct a..|]; discriminate.
Qed.

(** ** Joining never ends once a thread runs *)
Definition Stuck (y : why) (s : server) : Prop := exists j i w, owner s = Joining j y /\ (j <= i)%nat /\ nth_error (ths s) i = Some (Some w).
Lemma stuck_step y s m s' : Stuck y s -> step s m = Ok s' -> Stuck y s'.
Proof.
  intros (j & i & w & Ho & Hi & Hn) E. unfold step in E. destruct (dead s); [injection E as <-; exists j, i, w; auto|]. destruct m as [sync| | |ok|v a].
  1-3: destruct (gone s); [discriminate|]; rewrite Ho in E; injection E as <-; exists j, i, w; auto.
  - injection E as <-. unfold owner_step. rewrite Ho. destruct (nth_error (ths s) j) as [[v|]|] eqn:En; [exists j, i, w; auto| |].
    + exists (S j), i, w. cbn. assert (i <> j) by congruence. split; [auto|]. split; [lia|auto].
    + exfalso. apply nth_error_None in En. assert (i < length (ths s))%nat by (apply nth_error_Some; congruence). lia.
  - apply worker_same in E as (E1 & _ & _ & _ & _ & E6 & _). exists j, i, w. rewrite E1, E6. auto.
Qed.
Lemma stuck_run y ms s s' : Stuck y s -> run s ms = Ok s' -> exists j, owner s' = Joining j y.
Proof. intros H E. apply (run_inv (Stuck y) (stuck_step y) ms s s' H) in E as (j & _ & _ & Ho & _). eauto. Qed.

(** run(true) of a server with at least one thread does not return. *)
Definition Synced (s : server) : Prop :=
  full (ths s) /\ 0 < threads s /\
  match owner s with
  | Idle => False
  | Cloning sync _ => sync = true /\ ths s = []
  | Starting sync i cs => sync = true /\ length cs = Z.to_nat (threads s) /\ length (ths s) = i
  | Joining j y => j = O /\ ths s <> []
  end.
Lemma synced_step s m s' : Synced s -> smooth m -> step s m = Ok s' -> Synced s'.
Proof.
  intros (S1 & S2 & S3) Hm E. unfold step in E. destruct (dead s); [injection E as <-; unfold Synced; auto|].
  destruct m as [sync| | |ok|w a]; try contradiction; cbn [smooth] in Hm.
  - subst ok. injection E as <-. unfold owner_step. destruct (owner s) as [|sync cs|sync i cs|j y] eqn:Eo; [contradiction|..].
    + destruct S3 as [-> S3]. destruct (Nat.eqb_spec (length cs) (Z.to_nat (threads s))); unfold Synced; cbn; (split; [auto|split; [auto|]]); auto. rewrite S3. auto.
    + destruct S3 as (-> & L1 & L2). destruct (nth_error cs i) as [k|] eqn:En; unfold Synced; cbn; (split; [|split; [auto|]]).
      * intros x X. apply in_app_or in X as [X|[<-|[]]]; [auto|discriminate].
      * rewrite app_length. cbn. split; [auto|]. lia.
      * exact S1.
      * split; [auto|]. apply nth_error_None in En. intros X. rewrite X in L2. cbn in L2. lia.
    + destruct S3 as [-> S3]. destruct (nth_error (ths s) 0) as [[v|]|] eqn:En.
      * unfold Synced. rewrite Eo. auto.
      * exfalso. eapply S1; [eapply nth_error_In; eauto|reflexivity].
      * exfalso. destruct (ths s); [contradiction|discriminate].
  - apply worker_same in E as (E1 & E2 & _ & _ & _ & E6 & _). unfold Synced. rewrite E1, E2, E6. auto.
Qed.
Lemma synced_run ms : forall s s', Synced s -> Forall smooth ms -> run s ms = Ok s' -> Synced s'.
Proof.
  induction ms as [|m ms IH]; intros s s' H HF E; cbn [run] in E; [injection E as <-; exact H|].
  inversion HF; subst. destruct (step s m) as [u| | |] eqn:Es; cbn [obind] in E; try discriminate. eauto using synced_step.
Qed.
Lemma sync_never s ms s' : dead s = false -> gone s = false -> owner s = Idle -> listening s = true -> 0 < threads s -> Forall smooth ms -> run s (M_run true :: ms) = Ok s' -> owner s' <> Idle.
Proof.
  intros Hd Hg Ho Hl Hn HF E. cbn [run] in E. unfold step in E at 1. rewrite Hd, Hg, Ho in E. cbn [obind] in E.
  assert (Eb : begin_run s true = set_owner (set_ths s []) (Cloning true [])).
  { unfold begin_run. rewrite Hl. cbn [negb]. destruct (Z.ltb_spec (threads s) 0); [lia|reflexivity]. }
  rewrite Eb in E. assert (H : Synced (set_owner (set_ths s []) (Cloning true []))) by (split; [apply full_nil|split; cbn; auto]).
  apply (synced_run ms _ _ H HF) in E as (_ & _ & E). intros X. now rewrite X in E.
Qed.
