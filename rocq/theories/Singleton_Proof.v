From Verif Require Import Common Singleton_Spec Singleton_Model.

Definition cur_of (cur : option nat) (e : event) : option nat := match e with Made _ k => Some k | _ => cur end.
Definition pend_of (t : nat) (b : bool) (e : event) : bool :=
  match e with Failed t' => if Nat.eqb t' t then true else b | Threw t' => if Nat.eqb t' t then false else b | Got t' _ => if Nat.eqb t' t then false else b | _ => b end.
Lemma fold_snoc {A B} (f : A -> B -> A) l x a : fold_left f (l ++ [x]) a = f (fold_left f l a) x.
Proof. now rewrite fold_left_app. Qed.
Lemma single_snoc l e : forall cur, single cur l -> single (fold_left cur_of l cur) [e] -> single cur (l ++ [e]).
Proof.
  induction l as [|x l IH]; intros cur H1 H2; [exact H2|]. cbn [app fold_left] in *.
  destruct x; cbn [single cur_of] in *; try (destruct H1 as [-> H1]; split; [reflexivity|]; now apply IH). now apply IH.
Qed.
Lemma passed_snoc t l e : forall b, passed t b l -> passed t (fold_left (pend_of t) l b) [e] -> passed t b (l ++ [e]).
Proof.
  induction l as [|x l IH]; intros b H1 H2; [exact H2|]. cbn [app fold_left] in *.
  destruct x as [t' k|t'|t' k|t']; cbn [passed pend_of] in *; try (now apply IH); destruct (Nat.eqb t' t); try (now apply IH); destruct H1 as [-> H1]; (split; [reflexivity|]); now apply IH.
Qed.
Lemma put_same f t x : put f t x t = x.
Proof. unfold put. now rewrite Nat.eqb_refl. Qed.
Lemma put_other f t x u : u <> t -> put f t x u = f u.
Proof. unfold put. intros H. destruct (Nat.eqb_spec u t); [contradiction|reflexivity]. Qed.

Definition inside (p : pc) : Prop := match p with Inside | Making | Leaving _ | Blocked => True | _ => False end.
Record Inv (s : state) : Prop := {
  i_single : single None (log s);
  i_ptr : fold_left cur_of (log s) None = ptr s;
  i_lock : forall t, inside (pcs s t) <-> holder s = Some t;
  i_make : forall t, pcs s t = Making -> ptr s = None;
  i_leave : forall t k, pcs s t = Leaving (Some k) -> ptr s = Some k;
  i_pass : forall t, passed t false (log s) /\ fold_left (pend_of t) (log s) false = match pcs s t with Leaving None => true | _ => false end }.

Lemma inv_start : Inv start.
Proof. split; cbn; auto; try discriminate. intros t. split; [intros []|discriminate]. Qed.

(** Two threads are not inside *)
Lemma alone s t u : Inv s -> inside (pcs s t) -> inside (pcs s u) -> u = t.
Proof. intros H H1 H2. apply (i_lock _ H) in H1, H2. congruence. Qed.

Ltac two t u := destruct (Nat.eq_dec u t) as [->|N]; [rewrite ?put_same|rewrite ?(put_other _ t _ u N)].
(** A move of [t] that tells nothing *)
Lemma inv_at s t x : Inv s -> (inside x <-> inside (pcs s t)) -> x <> Making -> (forall k, x = Leaving (Some k) -> ptr s = Some k) -> x <> Leaving None -> pcs s t <> Leaving None ->
  Inv (mk (when s) (holder s) (ptr s) (put (pcs s) t x) (objects s) (log s)).
Proof.
  intros [I1 I2 I3 I4 I5 I6] Hx Hm Hl Hn Ho. split; cbn; auto.
  - intros u. two t u; [rewrite Hx; apply I3|apply I3].
  - intros u. two t u; [congruence|apply I4].
  - intros u k. two t u; [apply Hl|apply I5].
  - intros u. destruct (I6 u) as [P1 P2]. split; [auto|]. rewrite P2. two t u; [|reflexivity].
    destruct (pcs s t) as [| | | |[|]|]; try congruence; destruct x as [| | | |[|]|]; congruence.
Qed.

Lemma inv_step s m s' : Inv s -> step s m = Ok s' -> Inv s'.
Proof.
  intros H E. pose proof H as [I1 I2 I3 I4 I5 I6]. unfold step in E. destruct m as [| |t|t ok|t good|t].
  - destruct (when s); injection E as <-; auto. split; auto.
  - destruct (when s); injection E as <-; auto. split; auto.
  - destruct (pcs s t) eqn:Ep; try (injection E as <-; exact H). destruct (when s) eqn:Ew; try discriminate. injection E as <-. rewrite <- Ew. apply inv_at; auto; rewrite ?Ep; try discriminate. cbn. tauto.
  - destruct (pcs s t) eqn:Ep; try (injection E as <-; exact H). destruct (when s) eqn:Ew; try discriminate. destruct ok; [|discriminate].
    destruct (holder s) eqn:Eh; injection E as <-; auto.
    assert (HN : forall u, ~ inside (pcs s u)) by (intros u X; apply I3 in X; congruence).
    split; cbn; auto.
    + intros u. two t u; [cbn; tauto|]. split; [intros X; now apply HN in X|congruence].
    + intros u. two t u; [discriminate|]. intros X. apply I4 in X. exact X.
    + intros u k. two t u; [discriminate|]. intros X. apply I5 in X. exact X.
    + intros u. destruct (I6 u) as [P1 P2]. split; [auto|]. rewrite P2. two t u; [now rewrite Ep|reflexivity].
  - destruct (pcs s t) as [| | | |r|] eqn:Ep; try (injection E as <-; exact H).
    + destruct (ptr s) as [k|] eqn:Ek; injection E as <-.
      * rewrite <- Ek. apply inv_at; auto; rewrite ?Ep; try discriminate; try (cbn; tauto); congruence.
      * split; cbn; auto.
        -- intros u. two t u; [rewrite <- I3, Ep; cbn; tauto|apply I3].
        -- intros u k. two t u; [discriminate|]. apply I5.
        -- intros u. destruct (I6 u) as [P1 P2]. split; [auto|]. rewrite P2. two t u; [now rewrite Ep|reflexivity].
    + pose proof (I4 t Ep) as En. assert (Hi : inside (pcs s t)) by (rewrite Ep; exact I). pose proof (proj1 (I3 t) Hi) as Hh.
      assert (HO : forall u, u <> t -> ~ inside (pcs s u)) by (intros u N X; apply N; eapply alone; eauto).
      destruct good; injection E as <-.
      * split; cbn; auto.
        -- apply single_snoc; auto. rewrite I2. cbn. auto.
        -- rewrite fold_snoc. reflexivity.
        -- intros u. two t u; [rewrite <- I3, Ep; cbn; tauto|apply I3].
        -- intros u. two t u; [discriminate|]. intros X. exfalso. apply (HO u N). rewrite X. exact I.
        -- intros u k. two t u; [congruence|]. intros X. exfalso. apply (HO u N). rewrite X. exact I.
        -- intros u. destruct (I6 u) as [P1 P2]. split; [apply passed_snoc; cbn; auto|]. rewrite fold_snoc. cbn [pend_of]. rewrite P2. two t u; [now rewrite Ep|reflexivity].
      * split; cbn; auto.
        -- apply single_snoc; auto. rewrite I2. cbn. auto.
        -- rewrite fold_snoc. exact I2.
        -- intros u. two t u; [rewrite <- I3, Ep; cbn; tauto|apply I3].
        -- intros u k. two t u; [discriminate|]. apply I5.
        -- intros u. destruct (I6 u) as [P1 P2]. split.
           ++ apply passed_snoc; auto. rewrite P2. cbn. destruct (Nat.eqb_spec t u) as [->|N]; auto. rewrite Ep. auto.
           ++ rewrite fold_snoc. cbn [pend_of]. rewrite P2. destruct (Nat.eqb_spec t u) as [->|N]; [now rewrite put_same|]. rewrite put_other by auto. reflexivity.
    + assert (Hi : inside (pcs s t)) by (rewrite Ep; exact I). pose proof (proj1 (I3 t) Hi) as Hh.
      assert (HO : forall u, u <> t -> ~ inside (pcs s u)) by (intros u N X; apply N; eapply alone; eauto).
      destruct (when s) eqn:Ew; try discriminate. injection E as <-. split; cbn; auto.
      * apply single_snoc; auto. rewrite I2. destruct r as [k|]; cbn; auto. split; [apply (I5 t k Ep)|exact I].
      * rewrite fold_snoc. destruct r; exact I2.
      * intros u. two t u; [cbn; split; [intros []|discriminate]|]. split; [intros X; now apply HO in X|discriminate].
      * intros u. two t u; [discriminate|apply I4].
      * intros u k. two t u; [discriminate|apply I5].
      * intros u. destruct (I6 u) as [P1 P2]. split.
        -- apply passed_snoc; auto. rewrite P2. destruct r as [k|]; cbn; destruct (Nat.eqb_spec t u) as [->|N]; auto; rewrite Ep; auto.
        -- rewrite fold_snoc, P2. two t u; [|destruct r; cbn [pend_of]; (destruct (Nat.eqb_spec t u); [congruence|reflexivity])].
           rewrite Ep. destruct r; cbn [pend_of]; now rewrite Nat.eqb_refl.
  - destruct (pcs s t) eqn:Ep; try (injection E as <-; exact H). injection E as <-. apply inv_at; auto; rewrite ?Ep; try discriminate. cbn. tauto.
Qed.
Lemma run_inv (P : state -> Prop) (HP : forall s m s', P s -> step s m = Ok s' -> P s') ms : forall s s', P s -> run s ms = Ok s' -> P s'.
Proof.
  induction ms as [|m ms IH]; intros s s' H E; cbn [run] in E; [injection E as <-; exact H|].
  destruct (step s m) as [t| | |] eqn:Es; cbn [obind] in E; try discriminate. eauto.
Qed.
Lemma inv_reached s : reached s -> Inv s.
Proof. intros (ms & E). eapply run_inv; eauto using inv_step, inv_start. Qed.

(** ** Every call that has the mutex ends *)
Lemma ended_app t a b : ended t (a ++ b) = (ended t a + ended t b)%nat.
Proof. unfold ended. now rewrite flat_map_app, app_length. Qed.
Definition left (p : pc) : nat := match p with Inside => 3 | Making => 2 | Leaving _ => 1 | _ => 0 end.
Definition todo (t n d : nat) (s : state) : Prop := (n < ended t (log s))%nat \/ (n = ended t (log s) /\ (0 < left (pcs s t) <= d)%nat).
Fixpoint goes (t : nat) (ms : list move) : nat := match ms with [] => 0 | M_go u _ :: r => (if Nat.eqb u t then 1 else 0) + goes t r | _ :: r => goes t r end.
Lemma todo_keep t n d s s' : (ended t (log s) <= ended t (log s'))%nat -> (ended t (log s) = ended t (log s') -> left (pcs s t) = left (pcs s' t)) -> todo t n d s -> todo t n d s'.
Proof. intros H1 H2 [H|[-> H]]; [left; lia|]. destruct (Nat.eq_dec (ended t (log s)) (ended t (log s'))) as [E|N]; [right; rewrite <- H2 by auto; auto|left; lia]. Qed.
Lemma todo_other t n d s m s' : (forall g, m <> M_go t g) -> m <> M_again t -> step s m = Ok s' -> todo t n d s -> todo t n d s'.
Proof.
  intros H1 H2 E. destruct m as [| |u|u ok|u g|u]; unfold step in E.
  - destruct (when s); injection E as <-; auto.
  - destruct (when s); injection E as <-; auto.
  - destruct (pcs s u) eqn:Ep; try (injection E as <-; auto; fail). destruct (when s); try discriminate. injection E as <-. apply todo_keep; cbn [log pcs]; [lia|].
    intros _. two u t; [now rewrite Ep|reflexivity].
  - destruct (pcs s u) eqn:Ep; try (injection E as <-; auto; fail). destruct (when s); try discriminate. destruct ok; [|discriminate]. destruct (holder s); injection E as <-; auto.
    intros [H|[-> H]]; [left; exact H|right; cbn [log pcs]; split; [reflexivity|]]. two u t; [rewrite Ep in H; cbn in H; lia|exact H].
  - assert (N : t <> u) by (intros ->; eapply H1; reflexivity).
    destruct (pcs s u) as [| | | |r|] eqn:Ep; try (injection E as <-; auto; fail).
    + destruct (ptr s); injection E as <-; apply todo_keep; cbn [log pcs]; auto; intros _; now rewrite put_other.
    + destruct g; injection E as <-; apply todo_keep; cbn [log pcs]; rewrite ?ended_app; try lia; intros _; now rewrite put_other.
    + destruct (when s); try discriminate. injection E as <-. apply todo_keep; cbn [log pcs]; rewrite ?ended_app; try lia; intros _; now rewrite put_other.
  - assert (N : t <> u) by congruence. destruct (pcs s u); injection E as <-; auto. apply todo_keep; cbn [log pcs]; auto; intros _; now rewrite put_other.
Qed.
Lemma todo_own t n d s g s' : step s (M_go t g) = Ok s' -> todo t n (S d) s -> todo t n d s'.
Proof.
  intros E [H|[-> H]].
  - left. unfold step in E. destruct (pcs s t) as [| | | |r|]; try (injection E as <-; auto; fail).
    + destruct (ptr s); injection E as <-; auto.
    + destruct g; injection E as <-; cbn [log]; rewrite ended_app; lia.
    + destruct (when s); try discriminate. injection E as <-. cbn [log]. rewrite ended_app. lia.
  - unfold step in E. destruct (pcs s t) as [| | | |r|] eqn:Ep; cbn [left] in H; try lia.
    + destruct (ptr s); injection E as <-; right; cbn [log pcs]; rewrite put_same; cbn; lia.
    + destruct g; injection E as <-; right; cbn [log pcs]; rewrite put_same, ended_app; cbn; lia.
    + destruct (when s); try discriminate. injection E as <-. left. cbn [log]. rewrite ended_app. destruct r; unfold ended at 3; cbn; rewrite Nat.eqb_refl; cbn; lia.
Qed.
Lemma todo_run t n ms : forall d s s', ~ In (M_again t) ms -> run s ms = Ok s' -> todo t n d s -> todo t n (d - goes t ms) s'.
Proof.
  induction ms as [|m ms IH]; intros d s s' HA E H; cbn [run] in E; [injection E as <-; cbn; now rewrite Nat.sub_0_r|].
  destruct (step s m) as [x| | |] eqn:Es; cbn [obind] in E; try discriminate.
  assert (HA1 : m <> M_again t) by (intros ->; apply HA; now left). assert (HA2 : ~ In (M_again t) ms) by (intros X; apply HA; now right).
  assert (G : (forall g, m <> M_go t g) -> todo t n (d - goes t ms) s') by (intros X; eapply IH; eauto using todo_other).
  destruct m as [| |u|u ok|u g|u]; cbn [goes]; try (apply G; discriminate).
  destruct (Nat.eqb_spec u t) as [->|N]; [|cbn; apply G; congruence].
  destruct d as [|d].
  - apply (IH 0%nat x); auto. apply (todo_own t n 0 s g x Es). destruct H as [H|[-> H]]; [now left|lia].
  - replace (S d - (1 + goes t ms))%nat with (d - goes t ms)%nat by lia. apply (IH d x); auto. eapply todo_own; eauto.
Qed.
