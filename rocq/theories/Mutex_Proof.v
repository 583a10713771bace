From Verif Require Import Common CommonLemmas Mutex_Model Mutex_Spec.
Local Open Scope Z_scope.

Section P.
  Context (recursive : bool).
  (** What is known of a thread, from where it is, its depth [d] and its wait flag [w]. *)
  Definition no (s : mstate) (t : tid) : Prop := mid s <> Some t /\ holder s <> self t.
  Definition owns (s : mstate) (t : tid) (d : nat) : Prop :=
    mid s = Some t /\ holder s = self t /\ (if recursive then cnt s = Z.of_nat d else d = 1%nat).
  Definition resting (s : mstate) (t : tid) (d : nat) : Prop := (d = 0%nat /\ no s t) \/ (d <> 0%nat /\ owns s t d).
  Definition saved (t : tid) (h c : Z) (d : nat) : Prop := h = self t /\ d <> 0%nat /\ (if recursive then c = Z.of_nat d else c = -1 /\ d = 1%nat).
  Definition tinv (s : mstate) (t : tid) (d : nat) (w : bool) : Prop :=
    match pcs s t with
    | Idle => w = false /\ resting s t d
    | Lk0 => w = false /\ resting s t d
    | Un0 => w = false /\ resting s t d /\ (recursive = false -> d = 1%nat)
    | Lk1 | Un1 => recursive = true /\ w = false /\ resting s t d
    | LkN1 => recursive = false /\ w = false /\ resting s t d
    | LkN2 => recursive = false /\ w = false /\ d = 0%nat /\ mid s = Some t
    | Lk2 | Un2 => recursive = true /\ w = false /\ d <> 0%nat /\ owns s t d
    | Lk2w c | Un2w c => recursive = true /\ w = false /\ d <> 0%nat /\ owns s t d /\ c = Z.of_nat d
    | Lk3 => recursive = true /\ w = false /\ d = 0%nat /\ no s t
    | Lk4 => recursive = true /\ w = false /\ d = 0%nat /\ mid s = Some t /\ holder s <> self t
    | Lk5 => recursive = true /\ w = false /\ d = 0%nat /\ mid s = Some t /\ holder s <> self t /\ cnt s = 1
    | UnN1 => recursive = false /\ w = false /\ d = 1%nat /\ mid s = Some t
    | UnN2 => recursive = false /\ w = false /\ d = 1%nat /\ mid s = Some t /\ holder s <> self t
    | Un3 => recursive = true /\ w = false /\ d = 1%nat /\ mid s = Some t
    | Un4 => recursive = true /\ w = false /\ d = 1%nat /\ mid s = Some t /\ holder s <> self t
    | Wt0 => w = true /\ resting s t d
    | Wt1 => w = true /\ d <> 0%nat /\ owns s t d
    | Wt2 h => w = true /\ d <> 0%nat /\ owns s t d /\ h = self t
    | Wt3 h c => recursive = true /\ w = true /\ mid s = Some t /\ saved t h c d
    | Wt4 h c => recursive = true /\ w = true /\ mid s = Some t /\ saved t h c d /\ holder s <> self t
    | Wt5 h c => w = true /\ mid s = Some t /\ saved t h c d /\ (recursive = true -> holder s <> self t)
    | WtA h c | WtW h c => w = true /\ mid s <> Some t /\ saved t h c d /\ (recursive = true -> holder s <> self t)
    | Wt8 h c => w = true /\ mid s = Some t /\ saved t h c d
    | Wt9 h => w = true /\ mid s = Some t /\ h = self t /\ d <> 0%nat /\ (if recursive then cnt s = Z.of_nat d else d = 1%nat)
    | Undefined => False
    end.
  Definition Inv (s : mstate) (h : list event) : Prop :=
    (if recursive then 0 <= cnt s else cnt s = -1) /\ forall t, tinv s t (depth t h) (waiting t h).

  Lemma depth_app t h h' : depth t (h ++ h') = fold_left (fun n e => count t e n) h' (depth t h).
  Proof. unfold depth. apply fold_left_app. Qed.
  Lemma waiting_app t h h' : waiting t (h ++ h') = fold_left (fun n e => wait_flag t e n) h' (waiting t h).
  Proof. unfold waiting. apply fold_left_app. Qed.
  Lemma upd_eq f t x : upd f t x t = x.
  Proof. unfold upd. now rewrite Pos.eqb_refl. Qed.
  Lemma upd_ne f t x u : u <> t -> upd f t x u = f u.
  Proof. unfold upd. intros. destruct (Pos.eqb_spec u t); [contradiction|reflexivity]. Qed.
  Definition ev_tid (e : event) : tid := match e with Locked t | Unlock t | Unlocked t _ | Wait t | Waited t _ => t end.
  Lemma other_events t h e : Forall (fun x => ev_tid x <> t) e -> depth t (h ++ e) = depth t h /\ waiting t (h ++ e) = waiting t h.
  Proof.
    intros H. rewrite depth_app, waiting_app. generalize (depth t h), (waiting t h). induction H as [|x e Hx He IH]; intros n b; [auto|]. cbn [fold_left].
    replace (count t x n) with n; [replace (wait_flag t x b) with b; [apply IH|]|];
    destruct x as [u|u|u r|u|u r]; cbn in *; try reflexivity; try (destruct r; [|reflexivity]); destruct (Pos.eqb_spec u t); congruence.
  Qed.

  (** Another thread's step does not disturb [u]. *)
  Lemma frame s s' t u d w : u <> t -> tinv s u d w -> pcs s' u = pcs s u ->
    (mid s' = mid s \/ (mid s' = Some t /\ mid s = None) \/ (mid s' = None /\ mid s = Some t)) ->
    (holder s' = holder s \/ (holder s' <> self u /\ mid s = Some t)) -> (cnt s' = cnt s \/ mid s = Some t) -> tinv s' u d w.
  Proof.
    intros Hu H Ep Hm Hh Hc. unfold tinv in *. rewrite Ep.
    assert (Eo : mid s = Some u -> mid s' = Some u /\ holder s' = holder s /\ cnt s' = cnt s).
    { intros E. assert (mid s <> Some t) by congruence. destruct Hm as [Hm|[[_ Hm]|[_ Hm]]]; [|congruence|congruence].
      destruct Hh as [Hh|[_ Hh]]; [|congruence]. destruct Hc as [Hc|Hc]; [|congruence]. repeat split; congruence. }
    assert (En : mid s <> Some u -> mid s' <> Some u).
    { intros E. destruct Hm as [Hm|[[Hm _]|[Hm _]]]; congruence. }
    assert (Eh : mid s <> Some u -> holder s <> self u -> holder s' <> self u).
    { intros E1 E2. destruct Hh as [Hh|[Hh _]]; congruence. }
    assert (Eno : no s u -> no s' u) by (intros [A B]; split; auto).
    assert (Eow : forall d, owns s u d -> owns s' u d).
    { intros d0 (A & B & C). destruct (Eo A) as (A1 & A2 & A3). repeat split; [exact A1|congruence|]. destruct recursive; congruence. }
    assert (Ere : forall d, resting s u d -> resting s' u d) by (intros d0 [[A B]|[A B]]; [left|right]; auto).
    destruct (pcs s u); try (intuition; fail);
      repeat match goal with H : _ /\ _ |- _ => destruct H end; repeat match goal with |- _ /\ _ => split end; auto;
      try (apply Eo; assumption); try (destruct (Eo ltac:(assumption)) as (E1 & E2 & E3); rewrite ?E1, ?E2, ?E3; auto; fail).
    all: try (intros; destruct (Eo ltac:(assumption)) as (E1 & E2 & E3); rewrite ?E1, ?E2, ?E3; auto; fail).
  Qed.

  (** Unlocking a plain mutex is only done by its holder. *)
  Definition allowed (t : tid) (ch : choice) (h : list event) : Prop := ch = CallUnlock -> recursive = false -> (0 < depth t h)%nat.

  Lemma exec_inv t ch s s' e h : Inv s h -> allowed t ch h -> exec t ch s = Some (s', e) ->
    Inv s' (h ++ e) /\ (forall r, In (Unlocked t r) e \/ In (Waited t r) e -> r = true <-> (0 < depth t h)%nat) /\ Forall (fun x => ev_tid x = t) e.
  Proof.
    intros [Hc Ht] Ha E. pose proof (Ht t) as Hti. unfold tinv in Hti.
    assert (Oth : forall c' m' h' p ev, (if recursive then 0 <= c' else c' = -1) ->
      (m' = mid s \/ (m' = Some t /\ mid s = None) \/ (m' = None /\ mid s = Some t)) ->
      (h' = holder s \/ ((h' = self t \/ h' <= 0) /\ mid s = Some t)) -> (c' = cnt s \/ mid s = Some t) ->
      Forall (fun x => ev_tid x = t) ev ->
      tinv (mkM m' h' c' (upd (pcs s) t p)) t (depth t (h ++ ev)) (waiting t (h ++ ev)) ->
      Inv (mkM m' h' c' (upd (pcs s) t p)) (h ++ ev)).
    { intros c' m' h' p ev H1 H2 H3 H4 H5 H6. split; [exact H1|]. intros u. destruct (Pos.eq_dec u t) as [->|Hne]; [exact H6|].
      destruct (other_events u h ev) as [-> ->]; [eapply Forall_impl; [|exact H5]; cbn; intros; congruence|].
      eapply (frame s _ t u); cbn [pcs mid holder cnt]; auto.
      - now rewrite upd_ne.
      - destruct H3 as [H3|[[H3|H3] H3']]; [left; exact H3|right; split; [|exact H3']|right; split; [|exact H3']]; subst; unfold self in *; [congruence|lia]. }
    assert (Dn : forall u, depth t (h ++ [Locked u]) = if Pos.eqb u t then S (depth t h) else depth t h) by (intros; rewrite depth_app; reflexivity).
    unfold exec in E. destruct (pcs s t) eqn:Ep; destruct ch; try discriminate;
      repeat match type of E with
      | context [match ?x with _ => _ end] => destruct x eqn:?; try discriminate
      end; try (injection E as <- <-).
    all: try (exfalso; repeat match goal with H : Pos.eqb _ _ = false |- _ => apply Pos.eqb_neq in H | H : Pos.eqb _ _ = true |- _ => apply Pos.eqb_eq in H end; intuition congruence).
    all: (split; [apply Oth; cbn [app]; auto|split; [intros r Hr; cbn in Hr; try (destruct Hr; contradiction)|]]); auto.
    all: unfold tinv; cbn [pcs mid holder cnt]; rewrite ?upd_eq; rewrite ?app_nil_r, ?depth_app, ?waiting_app; cbn [fold_left count wait_flag]; rewrite ?Pos.eqb_refl.
    all: unfold resting, owns, no, saved, allowed, self in *; cbn [pcs mid holder cnt].
    all: repeat match goal with
         | H : Pos.eqb _ _ = true |- _ => apply Pos.eqb_eq in H
         | H : Pos.eqb _ _ = false |- _ => apply Pos.eqb_neq in H
         | H : (_ <? _) = _ |- _ => first [apply Z.ltb_lt in H|apply Z.ltb_ge in H]
         | H : (_ <=? _) = _ |- _ => first [apply Z.leb_le in H|apply Z.leb_gt in H]
         | H : (_ =? _) = _ |- _ => first [apply Z.eqb_eq in H|apply Z.eqb_neq in H]
         end.
    all: repeat match goal with H : _ /\ _ |- _ => destruct H | H : _ \/ _ |- _ => destruct H end; try contradiction; try discriminate.
    all: clear Oth Ht Dn.
    all: repeat match goal with H : Unlocked _ _ = Unlocked _ _ |- _ => injection H as <- | H : Waited _ _ = Waited _ _ |- _ => injection H as <- end.
    all: destruct recursive; try discriminate.
    all: try (exfalso; solve [congruence|lia]).
    all: try (intuition (first [congruence|lia]); fail).
  Qed.
End P.

Lemma init_inv rc : Inv rc (init rc) [].
Proof.
  split; [destruct rc; cbn; lia|]. intros t. unfold tinv. cbn. split; [reflexivity|]. left. split; [reflexivity|]. split; cbn; [discriminate|unfold self; lia].
Qed.

Lemma call_unlock_event t s s1 e1 : exec t CallUnlock s = Some (s1, e1) -> e1 = [Unlock t].
Proof. unfold exec. destruct (pcs s t); try discriminate; intros E; now injection E as _ <-. Qed.

Lemma run_inv rc : forall sched s h s' e, Inv rc s h -> (rc = false -> disciplined (h ++ e)) -> run sched s = Some (s', e) ->
  Inv rc s' (h ++ e) /\
  (forall e1 t r e2, (e = e1 ++ Unlocked t r :: e2 \/ e = e1 ++ Waited t r :: e2) -> r = true <-> (0 < depth t (h ++ e1))%nat) .
Proof.
  induction sched as [|[t ch] rest IH]; intros s h s' e Hi Hd E.
  - cbn in E. injection E as <- <-. rewrite app_nil_r. split; [exact Hi|]. intros e1 t r e2 [X|X]; destruct e1; discriminate X.
  - cbn in E. destruct (exec t ch s) as [[s1 x1]|] eqn:Ex; [|discriminate]. destruct (run rest s1) as [[s2 x2]|] eqn:Er; [|discriminate]. injection E as <- <-.
    assert (Ha : allowed rc t ch h).
    { intros -> Hrc. apply call_unlock_event in Ex. subst x1. apply (Hd Hrc h t x2). reflexivity. }
    destruct (exec_inv rc t ch s s1 x1 h Hi Ha Ex) as (Hi1 & Hr1 & Hf).
    destruct (IH s1 (h ++ x1) s2 x2 Hi1) as (Hi2 & Hr2); [rewrite <- app_assoc; exact Hd|exact Er|]. rewrite <- app_assoc in Hi2.
    split; [exact Hi2|]. intros e1 u r e2 Heq.
    assert (Hlen : (length x1 <= 1)%nat).
    { clear -Ex. unfold exec in Ex. repeat match type of Ex with context [match ?x with _ => _ end] => destruct x; try discriminate end; injection Ex as _ <-; cbn; lia. }
    destruct x1 as [|v [|v' x1]]; [| |cbn in Hlen; lia].
    + cbn [app] in Heq. rewrite app_nil_r in Hr2. eapply Hr2; eauto.
    + destruct e1 as [|w e1].
      * cbn [app] in Heq. rewrite app_nil_r.
        assert (v = Unlocked u r \/ v = Waited u r) by (destruct Heq as [Q|Q]; injection Q; auto).
        assert (u = t) as -> by (apply Forall_inv in Hf; destruct H; subst v; exact Hf).
        apply Hr1. destruct H as [-> | ->]; cbn; auto.
      * replace (h ++ w :: e1) with ((h ++ [v]) ++ e1).
        { eapply Hr2. destruct Heq as [Q|Q]; injection Q as _ Q; [left|right]; exact Q. }
        rewrite <- app_assoc. cbn. destruct Heq as [Q|Q]; injection Q as -> _; reflexivity.
Qed.

Lemma holds_mid rc s h t : Inv rc s h -> holds t h -> mid s = Some t.
Proof.
  intros [_ Hi] [Hd Hw]. specialize (Hi t). unfold tinv in Hi. rewrite Hw in Hi.
  unfold resting, owns in Hi. destruct (pcs s t); intuition (try lia; try congruence).
Qed.

Lemma resting_mid rc s h t : Inv rc s h -> mid s = Some t -> (pcs s t = Idle \/ exists x c, pcs s t = WtA x c) -> holds t h.
Proof.
  intros [_ Hi] Hm Hp. specialize (Hi t). unfold tinv in Hi. destruct Hp as [Hp|(x & c & Hp)]; rewrite Hp in Hi.
  - destruct Hi as (Hw & [[_ [Hn _]]|[Hd _]]); [contradiction|]. split; [lia|exact Hw].
  - tauto.
Qed.

Lemma mutex_exclusion rc sched s h : run sched (init rc) = Some (s, h) -> (rc = false -> disciplined h) ->
  forall t u, holds t h -> holds u h -> t = u.
Proof.
  intros E Hd t u Ht Hu. destruct (run_inv rc sched (init rc) [] s h (init_inv rc) Hd E) as [Hi _]. cbn [app] in Hi.
  pose proof (holds_mid rc s h t Hi Ht). pose proof (holds_mid rc s h u Hi Hu). congruence.
Qed.

Lemma mutex_results rc sched s h : run sched (init rc) = Some (s, h) -> (rc = false -> disciplined h) ->
  forall h1 t r h2, (h = h1 ++ Unlocked t r :: h2 \/ h = h1 ++ Waited t r :: h2) -> r = true <-> (0 < depth t h1)%nat.
Proof.
  intros E Hd. destruct (run_inv rc sched (init rc) [] s h (init_inv rc) Hd E) as [_ Hr]. exact Hr.
Qed.

Lemma mutex_no_undefined rc sched s h : run sched (init rc) = Some (s, h) -> (rc = false -> disciplined h) -> forall t, pcs s t <> Undefined.
Proof.
  intros E Hd t Hp. destruct (run_inv rc sched (init rc) [] s h (init_inv rc) Hd E) as [[_ Hi] _]. specialize (Hi t). unfold tinv in Hi. now rewrite Hp in Hi.
Qed.

(** When nobody holds the mutex and nobody is inside a call (other than asleep in wait), anybody can take it. *)
Lemma mutex_available rc sched s h : run sched (init rc) = Some (s, h) -> (rc = false -> disciplined h) ->
  (forall t, pcs s t = Idle \/ exists x c, pcs s t = WtA x c) -> (forall t, ~ holds t h) ->
  forall u, pcs s u = Idle -> exists sched' s', run (map (pair u) sched') s = Some (s', [Locked u]).
Proof.
  intros E Hd Hrest Hno u Hu. destruct (run_inv rc sched (init rc) [] s h (init_inv rc) Hd E) as [Hi _]. cbn [app] in Hi.
  assert (Hm : mid s = None).
  { destruct (mid s) as [t|] eqn:Em; [|reflexivity]. exfalso. apply (Hno t). eapply resting_mid; eauto. }
  assert (Hh : cnt s <? 0 = negb rc /\ (self u =? holder s) = false \/ cnt s <? 0 = true /\ rc = false).
  { destruct Hi as [Hc Hi]. specialize (Hi u). unfold tinv in Hi. rewrite Hu in Hi. destruct Hi as (_ & [[_ [_ Hn]]|[_ (Hn & _)]]); [|congruence].
    destruct rc; [left|right]; [|split; [lia|reflexivity]]. split; [cbn; lia|]. apply Z.eqb_neq. congruence. }
  destruct rc.
  - destruct Hh as [[H1 H2]|[_ H]]; [|discriminate]. cbn in H1.
    exists [CallLock; Go; Go; Go; Go; Go].
    cbn -[self Z.eqb]. unfold exec at 1. rewrite Hu. unfold exec at 1. cbn -[self Z.eqb]. rewrite upd_eq, H1. unfold exec at 1. cbn -[self Z.eqb]. rewrite upd_eq, H2.
    unfold exec at 1. cbn -[self Z.eqb]. rewrite upd_eq, Hm. unfold exec at 1. cbn -[self Z.eqb]. rewrite upd_eq. unfold exec at 1. cbn -[self Z.eqb]. rewrite upd_eq.
    eexists. reflexivity.
  - assert (H1 : cnt s <? 0 = true) by (destruct Hh as [[H _]|[H _]]; exact H).
    exists [CallLock; Go; Go; Go].
    cbn -[self Z.eqb]. unfold exec at 1. rewrite Hu. unfold exec at 1. cbn -[self Z.eqb]. rewrite upd_eq, H1. unfold exec at 1. cbn -[self Z.eqb]. rewrite upd_eq, Hm.
    unfold exec at 1. cbn -[self Z.eqb]. rewrite upd_eq. eexists. reflexivity.
Qed.

(** The thread that comes back from a wait has the mutex, as deep as it called wait. *)
Definition unlocked_by t e := match e with Locked u | Unlocked u _ => u = t | _ => False end.
Lemma wait_inv rc : forall sched s h s' e, Inv rc s h -> (rc = false -> disciplined (h ++ e)) -> run sched s = Some (s', e) ->
  forall e1 t e2 r, waiting t h = true -> e = e1 ++ Waited t r :: e2 -> (forall b, ~ In (Waited t b) e1) -> Forall (fun x => ~ unlocked_by t x) e1.
Proof.
  induction sched as [|[t ch] rest IH]; intros s h s' e Hi Hd E e1 u e2 r Hw Heq Hn.
  - cbn in E. injection E as <- <-. destruct e1; discriminate Heq.
  - cbn in E. destruct (exec t ch s) as [[s1 x1]|] eqn:Ex; [|discriminate]. destruct (run rest s1) as [[s2 x2]|] eqn:Er; [|discriminate]. injection E as <- <-.
    assert (Ha : allowed rc t ch h).
    { intros -> Hrc. apply call_unlock_event in Ex. subst x1. apply (Hd Hrc h t x2). reflexivity. }
    destruct (exec_inv rc t ch s s1 x1 h Hi Ha Ex) as (Hi1 & Hr1 & Hf).
    assert (Hx : Forall (fun x => ~ unlocked_by u x) x1 /\ (length x1 <= 1)%nat).
    { destruct Hi as [_ Hi]. specialize (Hi u). unfold tinv in Hi. rewrite Hw in Hi. destruct (Pos.eq_dec u t) as [->|Hne].
      - clear -Ex Hi. unfold exec in Ex. destruct (pcs s t), ch; try discriminate; try (exfalso; clear -Hi; intuition discriminate);
          repeat match type of Ex with context [match ?x with _ => _ end] => destruct x; try discriminate end; injection Ex as _ <-; split; cbn; repeat constructor; cbn; auto.
      - split; [eapply Forall_impl; [|exact Hf]; cbn; intros a Ha1 Hb; destruct a; cbn in *; congruence|].
        clear -Ex. unfold exec in Ex. repeat match type of Ex with context [match ?x with _ => _ end] => destruct x; try discriminate end; injection Ex as _ <-; cbn; lia. }
    destruct Hx as [Hx Hlen].
    destruct e1 as [|w e1]; [constructor|].
    destruct x1 as [|v [|v' x1]]; [| |cbn in Hlen; lia].
    + rewrite app_nil_r in Hi1. cbn [app] in *. eapply (IH s1 h s2 x2 Hi1 Hd Er (w :: e1)); eauto.
    + cbn [app] in Heq. injection Heq as -> Heq. inversion Hx; subst. constructor; [assumption|].
      eapply (IH s1 (h ++ [w]) s2 _ Hi1); [rewrite <- app_assoc; exact Hd|exact Er| |reflexivity|].
      * rewrite waiting_app. cbn [fold_left]. rewrite Hw. destruct w as [a|a|a b|a|a b]; cbn; try reflexivity; destruct (Pos.eqb_spec a u) as [->|]; try reflexivity.
        exfalso. apply (Hn b). left. reflexivity.
      * intros b Hb. apply (Hn b). right. exact Hb.
Qed.

Lemma depth_same t : forall e h, Forall (fun x => ~ unlocked_by t x) e -> depth t (h ++ e) = depth t h.
Proof.
  intros e h H. rewrite depth_app. generalize (depth t h). induction H as [|x e Hx He IH]; intros n; [reflexivity|]. cbn [fold_left].
  replace (count t x n) with n; [apply IH|]. destruct x as [u|u|u r|u|u r]; cbn in *; try reflexivity; try (destruct r; [|reflexivity]); destruct (Pos.eqb_spec u t); congruence.
Qed.

Lemma run_split : forall sched s s' e e1 e2, run sched s = Some (s', e) -> e = e1 ++ e2 ->
  exists sa sb s1, run sa s = Some (s1, e1) /\ run sb s1 = Some (s', e2).
Proof.
  induction sched as [|[t ch] rest IH]; intros s s' e e1 e2 E Heq.
  - cbn in E. injection E as <- <-. symmetry in Heq. apply app_eq_nil in Heq. destruct Heq as [-> ->]. exists [], [], s. auto.
  - cbn in E. destruct (exec t ch s) as [[s1 x1]|] eqn:Ex; [|discriminate]. destruct (run rest s1) as [[s2 x2]|] eqn:Er; [|discriminate]. injection E as <- <-.
    assert (Hlen : (length x1 <= 1)%nat).
    { clear -Ex. unfold exec in Ex. repeat match type of Ex with context [match ?x with _ => _ end] => destruct x; try discriminate end; injection Ex as _ <-; cbn; lia. }
    destruct x1 as [|v [|v' x1]]; [| |cbn in Hlen; lia].
    + cbn [app] in Heq. destruct (IH s1 s2 x2 e1 e2 Er Heq) as (sa & sb & s3 & A & B). exists ((t, ch) :: sa), sb, s3. split; [|exact B]. cbn. rewrite Ex, A. reflexivity.
    + destruct e1 as [|w e1].
      * exists [], ((t, ch) :: rest), s. split; [reflexivity|]. cbn in Heq |- *. now rewrite Ex, Er, <- Heq.
      * cbn in Heq. injection Heq as -> Heq. destruct (IH s1 s2 x2 e1 e2 Er Heq) as (sa & sb & s3 & A & B). exists ((t, ch) :: sa), sb, s3. split; [|exact B]. cbn. rewrite Ex, A. reflexivity.
Qed.

Lemma wait_returns rc sched s h : run sched (init rc) = Some (s, h) -> (rc = false -> disciplined h) ->
  forall h1 t h2 h3, h = h1 ++ Wait t :: h2 ++ Waited t true :: h3 -> (forall b, ~ In (Waited t b) h2) ->
  depth t (h1 ++ Wait t :: h2 ++ [Waited t true]) = depth t h1 /\ holds t (h1 ++ Wait t :: h2 ++ [Waited t true]) /\
  forall u, u <> t -> ~ holds u (h1 ++ Wait t :: h2 ++ [Waited t true]).
Proof.
  intros E Hd h1 t h2 h3 Heq Hn.
  assert (D1 : depth t (h1 ++ Wait t :: h2 ++ [Waited t true]) = depth t h1).
  { destruct (run_split sched (init rc) s h (h1 ++ [Wait t]) (h2 ++ Waited t true :: h3) E) as (sa & sb & s1 & Ea & Eb); [rewrite <- app_assoc; exact Heq|].
    assert (Hd1 : rc = false -> disciplined (h1 ++ [Wait t])).
    { intros Hr a v b Hab. apply (Hd Hr a v (b ++ h2 ++ Waited t true :: h3)). rewrite Heq. change (h1 ++ Wait t :: h2 ++ Waited t true :: h3) with (h1 ++ [Wait t] ++ (h2 ++ Waited t true :: h3)).
      rewrite app_assoc, Hab, <- app_assoc. reflexivity. }
    destruct (run_inv rc sa (init rc) [] s1 (h1 ++ [Wait t]) (init_inv rc) Hd1 Ea) as [Hi _]. cbn [app] in Hi.
    assert (Hf : Forall (fun x => ~ unlocked_by t x) h2).
    { eapply (wait_inv rc sb s1 (h1 ++ [Wait t]) s (h2 ++ Waited t true :: h3) Hi); eauto.
      - intros Hr. rewrite <- app_assoc. cbn. rewrite <- Heq. auto.
      - rewrite waiting_app. cbn. now rewrite Pos.eqb_refl. }
    apply depth_same. constructor; [cbn; tauto|]. apply Forall_app. split; [exact Hf|]. constructor; [cbn; tauto|constructor]. }
  split; [exact D1|].
  assert (Hh : holds t (h1 ++ Wait t :: h2 ++ [Waited t true])).
  { split.
    - assert (R : true = true <-> (0 < depth t (h1 ++ Wait t :: h2))%nat).
      { eapply (mutex_results rc sched s h E Hd _ t true h3). right. rewrite <- app_assoc. exact Heq. }
      replace (h1 ++ Wait t :: h2 ++ [Waited t true]) with ((h1 ++ Wait t :: h2) ++ [Waited t true]) by (rewrite <- app_assoc; reflexivity).
      rewrite depth_same by (constructor; [cbn; tauto|constructor]). tauto.
    - replace (h1 ++ Wait t :: h2 ++ [Waited t true]) with ((h1 ++ Wait t :: h2) ++ [Waited t true]) by (rewrite <- app_assoc; reflexivity).
      rewrite waiting_app. cbn. now rewrite Pos.eqb_refl. }
  split; [exact Hh|]. intros u Hu Hhu.
  destruct (run_split sched (init rc) s h (h1 ++ Wait t :: h2 ++ [Waited t true]) h3 E) as (sa & sb & s1 & Ea & Eb); [rewrite Heq, <- !app_assoc; cbn; now rewrite <- app_assoc|].
  apply Hu. eapply (mutex_exclusion rc sa s1 _ Ea); eauto.
  intros Hr a v b Hab. apply (Hd Hr a v (b ++ h3)). rewrite Heq.
  replace (h1 ++ Wait t :: h2 ++ Waited t true :: h3) with ((h1 ++ Wait t :: h2 ++ [Waited t true]) ++ h3) by (rewrite <- !app_assoc; cbn; now rewrite <- app_assoc).
  rewrite Hab, <- app_assoc. reflexivity.
Qed.

(** A thread asleep in wait does not have the mutex. *)
Lemma asleep_released rc sched s h : run sched (init rc) = Some (s, h) -> (rc = false -> disciplined h) ->
  forall t x c, pcs s t = WtA x c -> waiting t h = true /\ ~ holds t h.
Proof.
  intros E Hd t x c Hp. destruct (run_inv rc sched (init rc) [] s h (init_inv rc) Hd E) as [[_ Hi] _]. specialize (Hi t). unfold tinv in Hi. rewrite Hp in Hi.
  destruct Hi as (Hw & _). split; [exact Hw|]. intros [_ H]. cbn [app] in Hw. congruence.
Qed.
