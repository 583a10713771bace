From Verif Require Import Common CommonLemmas Chan_Model Chan_Spec.

Section P.
  Context {T : Type}.
  Notation event := (event T).
  Notation state := (state T).
  Notation pc := (pc T).

  Lemma written_app c : forall (l l' : list event) a, written_from c a (l ++ l') = written_from c a l ++ written_from c (alive_from c a l) l'.
  Proof.
    induction l as [|e l IH]; intros l' a; [reflexivity|]. destruct e as [t o|t e|t e]; cbn; try apply IH.
    destruct e; cbn; try apply IH. destruct a; cbn; rewrite IH; reflexivity.
  Qed.
  Lemma alive_app c : forall (l l' : list event) a, alive_from c a (l ++ l') = alive_from c (alive_from c a l) l'.
  Proof.
    induction l as [|e l IH]; intros l' a; [reflexivity|]. destruct e as [t o|t e|t e]; cbn; try apply IH. destruct e; cbn; apply IH.
  Qed.
  Lemma reads_app c : forall (l l' : list event) q r, reads c (l ++ l') q r <-> exists m, reads c l q m /\ reads c l' m r.
  Proof.
    induction l as [|e l IH]; intros l' q r.
    - cbn. split; [intros H; exists q; auto|intros (m & -> & H); exact H].
    - destruct e as [t o|t e|t e]; cbn; try apply IH. destruct e; cbn; try apply IH; destruct (Nat.eqb c0 c); try apply IH.
      split.
      + intros (q' & E & H). apply IH in H. destruct H as (x & H1 & H2). exists x. split; [exists q'; auto|exact H2].
      + intros (x & (q' & E & H1) & H2). exists q'. split; [exact E|]. apply IH. exists x. auto.
  Qed.
  Lemma reads_more c x : forall (l : list event) q r, reads c l q r -> reads c l (q ++ x) (r ++ x).
  Proof.
    induction l as [|e l IH]; intros q r H; [cbn in *; congruence|]. destruct e as [t o|t e|t e]; cbn in *; try (apply IH; exact H).
    destruct e; cbn in *; try (apply IH; exact H); destruct (Nat.eqb c0 c); try (apply IH; exact H).
    - destruct H as (q' & -> & H). exists (q' ++ x). split; [reflexivity|apply IH; exact H].
    - apply (IH (m :: q)). exact H.
  Qed.

  Definition has (p : pc) (c : chan) : bool :=
    match p with
    | W3 _ d _ | W4 _ d _ | R1 d | Rs d | R2 d | R3 d _ | U1 d _ | U2 d _ | S1 d | S2 d _ | E1 d | E2 d _ => Nat.eqb d c
    | _ => false end.
  Definition haslink (p : pc) : bool :=
    match p with W1 _ _ | W2 _ _ _ | W3 _ _ _ | W4 _ _ _ | W5 _ _ _ | D1 | D2 _ | X1 _ | X2 _ => true | _ => false end.
  Definition notifying (p : pc) (c : chan) : bool :=
    match p with W4 _ d _ | W5 _ d _ | U2 d _ | U3 d _ => Nat.eqb d c | _ => false end.
  Definition cstate (p : pc) : option (op T * option (effect T)) :=
    match p with
    | Idle => None
    | W0 m => Some (OWrite m, None)
    | W1 m _ | W2 m _ _ | W3 m _ _ | W4 m _ _ | W5 m _ _ => Some (OWrite m, Some (Wrote m))
    | R0 c | R1 c | Rs c | RA c | RW c | R2 c => Some (ORead c, None)
    | R3 c v => Some (ORead c, Some (Took c v))
    | U0 c m | U1 c m => Some (OUnget c m, None)
    | U2 c m | U3 c m => Some (OUnget c m, Some (Ungot c m))
    | D0 | D1 => Some (ODup, None)
    | D2 c => Some (ODup, Some (Created c))
    | X0 c | X1 c => Some (ODestroy c, None)
    | X2 c => Some (ODestroy c, Some (Destroyed c))
    | S0 c | S1 c => Some (OSize c, None)
    | S2 c n => Some (OSize c, Some (Sized c n))
    | E0 c | E1 c => Some (OEmpty c, None)
    | E2 c b => Some (OEmpty c, Some (Tested c b))
    end.
  Definition inb (c : chan) (l : list chan) : bool := existsb (Nat.eqb c) l.
  Definition pendpc (p : pc) (c : chan) : list T :=
    match p with
    | W1 m todo | W4 m _ todo | W5 m _ todo => if inb c todo then [m] else []
    | W2 m d todo | W3 m d todo => if inb c (d :: todo) then [m] else []
    | _ => [] end.
  Definition pend (s : state) (c : chan) : list T := match lown s with Some t => pendpc (pcs s t) c | None => [] end.
  Definition local (s : state) (p : pc) : Prop :=
    match p with
    | R2 c => dat s c <> [] | Rs c => dat s c = []
    | W1 _ todo | W4 _ _ todo | W5 _ _ todo => NoDup todo
    | W2 _ d todo | W3 _ d todo => NoDup (d :: todo)
    | _ => True end.

  Record Inv (s : state) (l : list event) : Prop := mkInv {
    iA : forall t c, has (pcs s t) c = true <-> own s c = Some t;
    iB : forall t, haslink (pcs s t) = true <-> lown s = Some t;
    iC : NoDup (cs s) /\ forall c, In c (cs s) -> c < next s;
    iD : forall c, alive_from c (Nat.eqb c 0) l = inb c (cs s);
    iE : forall c, unread c l (dat s c ++ pend s c);
    iF : forall t, local s (pcs s t);
    iG : forall t, calls t l (cstate (pcs s t));
    iH : forall t c, pcs s t = RA c -> dat s c <> [] -> exists u, notifying (pcs s u) c = true }.

  Lemma inb_in c l : inb c l = true <-> In c l.
  Proof. unfold inb. rewrite existsb_exists. split; [intros (x & H & E); apply Nat.eqb_eq in E; now subst|intros H; exists c; split; [exact H|apply Nat.eqb_refl]]. Qed.
  Lemma upd_eq {A} (f : nat -> A) n x : upd f n x n = x.
  Proof. unfold upd. now rewrite Nat.eqb_refl. Qed.
  Lemma upd_ne {A} (f : nat -> A) n x m : m <> n -> upd f n x m = f m.
  Proof. unfold upd. intros. destruct (Nat.eqb_spec m n); [contradiction|reflexivity]. Qed.

  Lemma init_inv : Inv init [].
  Proof.
    constructor; cbn; try (intros; split; congruence); try discriminate; auto.
    - split; [repeat constructor; cbn; tauto|]. intros c [<-|[]]. lia.
    - intros c. now rewrite orb_false_r.
    - intros c. constructor.
  Qed.

  Lemma wake_has c p u d : has (wake c (p : tid -> pc) u) d = has (p u) d.
  Proof. unfold wake. destruct (p u); try reflexivity. destruct (Nat.eqb c0 c); reflexivity. Qed.
  Lemma wake_haslink c p u : haslink (wake c (p : tid -> pc) u) = haslink (p u).
  Proof. unfold wake. destruct (p u); try reflexivity. destruct (Nat.eqb c0 c); reflexivity. Qed.
  Lemma wake_notifying c p u d : notifying (wake c (p : tid -> pc) u) d = notifying (p u) d.
  Proof. unfold wake. destruct (p u); try reflexivity. destruct (Nat.eqb c0 c); reflexivity. Qed.
  Lemma wake_cstate c p u : cstate (wake c (p : tid -> pc) u) = cstate (p u).
  Proof. unfold wake. destruct (p u); try reflexivity. destruct (Nat.eqb c0 c); reflexivity. Qed.
  Lemma wake_pend c p u d : pendpc (wake c (p : tid -> pc) u) d = pendpc (p u) d.
  Proof. unfold wake. destruct (p u); try reflexivity. destruct (Nat.eqb c0 c); reflexivity. Qed.
  Lemma wake_local s s' c p u : local s' (p u) -> dat s' = dat s -> local s (wake c (p : tid -> pc) u).
  Proof. unfold wake. intros H E. destruct (p u); cbn in *; try (rewrite <- ?E; exact H). destruct (Nat.eqb c0 c); exact I. Qed.
  Lemma wake_asleep c p u d : wake c (p : tid -> pc) u = RA d -> p u = RA d /\ d <> c.
  Proof. unfold wake. destruct (p u); try discriminate. destruct (Nat.eqb_spec c0 c); [discriminate|]. intros E. injection E as ->. auto. Qed.

  Definition fst_op (y : option (op T * option (effect T))) : option (op T) := match y with Some (o, _) => Some o | None => None end.
  Lemma rev_cases {A} (l : list A) : l = [] \/ exists l' x, l = l' ++ [x].
  Proof. destruct l as [|a l]; [auto|right]. destruct (exists_last (l := a :: l) ltac:(discriminate)) as (l' & x & E). eauto. Qed.
  (** What a step does, seen from the components. *)
  Definition ev_tid (e : event) : tid := match e with Call t _ | Commit t _ | Ret t _ => t end.
  Lemma calls_others t x : forall (e : list event) l, Forall (fun v => ev_tid v <> t) e -> calls t l x -> calls t (l ++ e) x.
  Proof.
    induction e as [|v e IH]; intros l H C; [now rewrite app_nil_r|]. inversion H; subst. change (v :: e) with ([v] ++ e). rewrite app_assoc. apply IH; [assumption|].
    apply calls_other; [exact C|]. destruct v; exact H2.
  Qed.

  Ltac upds := repeat (rewrite ?upd_eq; match goal with |- context [upd ?f ?n ?x ?m] => destruct (Nat.eq_dec m n) as [?|?]; [subst|rewrite (upd_ne f n x m) by assumption] end); rewrite ?upd_eq.
  Ltac cases E Ep :=
    unfold exec in E; cbv zeta in E;
    match type of E with context [match ?ch with Invoke _ => _ | Go => _ | Spurious => _ end] => destruct ch as [[]| |] end;
    match type of E with context [match pcs ?s ?t with Idle => _ | _ => _ end] => destruct (pcs s t) eqn:Ep end; try discriminate;
    try match type of E with context [match lown ?s with Some _ => _ | None => _ end] => destruct (lown s) eqn:? end; try discriminate;
    try match type of E with context [match own ?s ?c with Some _ => _ | None => _ end] => destruct (own s c) eqn:? end; try discriminate;
    repeat match type of E with context [match ?x with _ => _ end] => destruct x eqn:?; try discriminate end; injection E as <- <-.
  (** The mutexes. *)
  Lemma exec_A t ch (s s' : state) e : (forall t c, has (pcs s t) c = true <-> own s c = Some t) -> exec t ch s = Some (s', e) ->
    forall t c, has (pcs s' t) c = true <-> own s' c = Some t.
  Proof.
    intros H E u d. pose proof (H t) as Ht. pose proof (H u) as Hu.
    cases E Ep;
      cbn [pcs own]; cbn [has] in Ht.
    all: try (assert (K : forall c, own s c = Some t -> False) by (intros k Hk; apply Ht in Hk; discriminate Hk)).
    all: try (assert (K : forall c, own s c = Some t <-> c0 = c) by (intros k; rewrite <- Ht; apply Nat.eqb_eq)).
    all: try (assert (K : forall x, own s x = Some t <-> c = x) by (intros k; rewrite <- Ht; apply Nat.eqb_eq)).
    all: unfold upd at 1; destruct (Nat.eqb_spec u t) as [->|Hne]; rewrite ?wake_has; cbn [has]; try rewrite Hu.
    all: try (unfold upd; destruct (Nat.eqb_spec d c) as [->|]).
    all: rewrite ?Nat.eqb_refl, ?Nat.eqb_eq.
    all: try (intuition (try congruence); fail).
    all: try (split; [discriminate|intros Q; exfalso; (apply K in Q; congruence) || (eapply K; eassumption)]).
    all: try (pose proof (proj2 (K c) eq_refl); intuition (try congruence); fail).
    all: try (pose proof (proj2 (K d)); pose proof (proj1 (K d)); intuition (try congruence); fail).
  Qed.

  Lemma exec_B t ch (s s' : state) e : (forall t, haslink (pcs s t) = true <-> lown s = Some t) -> exec t ch s = Some (s', e) ->
    forall t, haslink (pcs s' t) = true <-> lown s' = Some t.
  Proof.
    intros H E u. pose proof (H t) as Ht. pose proof (H u) as Hu. cases E Ep; cbn [pcs lown]; cbn [haslink] in Ht.
    all: unfold upd at 1; destruct (Nat.eqb_spec u t) as [->|Hne]; rewrite ?wake_haslink; cbn [haslink]; try rewrite Hu.
    all: try (intuition (try congruence); fail).
  Qed.

  Lemma in_remove_iff c d (l : list chan) : In d (List.remove Nat.eq_dec c l) <-> In d l /\ d <> c.
  Proof. split; [apply in_remove|intros [H1 H2]; apply in_in_remove; assumption]. Qed.
  Lemma nodup_remove c (l : list chan) : NoDup l -> NoDup (List.remove Nat.eq_dec c l).
  Proof. induction 1 as [|x l Hx Hl IH]; [constructor|]. cbn. destruct (Nat.eq_dec c x); [exact IH|]. constructor; [|exact IH]. intros Hi. apply in_remove_iff in Hi. tauto. Qed.

  Lemma exec_C t ch (s s' : state) e : (NoDup (cs s) /\ forall c, In c (cs s) -> c < next s) -> exec t ch s = Some (s', e) ->
    (NoDup (cs s') /\ forall c, In c (cs s') -> c < next s').
  Proof.
    intros [H1 H2] E. cases E Ep; cbn [cs next]; auto.
    - split; [constructor; [intros Hi; apply H2 in Hi; lia|exact H1]|]. intros c [<-|Hi]; [lia|]. apply H2 in Hi. lia.
    - split; [now apply nodup_remove|]. intros d Hd. apply in_remove_iff in Hd. apply H2, Hd.
  Qed.

  Lemma exec_D t ch (s s' : state) e l : (forall c, alive_from c (Nat.eqb c 0) l = inb c (cs s)) -> exec t ch s = Some (s', e) ->
    forall c, alive_from c (Nat.eqb c 0) (l ++ e) = inb c (cs s').
  Proof.
    intros H E d. rewrite alive_app, H. cases E Ep; cbn [cs]; try reflexivity.
    - cbn. rewrite (Nat.eqb_sym d (next s)). destruct (Nat.eqb (next s) d); reflexivity.
    - cbn. destruct (Nat.eqb_spec c d) as [->|Hne].
      + symmetry. apply not_true_iff_false. rewrite inb_in, in_remove_iff. tauto.
      + apply eq_true_iff_eq. rewrite !inb_in, in_remove_iff. intuition congruence.
  Qed.

  Lemma exec_F t ch (s s' : state) e l : Inv s l -> exec t ch s = Some (s', e) -> forall t, local s' (pcs s' t).
  Proof.
    intros Hi E u. pose proof (iF _ _ Hi t) as Ht. pose proof (iF _ _ Hi u) as Hu. pose proof (iA _ _ Hi t) as At. pose proof (iA _ _ Hi u) as Au. pose proof (iC _ _ Hi) as Hc.
    cases E Ep; cbn [pcs]; cbn [local has] in *.
    all: try (destruct (Nat.eq_dec u t) as [->|Hne]; [rewrite upd_eq; cbn [local dat]|rewrite (upd_ne _ t _ u) by assumption]).
    all: try (eapply wake_local; [|reflexivity]; cbn).
    all: try (rewrite ?upd_eq; first [exact I|apply Hc|solve [inversion Ht; subst; assumption]|exact Ht]).
    all: try exact Hu.
    all: try congruence.
    all: (destruct (pcs s u) eqn:Eu; cbn [local dat has] in *; try exact I; try exact Hu; rewrite upd_ne; try exact Hu).
    all: intros ->; pose proof (proj1 (Au _) (Nat.eqb_refl _)); pose proof (proj1 (At _) (Nat.eqb_refl _)); congruence.
  Qed.

  Lemma exec_tid t ch s s' e : exec t ch s = Some (s', e) -> Forall (fun x : event => ev_tid x = t) e.
  Proof. intros E. cases E Ep; repeat constructor. Qed.

  Lemma exec_G t ch (s s' : state) e l : Inv s l -> exec t ch s = Some (s', e) -> forall t, calls t (l ++ e) (cstate (pcs s' t)).
  Proof.
    intros Hi E u. destruct (Nat.eq_dec u t) as [->|Hne].
    - pose proof (iG _ _ Hi t) as Gt.
      cases E Ep; cbn [pcs]; rewrite ?upd_eq; cbn [cstate] in *; rewrite ?app_nil_r; try exact Gt; try (constructor; exact Gt);
        try (eapply calls_commit; [exact Gt|cbn; auto]); try (eapply calls_ret; exact Gt).
    - pose proof (exec_tid _ _ _ _ _ E) as Hf. apply calls_others; [eapply Forall_impl; [|exact Hf]; cbn; congruence|].
      pose proof (iG _ _ Hi u) as Gu. replace (cstate (pcs s' u)) with (cstate (pcs s u)); [exact Gu|].
      clear Gu Hf. cases E Ep; cbn [pcs]; rewrite ?upd_ne by assumption; rewrite ?wake_cstate; reflexivity.
  Qed.

  Lemma exec_H t ch (s s' : state) e l : Inv s l -> exec t ch s = Some (s', e) ->
    forall t c, pcs s' t = RA c -> dat s' c <> [] -> exists u, notifying (pcs s' u) c = true.
  Proof.
    intros Hi E u d Hu Hd. pose proof (iH _ _ Hi u d) as Ho. pose proof (iF _ _ Hi t) as Ft.
    assert (Keep : forall P p, (forall w, notifying (P w) d = notifying (pcs s w) d) -> (notifying (pcs s t) d = true -> notifying p d = true) ->
      (exists w, notifying (pcs s w) d = true) -> exists w, notifying (upd P t p w) d = true).
    { intros P p HP H (w & Hw). destruct (Nat.eq_dec w t) as [->|Hn]; [exists t; rewrite upd_eq; auto|exists w; rewrite upd_ne by assumption; rewrite HP; exact Hw]. }
    cases E Ep; cbn [pcs dat] in *.
    all: unfold upd in Hu; destruct (Nat.eqb_spec u t) as [->|Hne]; try discriminate Hu.
    all: try (match type of Hu with wake _ _ _ = _ => apply wake_asleep in Hu; destruct Hu as [Hu Hdc] end).
    all: try (injection Hu as <-; cbn in Ft; contradiction).
    all: try (apply (Keep (pcs s) _ (fun _ => eq_refl)); [cbn; congruence|apply Ho; assumption]).
    all: try (match goal with |- context [wake ?k _] => apply (Keep (wake k (pcs s)) _ (fun w => wake_notifying k (pcs s) w d)) end; [cbn; rewrite ?Ep; cbn; intros Q; apply Nat.eqb_eq in Q; congruence|apply Ho; assumption]).
    all: unfold upd in Hd; destruct (Nat.eqb_spec d c) as [Hdc|Hdc]; [rewrite Hdc in *|];
      try (exists t; rewrite upd_eq; cbn; apply Nat.eqb_refl);
      (apply (Keep (pcs s) _ (fun _ => eq_refl)); [cbn; congruence|apply Ho; [assumption|congruence]]).
  Qed.

  Lemma pend_other s t c : lown s = Some t -> pend s c = pendpc (pcs s t) c.
  Proof. intros E. unfold pend. now rewrite E. Qed.

  Lemma unread_silent c (l e : list event) r : unread c l r -> Forall (fun x => match x with Commit _ _ => False | _ => True end) e -> unread c (l ++ e) r.
  Proof.
    intros H Hf. unfold unread, written in *. rewrite written_app.
    assert (E1 : forall a, written_from c a e = []) by (clear -Hf; induction Hf as [|x e Hx He IH]; intros a; [reflexivity|]; destruct x; cbn; try apply IH; contradiction).
    assert (E2 : forall q, reads c e q q) by (clear -Hf; induction Hf as [|x e Hx He IH]; intros a; [reflexivity|]; destruct x; cbn; try apply IH; contradiction).
    rewrite E1, app_nil_r. apply reads_app. exists r. auto.
  Qed.
  Lemma unread_commit c (l : list event) t e r : unread c l r -> written_from c (alive_from c (Nat.eqb c 0) l) [Commit t e] = [] ->
    forall r', reads c [Commit t e] r r' -> unread c (l ++ [Commit t e]) r'.
  Proof.
    intros H Hw r' Hr. unfold unread, written in *. rewrite written_app, Hw, app_nil_r. apply reads_app. exists r. auto.
  Qed.

  Lemma exec_E t ch (s s' : state) e l : Inv s l -> exec t ch s = Some (s', e) -> forall c, unread c (l ++ e) (dat s' c ++ pend s' c).
  Proof.
    intros Hi E d. pose proof (iE _ _ Hi d) as Ed. pose proof (iB _ _ Hi) as Bs. pose proof (Bs t) as Bt. pose proof (iF _ _ Hi t) as Ft. pose proof (iD _ _ Hi d) as Dd.
    assert (Po : forall P p lo, (forall w, pendpc (P w) d = pendpc (pcs s w) d) -> lo = lown s -> lown s <> Some t \/ pendpc p d = pendpc (pcs s t) d ->
      match lo with Some w => pendpc (upd P t p w) d | None => [] end = pend s d).
    { intros P p lo HP -> Hor. unfold pend. destruct (lown s) as [w|]; [|reflexivity]. destruct (Nat.eq_dec w t) as [->|Hn]; [rewrite upd_eq; destruct Hor; congruence|now rewrite upd_ne, HP]. }
    cases E Ep; cbn [haslink] in Bt.
    all: try (assert (Nl : lown s <> Some t) by (intros Q; apply Bt in Q; discriminate Q)).
    all: try (assert (Yl : lown s = Some t) by (apply Bt; reflexivity)).
    all: unfold pend at 1; cbn [lown pcs dat].
    all: try (apply unread_silent; [|solve [repeat constructor]]).
    all: try (rewrite (Po (pcs s) _ _ (fun _ => eq_refl) eq_refl) by (left; assumption); exact Ed).
    all: try (rewrite Yl, upd_eq; cbn [pendpc]; rewrite (pend_other _ _ _ Yl), Ep in Ed; cbn [pendpc] in Ed; exact Ed).
    all: try (match goal with |- context [wake ?k _] => rewrite (Po (wake k (pcs s)) _ _ (fun w => wake_pend k (pcs s) w d) eq_refl) end; [exact Ed|left; exact Nl]).
    - (* a write takes the link: it is now owed to every channel *)
      rewrite upd_eq. cbn [pendpc]. unfold pend in Ed. rewrite Heqo, app_nil_r in Ed.
      unfold unread, written in *. rewrite written_app. cbn. rewrite Dd. apply reads_app. destruct (inb d (cs s)).
      + exists (dat s d ++ [m]). split; [now apply reads_more|reflexivity].
      + rewrite !app_nil_r. exists (dat s d). split; [exact Ed|reflexivity].
    - rewrite (pend_other _ _ _ Yl), Ep in Ed. exact Ed.
    - (* the message reaches one channel *)
      rewrite Yl, upd_eq. rewrite (pend_other _ _ _ Yl), Ep in Ed. cbn [pendpc] in *. cbn [local] in Ft. apply NoDup_cons_iff in Ft. destruct Ft as [Fc _].
      unfold upd. destruct (Nat.eqb_spec d c) as [Hdc|Hdc].
      + subst d. unfold inb in Ed |- *. cbn in Ed. rewrite Nat.eqb_refl in Ed. cbn in Ed.
        destruct (existsb (Nat.eqb c) todo) eqn:Ex; [apply (proj1 (inb_in c todo)) in Ex; contradiction|]. rewrite app_nil_r. exact Ed.
      + unfold inb in Ed |- *. cbn in Ed. destruct (Nat.eqb_spec d c); [contradiction|]. exact Ed.
    - (* a read *)
      rewrite (Po (pcs s) _ _ (fun _ => eq_refl) eq_refl) by (left; assumption).
      eapply unread_commit; [exact Ed|reflexivity|]. cbn. unfold upd. rewrite (Nat.eqb_sym c d). destruct (Nat.eqb_spec d c) as [Hdc|Hdc]; [|reflexivity].
      subst d. eexists. split; [|reflexivity]. match goal with H : dat s c = _ |- _ => rewrite H end. reflexivity.
    - rewrite (Po (pcs s) _ _ (fun _ => eq_refl) eq_refl) by (left; assumption).
      eapply unread_commit; [exact Ed|reflexivity|]. cbn. unfold upd. rewrite (Nat.eqb_sym c d). destruct (Nat.eqb_spec d c) as [Hdc|Hdc]; [|reflexivity].
      subst d. reflexivity.
    - rewrite upd_eq. unfold pend in Ed. rewrite Heqo in Ed. exact Ed.
    - rewrite Yl, upd_eq. rewrite (pend_other _ _ _ Yl), Ep in Ed. eapply unread_commit; [exact Ed|reflexivity|reflexivity].
    - rewrite (pend_other _ _ _ Yl), Ep in Ed. exact Ed.
    - rewrite upd_eq. unfold pend in Ed. rewrite Heqo in Ed. exact Ed.
    - rewrite Yl, upd_eq. rewrite (pend_other _ _ _ Yl), Ep in Ed. eapply unread_commit; [exact Ed|reflexivity|reflexivity].
    - rewrite (pend_other _ _ _ Yl), Ep in Ed. exact Ed.
    - rewrite (Po (pcs s) _ _ (fun _ => eq_refl) eq_refl) by (left; assumption); eapply unread_commit; [exact Ed|reflexivity|reflexivity].
    - rewrite (Po (pcs s) _ _ (fun _ => eq_refl) eq_refl) by (left; assumption); eapply unread_commit; [exact Ed|reflexivity|reflexivity].
    - rewrite (Po (pcs s) _ _ (fun _ => eq_refl) eq_refl) by (left; assumption); eapply unread_commit; [exact Ed|reflexivity|reflexivity].
  Qed.

  Lemma exec_inv t ch s s' e l : Inv s l -> exec t ch s = Some (s', e) -> Inv s' (l ++ e).
  Proof.
    intros Hi E. constructor.
    - eapply exec_A; [apply Hi|exact E].
    - eapply exec_B; [apply Hi|exact E].
    - eapply exec_C; [apply Hi|exact E].
    - eapply exec_D; [apply Hi|exact E].
    - eapply exec_E; eauto.
    - eapply exec_F; eauto.
    - eapply exec_G; eauto.
    - eapply exec_H; eauto.
  Qed.
  Lemma trace_inv : forall sched s s' e l, Inv s l -> trace sched s = Some (s', e) -> Inv s' (l ++ e).
  Proof.
    induction sched as [|[t ch] rest IH]; intros s s' e l Hi E; cbn in E; [injection E as <- <-; now rewrite app_nil_r|].
    destruct (exec t ch s) as [[s1 e1]|] eqn:Ex; [|discriminate]. destruct (trace rest s1) as [[s2 e2]|] eqn:Er; [|discriminate]. injection E as <- <-.
    rewrite app_assoc. eapply IH; [|exact Er]. eapply exec_inv; eauto.
  Qed.

  (** size() and empty() *)
  Lemma to_int_small n : (Z.of_nat n < 2 ^ 31)%Z -> to_int n = Z.of_nat n.
  Proof. intros H. unfold to_int. rewrite Z.mod_small; lia. Qed.
  Lemma inv_arrived s l c : Inv s l -> arrived c l (dat s c).
  Proof.
    intros Hi. pose proof (iE _ _ Hi c) as E. unfold pend in E. destruct (lown s) as [u|]; [|left; now rewrite app_nil_r in E].
    pose proof (iG _ _ Hi u) as G. unfold pendpc in E. destruct (pcs s u); cbn [cstate] in G; try (left; now rewrite app_nil_r in E).
    all: match type of E with context [if ?x then _ else _] => destruct x end; [right; eauto|left; now rewrite app_nil_r in E].
  Qed.
  Lemma exec_answers t ch s s' e l : Inv s l -> exec t ch s = Some (s', e) ->
    e = [] \/ (exists v, e = [v] /\ forall u x, v = Commit u x -> answers arrived l x).
  Proof.
    intros Hi E. cases E Ep; try (left; reflexivity); right; eexists; (split; [reflexivity|]); intros u x Q; try discriminate Q; injection Q as <- <-; try exact I.
    - exists (dat s c). split; [exact (inv_arrived s l c Hi)|apply to_int_small].
    - exists (dat s c). split; [exact (inv_arrived s l c Hi)|]. rewrite Heql0. tauto.
    - exists (dat s c). split; [exact (inv_arrived s l c Hi)|]. rewrite Heql0. split; discriminate.
  Qed.
  Lemma trace_answers : forall sched s s' e l, Inv s l -> trace sched s = Some (s', e) ->
    forall l1 t x l2, e = l1 ++ Commit t x :: l2 -> answers arrived (l ++ l1) x.
  Proof.
    induction sched as [|[t ch] rest IH]; intros s s' e l Hi E l1 u x l2 D; cbn in E; [injection E as <- <-; destruct l1; discriminate D|].
    destruct (exec t ch s) as [[s1 e1]|] eqn:Ex; [|discriminate]. destruct (trace rest s1) as [[s2 e2]|] eqn:Er; [|discriminate]. injection E as <- <-.
    pose proof (exec_inv _ _ _ _ _ _ Hi Ex) as H1. destruct (exec_answers _ _ _ _ _ _ Hi Ex) as [->|(v & -> & Hv)].
    - rewrite app_nil_r in H1. exact (IH _ _ _ _ H1 Er _ _ _ _ D).
    - destruct l1 as [|w l1]; cbn in D; injection D as -> D; [rewrite app_nil_r; eapply Hv; reflexivity|].
      specialize (IH _ _ _ _ H1 Er _ _ _ _ D). rewrite <- app_assoc in IH. exact IH.
  Qed.

  (** The main theorem: the log exists. *)
  Theorem chan_log (sched : list (tid * choice T)) s (h : list event) : run sched = Some (s, h) ->
    exists l : list event, log_of l h /\ (forall c, exists rest, unread c l rest) /\ all_answers arrived l /\
      (stuck s -> forall t, pcs s t = Idle \/ exists c, calls t l (Some (ORead c, None)) /\ unread c l []).
  Proof.
    unfold run. destruct (trace sched init) as [[s0 l]|] eqn:Et; [|discriminate]. intros E. injection E as <- <-.
    pose proof (trace_inv _ _ _ _ [] init_inv Et) as Hi. cbn [app] in Hi. exists l. split; [|split; [|split]].
    - split; [reflexivity|]. intros t. exists (cstate (pcs s0 t)). apply Hi.
    - intros c. eexists. apply Hi.
    - intros l1 t e l2 D. exact (trace_answers _ _ _ _ [] init_inv Et _ _ _ _ D).
    - intros Hst t.
      (* nobody holds a channel *)
      assert (Hown : forall c, own s0 c = None).
      { intros c. destruct (own s0 c) as [u|] eqn:Eo; [|reflexivity]. exfalso. apply Hi in Eo. specialize (Hst u). pose proof (iF _ _ Hi u) as Fu.
        unfold exec in Hst. cbv zeta in Hst. destruct (pcs s0 u) eqn:Eu; try discriminate Eo; try discriminate Hst.
        cbn in Fu. destruct (dat s0 c0); [contradiction|discriminate Hst]. }
      assert (Hlink : lown s0 = None).
      { destruct (lown s0) as [u|] eqn:Eo; [|reflexivity]. exfalso. apply Hi in Eo. specialize (Hst u).
        unfold exec in Hst. cbv zeta in Hst. destruct (pcs s0 u) eqn:Eu; try discriminate Eo; try discriminate Hst.
        - destruct todo; discriminate Hst.
        - rewrite Hown in Hst. discriminate Hst. }
      assert (Hp : forall u, pcs s0 u = Idle \/ exists c, pcs s0 u = RA c).
      { intros u. pose proof (iF _ _ Hi u) as Fu. specialize (Hst u). unfold exec in Hst. cbv zeta in Hst. rewrite Hlink in Hst. destruct (pcs s0 u) eqn:Eu; try rewrite Hown in Hst; try discriminate Hst; eauto.
        - destruct todo; discriminate Hst.
        - cbn in Fu. destruct (dat s0 c); [contradiction|discriminate Hst]. }
      destruct (Hp t) as [Ht|[c Ht]]; [left; exact Ht|right]. exists c. pose proof (iG _ _ Hi t) as Gt. rewrite Ht in Gt. split; [exact Gt|].
      pose proof (iE _ _ Hi c) as Ec. unfold pend in Ec. rewrite Hlink, app_nil_r in Ec.
      destruct (dat s0 c) as [|v q] eqn:Ed; [exact Ec|]. exfalso.
      destruct (iH _ _ Hi t c Ht) as [u Hu]; [rewrite Ed; discriminate|]. destruct (Hp u) as [Q|[d Q]]; rewrite Q in Hu; discriminate Hu.
  Qed.

  (** Two channels that exist see the same messages from then on. *)
  Lemma same_order (l1 l2 : list event) c d : alive_from c (Nat.eqb c 0) l1 = true -> alive_from d (Nat.eqb d 0) l1 = true ->
    (forall t e, In (Commit t e) l2 -> e <> Destroyed c /\ e <> Destroyed d) ->
    exists ms, written c (l1 ++ l2) = written c l1 ++ ms /\ written d (l1 ++ l2) = written d l1 ++ ms.
  Proof.
    intros Hc Hd Hn. unfold written. rewrite !written_app, Hc, Hd.
    assert (G : forall (l : list event) x, (forall t e, In (Commit t e) l -> e <> Destroyed x) -> written_from x true l =
       flat_map (fun v => match v with Commit _ (Wrote m) => [m] | _ => [] end) l).
    { clear. induction l as [|v l IH]; intros x Hx; [reflexivity|]. assert (Hl : forall t e, In (Commit t e) l -> e <> Destroyed x) by (intros t e Hi; eapply Hx; right; exact Hi).
      destruct v as [t o|t e|t e]; cbn; try (apply IH; exact Hl). destruct e; cbn; try (apply IH; exact Hl).
      - f_equal. apply IH, Hl.
      - destruct (Nat.eqb c x); apply IH, Hl.
      - destruct (Nat.eqb_spec c x) as [->|]; [exfalso; eapply Hx; [left; reflexivity|reflexivity]|apply IH, Hl]. }
    rewrite !G by (intros t e Hi; apply (Hn t e Hi)). eexists. split; reflexivity.
  Qed.

  (** ** Why the answers cannot always be exact *)
  Lemma calls_called (l : list event) t x : calls t l x -> forall a e b, l = a ++ Commit t e :: b -> exists o, In (Call t o) a /\ does o e.
  Proof.
    assert (G : forall l y, calls t l y -> forall o, fst_op y = Some o -> In (Call t o) l).
    { clear. intros l y C. induction C; intros o' Q; cbn in Q; try discriminate Q; apply in_or_app; try (left; apply IHC; exact Q); injection Q as <-; right; left; reflexivity. }
    intros C. induction C as [|l x v C IH Hv|l o C IH|l o e0 C IH Hd|l o e0 C IH]; intros a e b D; [destruct a; discriminate D|..].
    all: destruct (rev_cases b) as [->|(b' & w & ->)].
    all: try (apply app_inj_tail in D; destruct D as [D1 D2]).
    all: try (rewrite app_comm_cons, app_assoc in D; apply app_inj_tail in D; destruct D as [D1 D2]; exact (IH _ _ _ D1)).
    - subst. contradiction.
    - discriminate D2.
    - injection D2 as <-. subst. exists o. split; [|exact Hd]. eapply G; [exact C|reflexivity].
    - discriminate D2.
  Qed.
  Definition snd_eff (y : option (op T * option (effect T))) : option (effect T) := match y with Some (_, e) => e | None => None end.
  Lemma calls_committed (l : list event) t x : calls t l x -> forall a e b, l = a ++ Ret t e :: b -> In (Commit t e) a.
  Proof.
    assert (G : forall l y, calls t l y -> forall e, snd_eff y = Some e -> In (Commit t e) l).
    { clear. intros l y C. induction C; intros e' Q; cbn in Q; try discriminate Q; apply in_or_app; try (left; apply IHC; exact Q); injection Q as <-; right; left; reflexivity. }
    intros C. induction C as [|l x v C IH Hv|l o C IH|l o e0 C IH Hd|l o e0 C IH]; intros a e b D; [destruct a; discriminate D|..].
    all: destruct (rev_cases b) as [->|(b' & w & ->)].
    all: try (apply app_inj_tail in D; destruct D as [D1 D2]).
    all: try (rewrite app_comm_cons, app_assoc in D; apply app_inj_tail in D; destruct D as [D1 D2]; exact (IH _ _ _ D1)).
    - subst. contradiction.
    - discriminate D2.
    - discriminate D2.
    - injection D2 as <-. subst. eapply G; [exact C|reflexivity].
  Qed.
  (** A log without readers and without destruction *)
  Definition plain (l : list event) : Prop := forall t e, In (Commit t e) l -> match e with Took _ _ | Ungot _ _ | Destroyed _ => False | _ => True end.
  Lemma plain_reads c : forall (l : list event) q r, plain l -> reads c l q r -> r = q.
  Proof.
    induction l as [|e l IH]; intros q r P H; [exact H|]. assert (P' : plain l) by (intros t x Hx; apply (P t x); right; exact Hx).
    destruct e as [t o|t e|t e]; cbn in H; try (now apply IH). pose proof (P t e (or_introl eq_refl)) as Pe. destruct e; cbn in H, Pe; try contradiction; now apply IH.
  Qed.
  Lemma plain_written0 : forall (l : list event) c a, plain l -> length (written_from c a l) <= length (written_from 0 true l).
  Proof.
    induction l as [|e l IH]; intros c a P; [apply Nat.le_refl|]. assert (P' : plain l) by (intros t x Hx; apply (P t x); right; exact Hx).
    destruct e as [t o|t e|t e]; cbn; try (now apply IH). pose proof (P t e (or_introl eq_refl)) as Pe. destruct e; cbn in *; try contradiction; try (now apply IH).
    - destruct a; cbn; [apply le_n_S; now apply IH|apply Nat.le_le_succ_r; now apply IH].
    - destruct (Nat.eqb c0 0); now apply IH.
  Qed.
  Lemma plain_more (l l' : list event) : plain (l ++ l') -> length (written_from 0 true l) <= length (written_from 0 true (l ++ l')).
  Proof. intros P. rewrite written_app, app_length. lia. Qed.
  (** In such a log channel 0 is not empty after another channel was not. *)
  Lemma plain_tests (l1 l2 l3 : list event) t u c : plain (l1 ++ Commit t (Tested c false) :: l2 ++ Commit u (Tested 0 true) :: l3) ->
    all_answers unread (l1 ++ Commit t (Tested c false) :: l2 ++ Commit u (Tested 0 true) :: l3) -> False.
  Proof.
    intros P A. destruct (A l1 t _ _ eq_refl) as (q & Hq & Eq). destruct (A (l1 ++ Commit t (Tested c false) :: l2) u (Tested 0 true) l3) as (r & Hr & Er); [rewrite <- app_assoc; reflexivity|].
    assert (P1 : plain l1) by (intros v x Hx; apply (P v x), in_or_app; left; exact Hx).
    assert (P2 : plain (l1 ++ Commit t (Tested c false) :: l2)). { intros v x Hx. apply (P v x). rewrite app_comm_cons, app_assoc. apply in_or_app. left. exact Hx. }
    unfold unread in *. apply plain_reads in Hq; [|exact P1]. apply plain_reads in Hr; [|exact P2]. subst q r.
    pose proof (plain_written0 l1 c (Nat.eqb c 0) P1) as L1. pose proof (plain_more l1 (Commit t (Tested c false) :: l2) P2) as L2.
    destruct Er as [Er _]. specialize (Er eq_refl). unfold written in Er. cbn [Nat.eqb] in Er. rewrite Er in L2. cbn [length] in L2.
    unfold written in Eq. destruct (written_from c (Nat.eqb c 0) l1); [|cbn in L1; lia]. destruct Eq as [_ Eq]. discriminate (Eq eq_refl).
  Qed.
  (** A history with an ended test of another channel, then one of channel 0, cannot be explained exactly. *)
  Lemma tests_refuted (h1 h2 h3 : list event) t c :
    let h := h1 ++ Ret t (Tested c false) :: h2 ++ Ret t (Tested 0 true) :: h3 in
    (forall o, In (Call t o) (h1 ++ [Ret t (Tested c false)]) -> ~ does o (Tested 0 true)) ->
    (forall u o, In (Call u o) h -> match o with ORead _ | OUnget _ _ | ODestroy _ => False | _ => True end) ->
    forall l, log_of l h -> all_answers unread l -> False.
  Proof.
    intros h N0 NP l [Hl Hc] A. destruct (Hc t) as [x Ct].
    assert (P : plain l).
    { intros u e Hi. destruct (in_split _ _ Hi) as (a & b & E). destruct (Hc u) as [y Cu]. destruct (calls_called l u y Cu a e b E) as (o & Io & D).
      assert (In (Call u o) h) as Ih. { rewrite <- Hl. apply filter_In. split; [|reflexivity]. rewrite E. apply in_or_app. left. exact Io. }
      specialize (NP u o Ih). destruct o, e; cbn in *; auto. }
    (* where the first test returns *)
    assert (S1 : forall (k h1 : list event) v h2, filter visible k = h1 ++ v :: h2 -> exists k1 k2, k = k1 ++ v :: k2 /\ filter visible k1 = h1 /\ filter visible k2 = h2).
    { clear. induction k as [|w k IH]; intros h1 v h2 E; [destruct h1; discriminate E|]. cbn in E. destruct (visible w) eqn:V.
      - destruct h1 as [|z h1]; cbn in E; injection E as -> E; [exists [], k; auto|]. destruct (IH _ _ _ E) as (k1 & k2 & -> & F1 & F2). exists (z :: k1), k2. cbn. rewrite V, F1. auto.
      - destruct (IH _ _ _ E) as (k1 & k2 & -> & F1 & F2). exists (w :: k1), k2. cbn. rewrite V. auto. }
    destruct (S1 l h1 _ _ Hl) as (l1 & l2 & El & F1 & F2). destruct (S1 l2 h2 _ _ F2) as (l3 & l4 & El2 & F3 & F4).
    pose proof (calls_committed l t x Ct l1 _ _ El) as I1. destruct (in_split _ _ I1) as (a1 & a2 & Ea).
    assert (I2 : In (Commit t (Tested 0 true)) (l1 ++ Ret t (Tested c false) :: l3)). { apply (calls_committed l t x Ct _ _ l4). rewrite El, El2, <- app_assoc. reflexivity. }
    assert (I3 : In (Commit t (Tested 0 true)) l3).
    { apply in_app_or in I2. destruct I2 as [I2|[I2|I2]]; [exfalso|discriminate I2|exact I2]. destruct (in_split _ _ I2) as (b1 & b2 & Eb).
      destruct (calls_called l t x Ct b1 (Tested 0 true) (b2 ++ Ret t (Tested c false) :: l2)) as (o & Io & D). { rewrite El, Eb, <- app_assoc. reflexivity. }
      apply (N0 o); [|exact D]. apply in_or_app. left. rewrite <- F1. apply filter_In. split; [|reflexivity]. rewrite Eb. apply in_or_app. left. exact Io. }
    destruct (in_split _ _ I3) as (b1 & b2 & Eb).
    assert (E : l = a1 ++ Commit t (Tested c false) :: (a2 ++ Ret t (Tested c false) :: b1) ++ Commit t (Tested 0 true) :: (b2 ++ Ret t (Tested 0 true) :: l4)).
    { rewrite El, Ea, El2, Eb. repeat (rewrite <- ?app_assoc; cbn [app]). reflexivity. }
    rewrite E in P, A. exact (plain_tests _ _ _ _ _ _ P A).
  Qed.
End P.
