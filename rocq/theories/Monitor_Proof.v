From Verif Require Import Common CommonLemmas Monitor_Model Monitor_Spec.

Section Proof.
  Context {St Guard Act Op R : Type}.
  Context (geval : Guard -> St -> bool) (aeval : Act -> St -> R -> St * R).
  Context (recursive : bool) (body : Op -> code Guard Act) (r0 : R).
  Context (seq : St -> Op -> R -> St -> Prop).
  Notation code := (code Guard Act).
  Notation status := (status Guard Act Op R).
  Notation mstate := (mstate St Guard Act Op R).
  Notation exec := (exec geval aeval recursive body r0).
  Notation run := (run geval aeval recursive body r0).
  Notation levent := (levent Op R).

  (** The locking discipline: [d] is the recursion count, [l] whether the operation has
      already released the mutex for good. *)
  Fixpoint shape (d : nat) (l : bool) (c : code) : bool :=
    match c with
    | CLock k => negb l && (Nat.eqb d 0 || recursive) && shape (S d) l k
    | CUnlock k => match d with O => false | S O => shape 0 true k | S d' => shape d' l k end
    | CWaitWhile _ k => negb l && negb (Nat.eqb d 0) && shape d l k
    | CWaitTimed _ k kf => negb l && negb (Nat.eqb d 0) && shape d l k && shape d l kf
    | CIf _ k1 k2 => negb l && negb (Nat.eqb d 0) && shape d l k1 && shape d l k2
    | CAct _ k => negb l && negb (Nat.eqb d 0) && shape d l k
    | CNotifyAll k => shape d l k
    | CNotifyOne k => shape d l k
    | CRet => l && Nat.eqb d 0
    end.

  (** What must hold of the data for the rest of the operation to be right, when the data was
      [a] as the mutex was last taken. *)
  Fixpoint wp (o : Op) (a : St) (d : nat) (c : code) (s : St) (r : R) : Prop :=
    match c with
    | CLock k => wp o a (S d) k s r
    | CUnlock k => match d with O => False | S O => seq a o r s | S d' => wp o a d' k s r end
    | CWaitWhile g k => (geval g s = false -> wp o a d k s r) /\
        (geval g s = true -> s = a /\ forall b, geval g b = false -> wp o b d k b r)
    | CWaitTimed g k kf => (geval g s = false -> wp o a d k s r) /\
        (geval g s = true -> s = a /\ (forall b, geval g b = false -> wp o b d k b r) /\ (forall b, wp o b d kf b r))
    | CIf g k1 k2 => if geval g s then wp o a d k1 s r else wp o a d k2 s r
    | CAct x k => wp o a d k (fst (aeval x s r)) (snd (aeval x s r))
    | CNotifyAll k => wp o a d k s r
    | CNotifyOne k => wp o a d k s r
    | CRet => False
    end.

  (** What the programs must satisfy. *)
  Definition body_ok : Prop := forall o, shape 0 false (body o) = true /\ forall a, wp o a 0 (body o) a r0.

  Inductive subcode : code -> code -> Prop :=
  | sub_refl : forall c, subcode c c
  | sub_lock : forall c k, subcode c k -> subcode c (CLock k)
  | sub_unlock : forall c k, subcode c k -> subcode c (CUnlock k)
  | sub_wait : forall c g k, subcode c k -> subcode c (CWaitWhile g k)
  | sub_timed1 : forall c g k kf, subcode c k -> subcode c (CWaitTimed g k kf)
  | sub_timed2 : forall c g k kf, subcode c kf -> subcode c (CWaitTimed g k kf)
  | sub_if1 : forall c g k1 k2, subcode c k1 -> subcode c (CIf g k1 k2)
  | sub_if2 : forall c g k1 k2, subcode c k2 -> subcode c (CIf g k1 k2)
  | sub_act : forall c a k, subcode c k -> subcode c (CAct a k)
  | sub_all : forall c k, subcode c k -> subcode c (CNotifyAll k)
  | sub_one : forall c k, subcode c k -> subcode c (CNotifyOne k).
  Lemma sub_trans a b c : subcode a b -> subcode b c -> subcode a c.
  Proof. intros H1 H2. induction H2; first [assumption|apply sub_timed2; solve [auto]|apply sub_if2; solve [auto]|constructor; solve [auto]]. Qed.
  Fixpoint waits_on (g : Guard) (c : code) : Prop :=
    match c with
    | CLock k | CUnlock k | CAct _ k | CNotifyAll k | CNotifyOne k => waits_on g k
    | CWaitWhile g' k => g' = g \/ waits_on g k
    | CWaitTimed g' k kf => g' = g \/ waits_on g k \/ waits_on g kf
    | CIf _ k1 k2 => waits_on g k1 \/ waits_on g k2
    | CRet => False
    end.
  Lemma sub_waits c c' : subcode c c' -> forall g, waits_on g c -> waits_on g c'.
  Proof. induction 1; intros g' Hg; cbn [waits_on]; auto. Qed.

  (** Instrumented events of a step. *)
  Definition ghost (t : nat) (ch : choice Op) (st : mstate) : list levent :=
    match thr st t, ch with
    | Idle, Invoke o => [LInv t o]
    | Run o (CUnlock k) r, Go => match own st with Some (_, S O) => [LLin t o r] | _ => [] end
    | Run o CRet r, Go => [LRet t o r]
    | _, _ => []
    end.

  Lemma upd_same {A} (f : nat -> A) t x : (fun u => if Nat.eqb u t then x else f u) t = x.
  Proof. cbn. now rewrite Nat.eqb_refl. Qed.
  Lemma upd_eq (f : nat -> status) t x : upd f t x t = x.
  Proof. unfold upd. now rewrite Nat.eqb_refl. Qed.
  Lemma upd_ne (f : nat -> status) t x u : u <> t -> upd f t x u = f u.
  Proof. unfold upd. intros. destruct (Nat.eqb_spec u t); [contradiction|reflexivity]. Qed.

  (** The invariant of a thread: [depth st t] is its recursion count; [p] its own view. *)
  Definition depth (st : mstate) (t : nat) : nat := match holds st t with Some d => d | None => 0 end.
  Definition is_wait (c : code) : Prop := match c with CWaitWhile _ _ => True | CWaitTimed _ _ _ => True | _ => False end.

  Inductive view (t : nat) : option (Op * option R) -> list levent -> Prop :=
  | v_idle : view t None []
  | v_inv : forall o, view t (Some (o, None)) [LInv t o]
  | v_lin : forall o r, view t (Some (o, Some r)) [LInv t o; LLin t o r]
  | v_ret : forall x o r h, view t x h -> view t x (LInv t o :: LLin t o r :: LRet t o r :: h).

  Lemma view_ok t x h : view t x h -> thread_ok t h.
  Proof. induction 1; constructor; assumption. Qed.
  Lemma view_inv t h o : view t None h -> view t (Some (o, None)) (h ++ [LInv t o]).
  Proof. remember None as x. induction 1; cbn; try discriminate; constructor; auto. Qed.
  Lemma view_lin t h o r : view t (Some (o, None)) h -> view t (Some (o, Some r)) (h ++ [LLin t o r]).
  Proof. remember (Some (o, None)) as x. induction 1; cbn; inversion Heqx; subst; constructor; auto. Qed.
  Lemma view_ret t h o r : view t (Some (o, Some r)) h -> view t None (h ++ [LRet t o r]).
  Proof. remember (Some (o, Some r)) as x. induction 1; cbn; inversion Heqx; subst; repeat constructor; auto. Qed.

  (** What is known of a thread that sleeps at [c]. *)
  Definition asleep_ok (o : Op) (d : nat) (c : code) (r : R) : Prop :=
    match c with
    | CWaitWhile g k => forall b, geval g b = false -> wp o b d k b r
    | CWaitTimed g k kf => (forall b, geval g b = false -> wp o b d k b r) /\ forall b, wp o b d kf b r
    | _ => False
    end.
  Lemma asleep_wp o d c r : asleep_ok o d c r -> forall b, wp o b d c b r.
  Proof. destruct c; cbn; try contradiction; intros H b; [|destruct H as [H H']]; auto 6. Qed.
  Definition tinv (a : St) (st : mstate) (t : nat) (p : list levent) : Prop :=
    match thr st t with
    | Idle => depth st t = 0 /\ view t None p
    | Run o c r => exists l, shape (depth st t) l c = true /\ view t (Some (o, if l then Some r else None)) p /\
        (l = true -> depth st t = 0) /\
        (l = false -> depth st t = 0 -> forall b, wp o b 0 c b r) /\
        (depth st t <> 0 -> wp o a (depth st t) c (sh st) r)
    | Asleep o c r d => depth st t = 0 /\ d <> 0 /\ is_wait c /\ shape d false c = true /\ view t (Some (o, None)) p /\
        asleep_ok o d c r
    | Waking o c r d => depth st t = 0 /\ d <> 0 /\ shape d false c = true /\ view t (Some (o, None)) p /\
        forall b, wp o b d c b r
    end.
  Definition Inv (a : St) (st : mstate) (evs : list levent) : Prop :=
    (own st = None -> sh st = a) /\
    (forall t d, own st = Some (t, d) -> d <> 0 /\ exists o c r, thr st t = Run o c r) /\
    forall t, tinv a st t (of_thread t evs).

  Lemma of_thread_app t (h h' : list levent) : of_thread t (h ++ h') = of_thread t h ++ of_thread t h'.
  Proof. apply filter_app. Qed.
  Lemma of_thread_self t (e : levent) : tid_of e = t -> of_thread t [e] = [e].
  Proof. intros H. cbn. rewrite H, Nat.eqb_refl. reflexivity. Qed.
  Lemma of_thread_other t (e : levent) : tid_of e <> t -> of_thread t [e] = [].
  Proof. intros H. cbn. destruct (Nat.eqb_spec (tid_of e) t); [contradiction|reflexivity]. Qed.

  Lemma depth_own st t d : own st = Some (t, d) -> depth st t = d.
  Proof. intros E. unfold depth, holds. rewrite E, Nat.eqb_refl. reflexivity. Qed.
  Lemma depth_none st t : own st = None -> depth st t = 0.
  Proof. intros E. unfold depth, holds. now rewrite E. Qed.
  Lemma depth_other st t u d : own st = Some (u, d) -> u <> t -> depth st t = 0.
  Proof. intros E H. unfold depth, holds. rewrite E. destruct (Nat.eqb_spec u t); [contradiction|reflexivity]. Qed.

  (** A step of thread [t] leaves another thread's invariant alone, if its status, up to
      waking, and its depth (0) do not change. *)
  Lemma tinv_other a b st st' u p : tinv a st u p -> depth st u = 0 -> depth st' u = 0 ->
    (thr st' u = thr st u \/ thr st' u = wake (thr st u)) -> tinv b st' u p.
  Proof.
    unfold tinv. intros H D D' E. rewrite D in H. rewrite D'.
    destruct (thr st u) as [|o c r|o c r d|o c r d]; cbn [wake] in E.
    - destruct E as [-> | ->]; intuition.
    - destruct E as [-> | ->]; destruct H as (l & H1 & H2 & H3 & H4 & H5); exists l; intuition.
    - destruct H as (H1 & H2 & H3 & H4 & H5 & H6). destruct E as [-> | ->]; repeat split; auto. now apply asleep_wp.
    - destruct E as [-> | ->]; intuition.
  Qed.

  Ltac side t := try solve [ auto | discriminate | intros ? []; fail | intros ? [<-|[]]; reflexivity
    | intros ? ?; rewrite upd_ne by assumption; auto
    | intros u ?; rewrite upd_ne by assumption; unfold upd; match goal with |- context [Nat.eqb u ?w] => destruct (Nat.eqb_spec u w) as [->|] end; auto
    | right; left; eauto | right; right; eexists; split; [reflexivity|eauto]
    | intros ? E'; inversion E'; subst; rewrite upd_eq; split; [assumption|eauto]
    | intros ? E'; inversion E'; subst; rewrite upd_eq; split; [lia|eauto]
    | intros ? E'; rewrite upd_eq; eauto
    | intros ? E'; rewrite upd_eq; split; [match goal with Me : forall d, own _ = Some (t, d) -> _ |- _ => apply (Me _ E') end|eauto]
    | intros ? E'; exfalso; eauto
    | intros; congruence
    | intros ? E'; exfalso; match goal with Me : forall d, own _ = Some (t, d) -> _ |- _ => destruct (Me _ E') as [D Dn]; apply Dn; rewrite <- D; auto end ].
  Lemma exec_inv t ch st st' evs e a : body_ok ->
    Inv a st evs -> exec t ch st = Some (st', e) ->
    flat_map visible (ghost t ch st) = e /\
    exists b, Inv b st' (evs ++ ghost t ch st) /\ legal seq a (ghost t ch st) b.
  Proof.
    intros Bok (Ia & Io & It) E. pose proof (It t) as Ht. unfold tinv in Ht.
    (* other threads *)
    assert (Oth : forall b st1 g, (own st1 = own st \/ (own st1 = None /\ exists d, own st = Some (t, d)) \/ (exists d, own st1 = Some (t, d) /\ (own st = None \/ exists d', own st = Some (t, d')))) ->
       (own st1 = None -> sh st1 = b) -> (depth st t = 0 -> own st <> None -> a = b /\ sh st1 = sh st) ->
       (forall u, u <> t -> thr st1 u = thr st u \/ thr st1 u = wake (thr st u)) ->
       (forall d, own st1 = Some (t, d) -> d <> 0 /\ exists o c r, thr st1 t = Run o c r) ->
       tinv b st1 t (of_thread t (evs ++ g)) -> (forall x, In x g -> tid_of x = t) -> Inv b st1 (evs ++ g)).
    { intros b st1 g Hown Hb Hab Hthr Hme Hti Hg. split; [exact Hb|]. split.
      - intros u d Eo. destruct (Nat.eq_dec u t) as [->|Hne]; [now apply Hme|].
        assert (own st = Some (u, d)) as E1.
        { destruct Hown as [H|[[H _]|(d' & H & _)]]; congruence. }
        destruct (Io u d E1) as (Hd & o & c & r & Er). split; [exact Hd|]. exists o, c, r.
        destruct (Hthr u Hne) as [-> | ->]; rewrite Er; reflexivity.
      - intros u. destruct (Nat.eq_dec u t) as [->|Hne]; [exact Hti|].
        rewrite of_thread_app. replace (of_thread u g) with (@nil levent).
        2: { clear -Hg Hne. induction g as [|x g IH]; [reflexivity|]. unfold of_thread in *. cbn [filter].
             rewrite (Hg x (or_introl eq_refl)). destruct (Nat.eqb_spec t u); [congruence|]. apply IH. intros y Hy. apply Hg. now right. }
        rewrite app_nil_r.
        destruct (own st) as [[v d]|] eqn:Eo.
        + destruct (Nat.eq_dec v u) as [->|Hvu].
          * (* u owns the mutex *)
            assert (E1 : own st1 = Some (u, d)).
            { destruct Hown as [H|[[H (d' & H')]|(d' & H & [H'|(d2 & H')])]]; congruence. }
            destruct (Io u d eq_refl) as (Hd & o & c & r & Er).
            assert (Dt : depth st t = 0) by (eapply depth_other; [exact Eo|congruence]).
            destruct (Hab Dt ltac:(congruence)) as [<- Hsh].
            pose proof (It u) as Hu. unfold tinv in *.
            assert (E2 : thr st1 u = thr st u) by (destruct (Hthr u Hne) as [H|H]; rewrite H, Er; reflexivity).
            rewrite E2, Er in *. rewrite (depth_own _ _ _ E1), Hsh. rewrite (depth_own _ _ _ Eo) in Hu. exact Hu.
          * eapply tinv_other; [apply It|eapply depth_other; [exact Eo|assumption]| |apply Hthr; assumption].
            destruct Hown as [H|[[H _]|(d' & H & _)]].
            -- eapply depth_other; [exact H|assumption].
            -- now apply depth_none.
            -- eapply depth_other; [exact H|congruence].
        + eapply tinv_other; [apply It|now apply depth_none| |apply Hthr; assumption].
          destruct Hown as [H|[[H _]|(d' & H & _)]]; [now apply depth_none|now apply depth_none|].
          eapply depth_other; [exact H|congruence]. }
    assert (Me : forall d, own st = Some (t, d) -> depth st t = d /\ d <> 0) by (intros d Eo; split; [now apply depth_own|apply (Io t d Eo)]).
    assert (Hold : forall d, holds st t = Some d -> own st = Some (t, d)).
    { unfold holds. intros d. destruct (own st) as [[u d']|]; [|discriminate]. destruct (Nat.eqb_spec u t); congruence. }
    unfold Monitor_Model.exec in E. unfold ghost.
    assert (Same : forall st1 evs', own st1 = own st -> sh st1 = sh st -> (forall u, u <> t -> thr st1 u = thr st u \/ thr st1 u = wake (thr st u)) ->
       (forall d, own st = Some (t, d) -> exists o c r, thr st1 t = Run o c r) ->
       tinv a st1 t (of_thread t (evs ++ evs')) -> (forall x, In x evs' -> tid_of x = t) -> Inv a st1 (evs ++ evs')).
    { intros st1 evs' E1 E2 E3 E4 E5 E6. apply Oth; auto.
      - rewrite E1, E2. exact Ia.
      - intros d Eo. rewrite E1 in Eo. split; [apply (Me d Eo)|eauto]. }
    assert (Dsame : forall s f, depth (mkM s (own st) f) t = depth st t) by reflexivity.
    destruct (thr st t) as [|o c r|o c r d|o c r d] eqn:Et.
    - (* Idle *)
      destruct ch as [o0| | | |]; try discriminate. injection E as <- <-. cbn [flat_map visible app]. split; [reflexivity|].
      exists a. split; [|repeat constructor].
      destruct Ht as [D V]. apply Same; cbn [own sh thr]; side t.
      unfold tinv. cbn [thr]. rewrite upd_eq, Dsame, ?D. exists false. rewrite of_thread_app, of_thread_self by reflexivity.
      destruct (Bok o0) as [B1 B2]. split; [exact B1|]. split; [now apply view_inv|]. repeat split; intros; try congruence; auto.
    - (* Run *)
      destruct Ht as (l & Hs & Hv & Hl & Hw0 & Hw).
      destruct c as [k|k|g k|g k kf|g k1 k2|x k|k|k|].
      + (* CLock *)
        destruct ch; try discriminate. cbn [shape] in Hs. apply andb_prop in Hs as [Hs1 Hs]. apply andb_prop in Hs1 as [Hs0 Hs1].
        destruct l; [discriminate|]. clear Hs0.
        destruct (own st) as [[u d]|] eqn:Eo.
        * destruct (recursive && Nat.eqb u t) eqn:Er; [|discriminate]. apply andb_prop in Er as [Er Eu]. apply Nat.eqb_eq in Eu. subst u.
          injection E as <- <-. cbn [flat_map]. split; [reflexivity|]. exists a. split; [|constructor].
          destruct (Me d eq_refl) as [D Dn]. apply Oth; cbn [own sh thr]; side t.
          rewrite app_nil_r. unfold tinv. cbn [thr]. rewrite upd_eq. rewrite (depth_own _ t (S d)) by reflexivity. cbn [sh].
          rewrite D in *. exists false. repeat split; auto; try congruence.
        * injection E as <- <-. cbn [flat_map]. split; [reflexivity|]. exists a. split; [|constructor].
          assert (D : depth st t = 0) by (apply depth_none; exact Eo). apply Oth; cbn [own sh thr]; side t.
          rewrite app_nil_r. unfold tinv. cbn [thr]. rewrite upd_eq. rewrite (depth_own _ t 1) by reflexivity. cbn [sh].
          rewrite D in *. exists false. repeat split; auto; try congruence. intros _. rewrite (Ia eq_refl). apply (Hw0 eq_refl eq_refl a).
      + (* CUnlock *)
        destruct ch; try discriminate. destruct (holds st t) as [d|] eqn:Eh; [|discriminate]. clear Eh; pose proof (Hold d eq_refl) as Eh.
        destruct (Me d Eh) as [D Dn]. destruct l; [exfalso; apply Dn; rewrite <- D; auto|]. rewrite D in *. specialize (Hw Dn). rewrite Eh.
        destruct d as [|[|d]]; [discriminate| |].
        * injection E as <- <-. cbn [flat_map visible]. split; [reflexivity|].
          cbn [wp] in Hw. exists (sh st). split; [|econstructor; [exact Hw|constructor]].
          apply Oth; cbn [own sh thr]; side t.
          unfold tinv. cbn [thr]. rewrite upd_eq. rewrite (depth_none _ t) by reflexivity. cbn [shape] in Hs.
          exists true. rewrite of_thread_app, of_thread_self by reflexivity. split; [exact Hs|]. split; [now apply view_lin|].
          repeat split; intros; congruence.
        * injection E as <- <-. cbn [flat_map visible]. split; [reflexivity|]. exists a. split; [|constructor].
          apply Oth; cbn [own sh thr]; side t.
          rewrite app_nil_r. unfold tinv. cbn [thr]. rewrite upd_eq. rewrite (depth_own _ t (S d)) by reflexivity. cbn [sh].
          cbn [shape] in Hs. exists false. repeat split; auto; try congruence.
      + (* CWaitWhile *)
        destruct ch; try discriminate. destruct (holds st t) as [d|] eqn:Eh; [|discriminate]. clear Eh; pose proof (Hold d eq_refl) as Eh.
        destruct (Me d Eh) as [D Dn]. destruct l; [exfalso; apply Dn; rewrite <- D; auto|]. rewrite D in *. specialize (Hw Dn).
        assert (Hs' := Hs). cbn [shape] in Hs'. apply andb_prop in Hs' as [_ Hs'].
        destruct (geval g (sh st)) eqn:Eg.
        * injection E as <- <-. cbn [flat_map]. split; [reflexivity|]. exists a. split; [|constructor].
          assert (Hsa : sh st = a) by (apply Hw; exact Eg).
          apply Oth; cbn [own sh thr]; side t.
          rewrite app_nil_r. unfold tinv. cbn [thr]. rewrite upd_eq. rewrite (depth_none _ t) by reflexivity.
          split; [reflexivity|]. split; [exact Dn|]. split; [exact I|]. split; [exact Hs|]. split; [exact Hv|].
          exact (proj2 (proj2 Hw Eg)).
        * injection E as <- <-. cbn [flat_map]. split; [reflexivity|]. exists a. split; [|constructor].
          apply Same; cbn [own sh thr]; side t.
          rewrite app_nil_r. unfold tinv. cbn [thr]. rewrite upd_eq, Dsame, ?D. cbn [sh]. exists false. repeat split; auto; try congruence.
          intros _. apply Hw. exact Eg.
      + (* CWaitTimed *)
        destruct ch; try discriminate.
        * destruct (holds st t) as [d|] eqn:Eh; [|discriminate]. clear Eh; pose proof (Hold d eq_refl) as Eh.
          destruct (Me d Eh) as [D Dn]. destruct l; [exfalso; apply Dn; rewrite <- D; auto|]. rewrite D in *. specialize (Hw Dn).
          assert (Hs' := Hs). cbn [shape] in Hs'. apply andb_prop in Hs' as [Hs' Hs2]. apply andb_prop in Hs' as [_ Hs'].
          destruct (geval g (sh st)) eqn:Eg.
          -- injection E as <- <-. cbn [flat_map]. split; [reflexivity|]. exists a. split; [|constructor].
             assert (Hsa : sh st = a) by (apply Hw; exact Eg).
             apply Oth; cbn [own sh thr]; side t.
             rewrite app_nil_r. unfold tinv. cbn [thr]. rewrite upd_eq. rewrite (depth_none _ t) by reflexivity.
             split; [reflexivity|]. split; [exact Dn|]. split; [exact I|]. split; [exact Hs|]. split; [exact Hv|].
             exact (proj2 (proj2 Hw Eg)).
          -- injection E as <- <-. cbn [flat_map]. split; [reflexivity|]. exists a. split; [|constructor].
             apply Same; cbn [own sh thr]; side t.
             rewrite app_nil_r. unfold tinv. cbn [thr]. rewrite upd_eq, Dsame, ?D. cbn [sh]. exists false. repeat split; auto; try congruence.
             intros _. apply Hw. exact Eg.
        * destruct (holds st t) as [d|] eqn:Eh; [|discriminate]. clear Eh; pose proof (Hold d eq_refl) as Eh.
          destruct (Me d Eh) as [D Dn]. destruct l; [exfalso; apply Dn; rewrite <- D; auto|]. rewrite D in *. specialize (Hw Dn).
          cbn [shape] in Hs. apply andb_prop in Hs as [_ Hs]. destruct (geval g (sh st)) eqn:Eg; [|discriminate].
          injection E as <- <-. cbn [flat_map]. split; [reflexivity|]. exists a. split; [|constructor].
          assert (Hsa : sh st = a) by (apply Hw; exact Eg).
          apply Same; cbn [own sh thr]; side t.
          rewrite app_nil_r. unfold tinv. cbn [thr]. rewrite upd_eq, Dsame, ?D. cbn [sh]. exists false. repeat split; auto; try congruence.
          intros _. rewrite Hsa. apply Hw. exact Eg.
      + (* CIf *)
        destruct ch; try discriminate. destruct (holds st t) as [d|] eqn:Eh; [|discriminate]. clear Eh; pose proof (Hold d eq_refl) as Eh.
        destruct (Me d Eh) as [D Dn]. destruct l; [exfalso; apply Dn; rewrite <- D; auto|]. rewrite D in *. specialize (Hw Dn).
        cbn [shape] in Hs. apply andb_prop in Hs as [Hs Hs2]. apply andb_prop in Hs as [_ Hs1].
        injection E as <- <-. cbn [flat_map]. split; [reflexivity|]. exists a. split; [|constructor].
        apply Same; cbn [own sh thr]; side t.
        rewrite app_nil_r. unfold tinv. cbn [thr]. rewrite upd_eq, Dsame, ?D. cbn [sh]. exists false. cbn [wp] in Hw.
        destruct (geval g (sh st)); repeat split; auto; try congruence.
      + (* CAct *)
        destruct ch; try discriminate. destruct (holds st t) as [d|] eqn:Eh; [|discriminate]. clear Eh; pose proof (Hold d eq_refl) as Eh.
        destruct (Me d Eh) as [D Dn]. destruct l; [exfalso; apply Dn; rewrite <- D; auto|]. rewrite D in *. specialize (Hw Dn).
        cbn [shape] in Hs. apply andb_prop in Hs as [_ Hs]. cbn [wp] in Hw. destruct (aeval x (sh st) r) as [s1 r1]. cbn [fst snd] in Hw.
        injection E as <- <-. cbn [flat_map]. split; [reflexivity|]. exists a. split; [|constructor].
        apply Oth; cbn [own sh thr]; side t.
        rewrite app_nil_r. unfold tinv. cbn [thr]. rewrite upd_eq, Dsame, ?D. cbn [sh]. exists false. repeat split; auto; try congruence.
      + (* CNotifyAll *)
        destruct ch; try discriminate. injection E as <- <-. cbn [flat_map]. split; [reflexivity|]. exists a. split; [|constructor].
        apply Same; cbn [own sh thr]; side t.
        rewrite app_nil_r. unfold tinv. cbn [thr]. rewrite upd_eq, Dsame. cbn [sh]. exists l. repeat split; auto.
      + (* CNotifyOne *)
        destruct ch as [|  |w| |]; try discriminate.
        * injection E as <- <-. cbn [flat_map]. split; [reflexivity|]. exists a. split; [|constructor].
          apply Same; cbn [own sh thr]; side t.
          rewrite app_nil_r. unfold tinv. cbn [thr]. rewrite upd_eq, Dsame. cbn [sh]. exists l. repeat split; auto.
        * destruct (Nat.eqb_spec w t) as [|Hwt]; [discriminate|].
          injection E as <- <-. cbn [flat_map]. split; [reflexivity|]. exists a. split; [|constructor].
          apply Same; cbn [own sh thr]; side t.
          rewrite app_nil_r. unfold tinv. cbn [thr]. rewrite upd_eq, Dsame. cbn [sh]. exists l. repeat split; auto.
      + (* CRet *)
        destruct ch; try discriminate. injection E as <- <-. cbn [flat_map visible app]. split; [reflexivity|]. exists a. split; [|repeat constructor].
        cbn [shape] in Hs. apply andb_prop in Hs as [-> Hs].
        apply Same; cbn [own sh thr]; side t.
        unfold tinv. cbn [thr]. rewrite upd_eq, Dsame. rewrite of_thread_app, of_thread_self by reflexivity. split; [auto|now apply view_ret].
    - (* Asleep *)
      destruct Ht as (D & Dn & Hw & Hs & Hv & Hwp).
      assert (Nme : forall d', own st = Some (t, d') -> False) by (intros d' E'; destruct (Me _ E'); congruence).
      destruct ch; try (destruct c; discriminate).
      + destruct c as [| | |g k kf| | | | |]; try discriminate. injection E as <- <-. cbn [flat_map]. split; [reflexivity|]. exists a. split; [|constructor].
        apply Same; cbn [own sh thr]; side t.
        rewrite app_nil_r. unfold tinv. cbn [thr]. rewrite upd_eq, Dsame. cbn [shape] in Hs. apply andb_prop in Hs as [_ Hs].
        repeat split; auto. apply Hwp.
      + assert (E1 : Some (mkM (sh st) (own st) (upd (thr st) t (Waking o c r d)), @nil (event Op R)) = Some (st', e)) by (destruct c; exact E).
        clear E. injection E1 as <- <-. split; [reflexivity|]. exists a. split; [|constructor].
        apply Same; cbn [own sh thr]; side t.
        rewrite app_nil_r. unfold tinv. cbn [thr]. rewrite upd_eq, Dsame. repeat split; auto. now apply asleep_wp.
    - (* Waking *)
      destruct Ht as (D & Dn & Hs & Hv & Hwp). destruct ch; try discriminate. destruct (own st) as [|] eqn:Eo; [discriminate|].
      injection E as <- <-. cbn [flat_map]. split; [reflexivity|]. exists a. split; [|constructor].
      apply Oth; cbn [own sh thr]; side t.
      rewrite app_nil_r. unfold tinv. cbn [thr]. rewrite upd_eq. rewrite (depth_own _ t d) by reflexivity. cbn [sh].
      exists false. repeat split; auto; try congruence. intros _. rewrite (Ia eq_refl). apply Hwp.
  Qed.

  Lemma legal_app a h b h' c : legal seq a h b -> legal seq b h' c -> legal seq a (h ++ h') c.
  Proof. induction 1; intros H'; cbn; auto; econstructor; eauto. Qed.

  Fixpoint ghosts (sched : list (nat * choice Op)) (st : mstate) : list levent :=
    match sched with
    | [] => []
    | (t, ch) :: rest => match exec t ch st with None => [] | Some (st1, _) => ghost t ch st ++ ghosts rest st1 end
    end.
  Lemma run_inv sched : forall st evs a st' e, body_ok -> Inv a st evs -> run sched st = Some (st', e) ->
    flat_map visible (ghosts sched st) = e /\ exists b, Inv b st' (evs ++ ghosts sched st) /\ legal seq a (ghosts sched st) b.
  Proof.
    induction sched as [|[t ch] rest IH]; intros st evs a st' e Bok HI E; cbn [Monitor_Model.run ghosts] in *.
    - inversion E; subst. split; [reflexivity|]. exists a. rewrite app_nil_r. split; [assumption|constructor].
    - destruct (exec t ch st) as [[st1 e1]|] eqn:E1; [|discriminate].
      destruct (run rest st1) as [[st2 e2]|] eqn:E2; [|discriminate]. inversion E; subst; clear E.
      destruct (exec_inv t ch st st1 evs e1 a Bok HI E1) as (V1 & b & HI1 & L1).
      destruct (IH st1 _ b st' e2 Bok HI1 E2) as (V2 & c & HI2 & L2).
      split; [rewrite flat_map_app; congruence|]. exists c. rewrite app_assoc. split; [assumption|]. eapply legal_app; eauto.
  Qed.
  Lemma init_inv s : Inv s (init s) [].
  Proof.
    split; [reflexivity|]. split; [discriminate|]. intros t. cbn. split; [reflexivity|constructor].
  Qed.

  (** Every schedule's history is linearizable; the data, when the mutex is free, is the
      state reached by the linearization. *)
  Theorem monitor_linearizable s sched st e : body_ok -> run sched (init s) = Some (st, e) ->
    exists l b, explains seq s l e b /\ (own st = None -> sh st = b).
  Proof.
    intros Bok E. destruct (run_inv sched (init s) [] s st e Bok (init_inv s) E) as (V & b & (Ha & _ & Ht) & L).
    exists (ghosts sched (init s)), b. cbn [app] in *. split; [|exact Ha]. split; [exact V|]. split; [|exact L].
    intros t. specialize (Ht t). unfold tinv in Ht.
    destruct (thr st t); [destruct Ht as [_ H]|destruct Ht as (? & ? & H & ?)|destruct Ht as (? & ? & ? & ? & H & ?)|destruct Ht as (? & ? & ? & H & ?)];
      eapply view_ok; exact H.
  Qed.

  (** Deadlock freedom: if some thread is neither idle nor asleep, some thread can take a
      step that is not a new call, a timeout or a spurious wake-up. *)
  Theorem monitor_progress s sched st e : body_ok -> run sched (init s) = Some (st, e) ->
    ~ quiescent st -> (forall t, exec t Go st = None) -> False.
  Proof.
    intros Bok E Hq Hn. destruct (run_inv sched (init s) [] s st e Bok (init_inv s) E) as (_ & b & (Ha & Ho & Ht) & _).
    destruct (own st) as [[t d]|] eqn:Eo.
    - destruct (Ho t d eq_refl) as (Hd & o & c & r & Er). specialize (Hn t). specialize (Ht t). unfold tinv in Ht.
      unfold Monitor_Model.exec in Hn. rewrite Er in Hn, Ht. rewrite (depth_own _ _ _ Eo) in Ht.
      unfold holds in Hn. rewrite Eo, Nat.eqb_refl in Hn.
      destruct Ht as (l & Hs & _ & Hl & _ & _). destruct l; [specialize (Hl eq_refl); congruence|].
      destruct c as [k|k|g k|g k kf|g k1 k2|x k|k|k|]; try discriminate.
      + cbn [shape] in Hs. destruct d; [congruence|]. cbn in Hs. apply andb_prop in Hs as [Hs _]. rewrite Hs in Hn. discriminate.
      + destruct d as [|[|]]; [congruence|discriminate|discriminate].
      + destruct (geval g (sh st)); discriminate.
      + destruct (geval g (sh st)); discriminate.
      + destruct (aeval x (sh st) r); discriminate.
    - apply Hq. intros t. specialize (Hn t). specialize (Ht t). unfold tinv in Ht. unfold Monitor_Model.exec in Hn.
      destruct (thr st t) as [|o c r|o c r d|o c r d] eqn:Et; auto.
      + rewrite (depth_none _ _ Eo) in Ht. destruct Ht as (l & Hs & _ & _ & _ & _).
        destruct c as [k|k|g k|g k kf|g k1 k2|x k|k|k|]; cbn [shape Nat.eqb negb] in Hs; rewrite ?andb_false_r in Hs; try discriminate.
        rewrite Eo in Hn. discriminate.
      + rewrite Eo in Hn. discriminate.
  Qed.

  (** ** No lost wake-ups *)
  (** The rest of the method notifies everybody before it can sleep. *)
  Fixpoint notifies (c : code) : bool :=
    match c with
    | CLock k => notifies k
    | CUnlock k => notifies k
    | CWaitWhile _ _ => false
    | CWaitTimed _ _ _ => false
    | CIf _ k1 k2 => notifies k1 && notifies k2
    | CAct _ k => notifies k
    | CNotifyAll _ => true
    | CNotifyOne k => notifies k
    | CRet => false
    end.
  (** Every update is followed by a notification or can wake nobody. *)
  Fixpoint acts_notify (c : code) : Prop :=
    match c with
    | CLock k => acts_notify k
    | CUnlock k => acts_notify k
    | CWaitWhile _ k => acts_notify k
    | CWaitTimed _ k kf => acts_notify k /\ acts_notify kf
    | CIf _ k1 k2 => acts_notify k1 /\ acts_notify k2
    | CAct a k => acts_notify k /\ (notifies k = true \/ forall g s r, geval g s = true -> geval g (fst (aeval a s r)) = true)
    | CNotifyAll k => acts_notify k
    | CNotifyOne k => acts_notify k
    | CRet => True
    end.
  Definition bodies_notify : Prop := forall o, acts_notify (body o).

  Definition codes_ok (st : mstate) : Prop := forall t,
    match thr st t with Idle => True | Run _ c _ | Asleep _ c _ _ | Waking _ c _ _ => acts_notify c end.
  Definition winv (st : mstate) : Prop :=
    codes_ok st /\ (nobody_left_asleep geval st \/ exists t o c r, thr st t = Run o c r /\ notifies c = true).

  Lemma exec_winv t ch st st' e : bodies_notify -> winv st -> exec t ch st = Some (st', e) -> winv st'.
  Proof.
    intros Bn [Hc Hw] E. unfold Monitor_Model.exec in E.
    (* the status of [t] and of the others after the step *)
    assert (C : forall st1 x, thr st1 = upd (thr st) t x \/ thr st1 = upd (fun u => wake (thr st u)) t x \/ (exists w, w <> t /\ thr st1 = upd (upd (thr st) w (wake (thr st w))) t x) ->
      match x with Idle => True | Run _ c _ | Asleep _ c _ _ | Waking _ c _ _ => acts_notify c end -> codes_ok st1).
    { intros st1 x Hx Hcx u. destruct (Nat.eq_dec u t) as [->|Hne].
      - assert (Et : thr st1 t = x) by (destruct Hx as [-> |[-> |(w & _ & ->)]]; apply upd_eq). rewrite Et. exact Hcx.
      - specialize (Hc u). destruct Hx as [-> |[-> |(w & _ & ->)]]; rewrite upd_ne by assumption.
        + exact Hc.
        + destruct (thr st u); exact Hc.
        + unfold upd. destruct (Nat.eqb_spec u w) as [->|]; [destruct (thr st w); exact Hc|exact Hc]. }
    (* steps that leave the data alone: sleeping threads stay as they were or wake *)
    assert (W : forall st1 x, sh st1 = sh st -> thr st1 = upd (thr st) t x \/ (exists w, w <> t /\ thr st1 = upd (upd (thr st) w (wake (thr st w))) t x) ->
      (forall g o c r d, x = Asleep o c r d -> match c with CWaitWhile g' _ => g' = g | CWaitTimed g' _ _ => g' = g | _ => False end -> geval g (sh st) = true) ->
      (forall o c r, thr st t = Run o c r -> notifies c = true -> exists o c r, x = Run o c r /\ notifies c = true) ->
      nobody_left_asleep geval st1 \/ exists t o c r, thr st1 t = Run o c r /\ notifies c = true).
    { intros st1 x Hs Hx Ha Hn. destruct Hw as [Hw|(u & o & c & r & Eu & Hnu)].
      - left. intros u g (o & c & r & d & Eu & Hg). rewrite Hs. destruct (Nat.eq_dec u t) as [->|Hne].
        + assert (Et : thr st1 t = x) by (destruct Hx as [-> |(w & _ & ->)]; apply upd_eq). rewrite Et in Eu. eapply Ha; eassumption.
        + apply (Hw u g). exists o, c, r, d. split; [|exact Hg].
          destruct Hx as [Hx|(w & _ & Hx)]; rewrite Hx, upd_ne in Eu by assumption; [exact Eu|].
          unfold upd in Eu. destruct (Nat.eqb_spec u w) as [->|]; [destruct (thr st w); cbn in Eu; congruence|exact Eu].
      - right. destruct (Nat.eq_dec u t) as [->|Hne].
        + destruct (Hn o c r Eu Hnu) as (o' & c' & r' & -> & Hn'). exists t, o', c', r'. split; [|exact Hn'].
          destruct Hx as [-> |(w & _ & ->)]; apply upd_eq.
        + exists u, o, c, r. split; [|exact Hnu]. destruct Hx as [-> |(w & _ & ->)]; rewrite upd_ne by assumption; [exact Eu|].
          unfold upd. destruct (Nat.eqb_spec u w) as [->|]; [rewrite Eu; reflexivity|exact Eu]. }
    pose proof (Hc t) as Hct.
    destruct (thr st t) as [|o c r|o c r d|o c r d] eqn:Et.
    - destruct ch; try discriminate. injection E as <- <-. split; [eapply C; [left; reflexivity|apply Bn]|].
      eapply W; [reflexivity|left; reflexivity|discriminate|discriminate].
    - destruct c as [k|k|g k|g k kf|g k1 k2|x k|k|k|]; cbn [acts_notify] in Hct.
      + destruct ch; try discriminate. destruct (own st) as [[u d]|].
        * destruct (recursive && Nat.eqb u t); [|discriminate]. injection E as <- <-. split; [eapply C; [left; reflexivity|exact Hct]|].
          eapply W; [reflexivity|left; reflexivity|discriminate|]. intros o' c' r' E' Hn. inversion E'; subst. eauto.
        * injection E as <- <-. split; [eapply C; [left; reflexivity|exact Hct]|].
          eapply W; [reflexivity|left; reflexivity|discriminate|]. intros o' c' r' E' Hn. inversion E'; subst. eauto.
      + destruct ch; try discriminate. destruct (holds st t) as [[|[|d]]|]; try discriminate; injection E as <- <-;
          (split; [eapply C; [left; reflexivity|exact Hct]|]; eapply W; [reflexivity|left; reflexivity|discriminate|]; intros o' c' r' E' Hn; inversion E'; subst; eauto).
      + destruct ch; try discriminate. destruct (holds st t) as [d|]; [|discriminate]. destruct (geval g (sh st)) eqn:Eg; injection E as <- <-.
        * split; [eapply C; [left; reflexivity|exact Hct]|]. eapply W; [reflexivity|left; reflexivity| |].
          -- intros g' o' c' r' d' E' Hg. inversion E'; subst. cbn in Hg. now subst.
          -- intros o' c' r' E' Hn. inversion E'; subst. discriminate.
        * split; [eapply C; [left; reflexivity|exact Hct]|]. eapply W; [reflexivity|left; reflexivity|discriminate|].
          intros o' c' r' E' Hn. inversion E'; subst. discriminate.
      + destruct Hct as [Hk Hkf]. destruct ch; try discriminate.
        * destruct (holds st t) as [d|]; [|discriminate]. destruct (geval g (sh st)) eqn:Eg; injection E as <- <-.
          -- split; [eapply C; [left; reflexivity|split; assumption]|]. eapply W; [reflexivity|left; reflexivity| |].
             ++ intros g' o' c' r' d' E' Hg. inversion E'; subst. cbn in Hg. now subst.
             ++ intros o' c' r' E' Hn. inversion E'; subst. discriminate.
          -- split; [eapply C; [left; reflexivity|exact Hk]|]. eapply W; [reflexivity|left; reflexivity|discriminate|].
             intros o' c' r' E' Hn. inversion E'; subst. discriminate.
        * destruct (holds st t) as [d|]; [|discriminate]. destruct (geval g (sh st)) eqn:Eg; [|discriminate]. injection E as <- <-.
          split; [eapply C; [left; reflexivity|exact Hkf]|]. eapply W; [reflexivity|left; reflexivity|discriminate|].
          intros o' c' r' E' Hn. inversion E'; subst. discriminate.
      + destruct Hct as [Hk1 Hk2]. destruct ch; try discriminate. destruct (holds st t) as [d|]; [|discriminate]. injection E as <- <-.
        split; [eapply C; [left; reflexivity|destruct (geval g (sh st)); assumption]|]. eapply W; [reflexivity|left; reflexivity|discriminate|].
        intros o' c' r' E' Hn. inversion E'; subst. cbn [notifies] in Hn. apply andb_prop in Hn as [N1 N2]. destruct (geval g (sh st)); eauto.
      + destruct Hct as [Hk Hn]. destruct ch; try discriminate. destruct (holds st t) as [d|]; [|discriminate].
        destruct (aeval x (sh st) r) as [s1 r1] eqn:Ea. injection E as <- <-.
        split; [eapply C; [left; reflexivity|exact Hk]|].
        destruct Hn as [Hn|Hn].
        * right. exists t, o, k, r1. cbn [thr]. rewrite upd_eq. auto.
        * destruct Hw as [Hw|(u & o' & c' & r' & Eu & Hnu)].
          -- left. intros u g (o' & c' & r' & d' & Eu & Hg). cbn [sh thr] in *. destruct (Nat.eq_dec u t) as [->|Hne]; [rewrite upd_eq in Eu; discriminate|].
             rewrite upd_ne in Eu by assumption. replace s1 with (fst (aeval x (sh st) r)) by now rewrite Ea. apply Hn. apply (Hw u g). exists o', c', r', d'. auto.
          -- right. destruct (Nat.eq_dec u t) as [->|Hne].
             ++ rewrite Et in Eu. inversion Eu; subst. exists t, o', k, r1. cbn [thr]. rewrite upd_eq. auto.
             ++ exists u, o', c', r'. cbn [thr]. rewrite upd_ne by assumption. auto.
      + destruct ch; try discriminate. injection E as <- <-. split; [eapply C; [right; left; reflexivity|exact Hct]|].
        left. intros u g (o' & c' & r' & d' & Eu & Hg). cbn [thr] in Eu. destruct (Nat.eq_dec u t) as [->|Hne]; [rewrite upd_eq in Eu; discriminate|].
        rewrite upd_ne in Eu by assumption. destruct (thr st u); discriminate.
      + destruct ch as [| |w| |]; try discriminate.
        * injection E as <- <-. split; [eapply C; [left; reflexivity|exact Hct]|].
          eapply W; [reflexivity|left; reflexivity|discriminate|]. intros o' c' r' E' Hn. inversion E'; subst. eauto.
        * destruct (Nat.eqb_spec w t) as [|Hwt]; [discriminate|]. injection E as <- <-.
          split; [eapply C; [right; right; exists w; split; [assumption|reflexivity]|exact Hct]|].
          eapply W; [reflexivity|right; exists w; split; [assumption|reflexivity]|discriminate|]. intros o' c' r' E' Hn. inversion E'; subst. eauto.
      + destruct ch; try discriminate. injection E as <- <-. split; [eapply C; [left; reflexivity|exact I]|].
        eapply W; [reflexivity|left; reflexivity|discriminate|]. intros o' c' r' E' Hn. inversion E'; subst. discriminate.
    - destruct ch; try (destruct c; discriminate).
      + destruct c as [| | |g k kf| | | | |]; try discriminate. injection E as <- <-. destruct Hct as [_ Hkf].
        split; [eapply C; [left; reflexivity|exact Hkf]|]. eapply W; [reflexivity|left; reflexivity|discriminate|discriminate].
      + assert (E1 : Some (mkM (sh st) (own st) (upd (thr st) t (Waking o c r d)), @nil (event Op R)) = Some (st', e)) by (destruct c; exact E).
        clear E. injection E1 as <- <-. split; [eapply C; [left; reflexivity|exact Hct]|].
        eapply W; [reflexivity|left; reflexivity|discriminate|discriminate].
    - destruct ch; try discriminate. destruct (own st); [discriminate|]. injection E as <- <-.
      split; [eapply C; [left; reflexivity|exact Hct]|]. eapply W; [reflexivity|left; reflexivity|discriminate|discriminate].
  Qed.
  Lemma run_winv sched : forall st st' e, bodies_notify -> winv st -> run sched st = Some (st', e) -> winv st'.
  Proof.
    induction sched as [|[t ch] rest IH]; intros st st' e Bn Hw E; cbn [Monitor_Model.run] in E; [inversion E; subst; assumption|].
    destruct (exec t ch st) as [[st1 e1]|] eqn:E1; [|discriminate]. destruct (run rest st1) as [[st2 e2]|] eqn:E2; [|discriminate].
    inversion E; subst. eapply IH; [assumption| |exact E2]. eapply exec_winv; eassumption.
  Qed.
  (** When nothing is running, whoever sleeps still has to. *)
  Theorem monitor_no_lost_wakeup s sched st e : bodies_notify -> run sched (init s) = Some (st, e) ->
    quiescent st -> nobody_left_asleep geval st.
  Proof.
    intros Bn E Hq. assert (W0 : winv (init s)).
    { split; [intros t; exact I|]. left. intros t g (o & c & r & d & Et & _). discriminate. }
    destruct (run_winv sched _ _ _ Bn W0 E) as [_ [H|(t & o & c & r & Et & _)]]; [exact H|].
    specialize (Hq t). rewrite Et in Hq. contradiction.
  Qed.

  Lemma exec_sub t ch st st' e : (forall u, match thr st u with Idle => True | Run o c _ | Asleep o c _ _ | Waking o c _ _ => subcode c (body o) end) ->
    exec t ch st = Some (st', e) -> forall u, match thr st' u with Idle => True | Run o c _ | Asleep o c _ _ | Waking o c _ _ => subcode c (body o) end.
  Proof.
    intros H E. pose proof (H t) as Ht. unfold Monitor_Model.exec in E.
    assert (C : forall (st1 : mstate) (x : status), thr st1 = upd (thr st) t x \/ thr st1 = upd (fun u => wake (thr st u)) t x \/ (exists w, w <> t /\ thr st1 = upd (upd (thr st) w (wake (thr st w))) t x) ->
      match x with Idle => True | Run o c _ | Asleep o c _ _ | Waking o c _ _ => subcode c (body o) end ->
      forall u, match thr st1 u with Idle => True | Run o c _ | Asleep o c _ _ | Waking o c _ _ => subcode c (body o) end).
    { intros st1 x Hx Hcx u. destruct (Nat.eq_dec u t) as [->|Hne].
      - assert (Et : thr st1 t = x) by (destruct Hx as [-> |[-> |(w & _ & ->)]]; apply upd_eq). rewrite Et. exact Hcx.
      - specialize (H u). destruct Hx as [-> |[-> |(w & _ & ->)]]; rewrite upd_ne by assumption.
        + exact H.
        + destruct (thr st u); exact H.
        + unfold upd. destruct (Nat.eqb_spec u w) as [->|]; [destruct (thr st w); exact H|exact H]. }
    destruct (thr st t) as [|o c r|o c r d|o c r d] eqn:Et.
    - destruct ch; try discriminate. injection E as <- <-. eapply C; [left; reflexivity|]. apply sub_refl.
    - destruct c as [k|k|g k|g k kf|g k1 k2|x k|k|k|]; destruct ch as [| |w| |]; try discriminate;
        repeat match type of E with
        | (match ?x with _ => _ end) = _ => destruct x eqn:?; try discriminate
        end; injection E as <- <-;
        first [eapply C; [left; reflexivity|]|eapply C; [right; left; reflexivity|]|eapply C; [right; right; exists w; split; [|reflexivity]|]];
        try exact I; try exact Ht;
        try (apply Nat.eqb_neq; assumption);
        try (eapply sub_trans; [|exact Ht]; constructor; apply sub_refl);
        try (eapply sub_trans; [|exact Ht]; apply sub_timed2; apply sub_refl);
        try (destruct (geval _ _)); (eapply sub_trans; [|exact Ht]); first [apply sub_if1; apply sub_refl|apply sub_if2; apply sub_refl].
    - destruct ch; try (destruct c; discriminate).
      + destruct c; try discriminate. injection E as <- <-. eapply C; [left; reflexivity|]. eapply sub_trans; [|exact Ht]. apply sub_timed2, sub_refl.
      + assert (E1 : Some (mkM (sh st) (own st) (upd (thr st) t (Waking o c r d)), @nil (event Op R)) = Some (st', e)) by (destruct c; exact E).
        injection E1 as <- <-. eapply C; [left; reflexivity|exact Ht].
    - destruct ch; try discriminate. destruct (own st); [discriminate|]. injection E as <- <-. eapply C; [left; reflexivity|exact Ht].
  Qed.
  Lemma run_sub sched : forall st st' e, (forall u, match thr st u with Idle => True | Run o c _ | Asleep o c _ _ | Waking o c _ _ => subcode c (body o) end) ->
    run sched st = Some (st', e) -> forall u, match thr st' u with Idle => True | Run o c _ | Asleep o c _ _ | Waking o c _ _ => subcode c (body o) end.
  Proof.
    induction sched as [|[t ch] rest IH]; intros st st' e H E; cbn [Monitor_Model.run] in E; [inversion E; subst; assumption|].
    destruct (exec t ch st) as [[st1 e1]|] eqn:E1; [|discriminate]. destruct (run rest st1) as [[st2 e2]|] eqn:E2; [|discriminate].
    inversion E; subst. eapply IH; [|exact E2]. eapply exec_sub; eassumption.
  Qed.
  (** A thread asleep in operation [o] waits at one of [o]'s waits, and in a quiescent state
      the condition it waits on still holds. *)
  Theorem monitor_sleepers s sched st e : body_ok -> bodies_notify -> run sched (init s) = Some (st, e) -> quiescent st ->
    forall t o c r d, thr st t = Asleep o c r d -> (exists g, waits_on g (body o) /\ geval g (sh st) = true) /\ subcode c (body o) /\ asleep_ok o d c r /\
      match c with CWaitWhile g _ | CWaitTimed g _ _ => geval g (sh st) = true | _ => False end.
  Proof.
    intros Bok Bn E Hq t o c r d Et.
    pose proof (monitor_no_lost_wakeup s sched st e Bn E Hq) as Hn.
    pose proof (run_sub sched (init s) st e (fun _ => I) E t) as Hsub. rewrite Et in Hsub.
    destruct (run_inv sched (init s) [] s st e Bok (init_inv s) E) as (_ & b & (_ & _ & Ht) & _). specialize (Ht t). unfold tinv in Ht. rewrite Et in Ht.
    destruct Ht as (_ & _ & Hw & _ & _ & Hok). split; [|split; [exact Hsub|split; [exact Hok|]]].
    2: { destruct c as [k|k|g k|g k kf|g k1 k2|x k|k|k|]; try contradiction; apply (Hn t g); eexists _, _, _, _; (split; [exact Et|reflexivity]). }
    destruct c as [k|k|g k|g k kf|g k1 k2|x k|k|k|]; try contradiction.
    - exists g. split; [apply (sub_waits _ _ Hsub); left; reflexivity|]. apply (Hn t g). exists o, (CWaitWhile g k), r, d. auto.
    - exists g. split; [apply (sub_waits _ _ Hsub); left; reflexivity|]. apply (Hn t g). exists o, (CWaitTimed g k kf), r, d. auto.
  Qed.
End Proof.
