From Verif Require Import Common CommonLemmas Monitor_Model Monitor_Spec Monitor_Proof Qsem_Model Qsem_Spec.
Local Open Scope Z_scope.

Lemma qs_ok : body_ok geval aeval false body false unit_semaphore.
Proof.
  intros o. split; [destruct o; reflexivity|]. intros a. destruct o; cbn.
  - repeat split; auto; intros; constructor; lia.
  - constructor.
Qed.
Lemma qs_notify : bodies_notify geval aeval body.
Proof.
  intros o. destruct o; cbn.
  - split; [exact I|]. right. intros [q'] s r. cbn. lia.
  - auto.
Qed.
Lemma thread_inv t (p : list (levent op bool)) : thread_ok t p -> forall o r, In (LLin t o r) p -> In (LInv t o) p.
Proof.
  induction 1; intros o' r' Hin; cbn in Hin; try (intuition discriminate).
  - destruct Hin as [?|[E|[]]]; [discriminate|]. inversion E; subst. left. reflexivity.
  - destruct Hin as [?|[E|[?|Hin]]]; try discriminate; [inversion E; subst; left; reflexivity|]. do 3 right. eauto.
Qed.
Lemma explains_inv (seq : Z -> op -> bool -> Z -> Prop) (a : Z) l h b : explains seq a l h b -> forall t o (r : bool), In (LLin t o r) l -> In (EInv t o) h.
Proof.
  intros (Hv & Ht & _) t o r Hin. assert (H : In (LLin t o r) (of_thread t l)) by (apply filter_In; split; [exact Hin|cbn; apply Nat.eqb_refl]).
  apply (thread_inv t _ (Ht t)) in H. apply filter_In in H as [H _]. rewrite <- Hv. apply in_flat_map. exists (LInv t o). split; [exact H|left; reflexivity].
Qed.
Lemma legal_units a l b : legal unit_semaphore a l b -> (forall t o r, In (LLin t o r) l -> unit_call o) -> legal semaphore a l b.
Proof.
  induction 1 as [a|a t o h b H IH|a t o r h b H IH|a t o r a1 h b Hs H IH]; intros Hu.
  - constructor.
  - constructor. apply IH. intros. eapply Hu. right. eassumption.
  - constructor. apply IH. intros. eapply Hu. right. eassumption.
  - econstructor; [|apply IH; intros; eapply Hu; right; eassumption].
    specialize (Hu t o r (or_introl eq_refl)). inversion Hs; subst; cbn in Hu; [subst q|]; constructor; assumption.
Qed.
Lemma legal_outstanding a l b : legal semaphore a l b -> 0 <= a -> (forall t o r, In (LLin t o r) l -> match o with Signal q => 0 <= q | _ => True end) ->
  outstanding l = a - b /\ 0 <= b.
Proof.
  induction 1 as [a|a t o h b H IH|a t o r h b H IH|a t o r a1 h b Hs H IH]; intros Ha Hu.
  - cbn. lia.
  - apply IH; [assumption|]. intros. eapply Hu. right. eassumption.
  - apply IH; [assumption|]. intros. eapply Hu. right. eassumption.
  - pose proof (Hu t o r (or_introl eq_refl)) as Ho. cbn [outstanding fold_right]. fold (outstanding h).
    inversion Hs; subst; cbn [granted]; (destruct IH as [IH1 IH2]; [lia|intros; eapply Hu; right; eassumption|]); lia.
Qed.
Theorem qsem_impl n sched st h : run_qsem n sched = Some (st, h) ->
  exists l b, explains unit_semaphore n l h b /\ (own st = None -> sh st = b).
Proof. intros E. exact (monitor_linearizable _ _ _ _ _ _ n sched st h qs_ok E). Qed.
Theorem qsem_units n sched st h : 0 <= n -> run_qsem n sched = Some (st, h) -> unit_calls h ->
  exists l b, explains semaphore n l h b /\ (own st = None -> sh st = b) /\ outstanding l <= n.
Proof.
  intros Hn E Hu. destruct (qsem_impl n sched st h E) as (l & b & He & Hb).
  assert (Hl : forall t o r, In (LLin t o r) l -> unit_call o) by (intros t o r Hin; eapply Hu; eapply explains_inv; eassumption).
  assert (Hs : legal semaphore n l b) by (apply legal_units; [apply He|exact Hl]).
  exists l, b. split; [split; [apply He|split; [apply He|exact Hs]]|]. split; [exact Hb|].
  destruct (legal_outstanding n l b Hs Hn) as [-> Hb0]; [|lia]. intros t o r Hin. specialize (Hl t o r Hin). destruct o; [exact I|exact Hl].
Qed.
Theorem qsem_progress n sched st h : run_qsem n sched = Some (st, h) -> ~ quiescent st ->
  ~ (forall t, exec geval aeval false body false t Go st = None).
Proof. intros E Hq Hn. exact (monitor_progress _ _ _ _ _ _ n sched st h qs_ok E Hq Hn). Qed.
Theorem qsem_sleepers n sched st h : run_qsem n sched = Some (st, h) -> quiescent st ->
  forall t o c r d, thr st t = Asleep o c r d -> match o with Wait q => sh st < q | _ => False end.
Proof.
  intros E Hq t o c r d Et.
  destruct (monitor_sleepers _ _ _ _ _ _ n sched st h qs_ok qs_notify E Hq t o c r d Et) as [(g & Hg & Hs) _].
  destruct o; cbn in Hg; [|contradiction]. destruct Hg as [<-|[]]. cbn in Hs. lia.
Qed.
