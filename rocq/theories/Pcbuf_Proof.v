From Verif Require Import Common CommonLemmas Monitor_Model Monitor_Spec Monitor_Proof Pcbuf_Model Pcbuf_Spec.

Section P.
  Context {T : Type} (cap : nat).
  Lemma pc_ok : body_ok (geval (T := T) cap) aeval false body RUnit (fifo cap).
  Proof.
    intros o. split; [destruct o; reflexivity|]. intros a.
    assert (F : forall q : list T, (cap <=? length q) = false -> length q < cap) by (intros q H; apply Nat.leb_gt in H; exact H).
    destruct o; cbn [body wp fst snd aeval].
    - repeat split; auto; cbn [geval]; intros; constructor; auto.
    - repeat split; auto; cbn [geval]; intros; constructor; auto.
    - repeat split; auto; cbn [geval]; [destruct a; [discriminate|]|destruct b; [discriminate|]]; intros; constructor.
    - repeat split; auto; cbn [geval]; [destruct a; [discriminate|]|destruct b; [discriminate|]|]; intros; constructor.
    - constructor.
    - constructor. destruct a; split; congruence.
    - constructor.
  Qed.
  Lemma pc_notify : bodies_notify (geval (T := T) cap) aeval body.
  Proof. intros o. destruct o; cbn; auto 10. Qed.

  Lemma legal_fifo (a : list T) l b : legal (fifo cap) a l b -> Forall not_clear l -> a ++ flat_map went_in l = flat_map came_out l ++ b.
  Proof.
    induction 1 as [a|a t o h b H IH|a t o r h b H IH|a t o r a1 h b Hs H IH]; intros Hc.
    - cbn. now rewrite app_nil_r.
    - inversion Hc; subst. exact (IH H3).
    - inversion Hc; subst. exact (IH H3).
    - inversion Hc as [|? ? Hx Hh]; subst. specialize (IH Hh). inversion Hs; subst; cbn [flat_map went_in came_out not_clear app] in *; try contradiction; auto.
      + rewrite <- IH, <- app_assoc. reflexivity.
      + rewrite <- IH, <- app_assoc. reflexivity.
      + now rewrite IH.
      + now rewrite IH.
  Qed.
  Lemma legal_bound (a : list T) l b : legal (fifo cap) a l b -> length a <= cap -> length b <= cap /\
    forall t n, In (LLin t Size (RNum n)) l -> n <= cap.
  Proof.
    induction 1 as [a|a t o h b H IH|a t o r h b H IH|a t o r a1 h b Hs H IH]; intros Ha.
    - split; [exact Ha|intros ? ? []].
    - destruct (IH Ha) as [H1 H2]. split; [exact H1|]. intros u n [E|E]; [discriminate|eauto].
    - destruct (IH Ha) as [H1 H2]. split; [exact H1|]. intros u n [E|E]; [discriminate|eauto].
    - assert (Ha1 : length a1 <= cap) by (inversion Hs; subst; rewrite ?app_length; cbn in *; lia).
      destruct (IH Ha1) as [H1 H2]. split; [exact H1|]. intros u n [E|E]; [|eauto]. inversion E; subst. inversion Hs; subst. exact Ha.
  Qed.

  Theorem pcbuf_linearizable sched st h : run_pcbuf (T := T) cap sched = Some (st, h) ->
    exists l b, explains (fifo cap) [] l h b /\ (own st = None -> sh st = b) /\
      length b <= cap /\ (forall t n, In (ERet t Size (RNum n)) h -> n <= cap) /\
      (Forall not_clear l -> flat_map went_in l = flat_map came_out l ++ b).
  Proof.
    intros E. destruct (monitor_linearizable _ _ _ _ _ _ [] sched st h pc_ok E) as (l & b & He & Hb).
    exists l, b. split; [exact He|]. split; [exact Hb|]. destruct He as (Hv & Ht & Hl).
    destruct (legal_bound _ _ _ Hl ltac:(cbn; lia)) as [H1 H2]. split; [exact H1|]. split.
    - intros t n Hin. apply (H2 t n). rewrite <- Hv in Hin. apply in_flat_map in Hin as (x & Hx & Hv').
      destruct x as [t' o'|t' o' r'|t' o' r']; cbn in Hv'; try (destruct Hv' as [E'|[]]; inversion E'; subst); try contradiction.
      (* the linearization event of the returned call *)
      specialize (Ht t). assert (Hx' : In (LRet t Size (RNum n)) (of_thread t l)).
      { apply filter_In. split; [exact Hx|]. cbn. apply Nat.eqb_refl. }
      assert (G : forall p : list (levent (op T) (ret T)), thread_ok t p -> In (LRet t Size (RNum n)) p -> In (LLin t Size (RNum n)) p).
      { clear. induction 1; intros Hin; cbn in Hin; try (intuition discriminate).
        destruct Hin as [?|[?|[E|?]]]; try discriminate; [inversion E; subst; right; left; reflexivity|]. do 3 right. auto. }
      apply G in Hx'; [|exact Ht]. apply filter_In in Hx'. apply Hx'.
    - intros Hc. apply legal_fifo in Hl; [|exact Hc]. exact Hl.
  Qed.
  Theorem pcbuf_progress sched st h : run_pcbuf (T := T) cap sched = Some (st, h) -> ~ quiescent st ->
    ~ (forall t, exec (geval cap) aeval false body RUnit t Go st = None).
  Proof. intros E Hq Hn. exact (monitor_progress _ _ _ _ _ _ [] sched st h pc_ok E Hq Hn). Qed.
  Theorem pcbuf_sleepers sched st h : run_pcbuf (T := T) cap sched = Some (st, h) -> quiescent st ->
    forall t o c r d, thr st t = Asleep o c r d ->
      match o with Push _ | Push_for _ => cap <= length (sh st) | Pop | Pop_for => sh st = [] | _ => False end.
  Proof.
    intros E Hq t o c r d Et.
    destruct (monitor_sleepers _ _ _ _ _ _ [] sched st h pc_ok pc_notify E Hq t o c r d Et) as [(g & Hg & Hs) _].
    destruct o; cbn in Hg; repeat destruct Hg as [Hg|Hg]; try contradiction; subst g; cbn [geval] in Hs.
    - now apply Nat.leb_le in Hs.
    - now apply Nat.leb_le in Hs.
    - now destruct (sh st).
    - now destruct (sh st).
  Qed.
End P.
