From Verif Require Import Common CommonLemmas Monitor_Model Monitor_Spec Monitor_Proof Mvar_Model Mvar_Spec.

Section P.
  Context {T : Type}.
  Lemma mv_ok : body_ok (geval (T := T)) aeval true body RUnit place.
  Proof.
    intros o. split; [destruct o; reflexivity|]. intros a.
    destruct o; cbn [body wp fst snd aeval].
    - repeat split; auto; [destruct a; cbn; [|discriminate]|destruct b; cbn; [|discriminate]]; intros; constructor.
    - repeat split; auto; [destruct a; cbn; [discriminate|]|destruct b; cbn; [discriminate|]]; intros; constructor.
    - repeat split; auto; [destruct a; cbn; [|discriminate]|destruct b; cbn; [|discriminate]]; intros; constructor.
    - destruct a; cbn; constructor.
    - destruct a; cbn; constructor.
    - destruct a; cbn; repeat split; auto; try discriminate; try (intros; discriminate).
      + intros _. constructor.
      + intros _. destruct b; [constructor|discriminate].
    - constructor. destruct a; split; congruence.
  Qed.
  Lemma mv_notify : bodies_notify (geval (T := T)) aeval body.
  Proof. intros o. destruct o; cbn; auto 15. Qed.
  Theorem mvar_linearizable p sched st h : run_mvar (T := T) p sched = Some (st, h) ->
    exists l b, explains place p l h b /\ (own st = None -> sh st = b).
  Proof. intros E. exact (monitor_linearizable _ _ _ _ _ _ p sched st h mv_ok E). Qed.
  Theorem mvar_progress p sched st h : run_mvar (T := T) p sched = Some (st, h) -> ~ quiescent st ->
    ~ (forall t, exec geval aeval true body RUnit t Go st = None).
  Proof. intros E Hq Hn. exact (monitor_progress _ _ _ _ _ _ p sched st h mv_ok E Hq Hn). Qed.
  Theorem mvar_sleepers p sched st h : run_mvar (T := T) p sched = Some (st, h) -> quiescent st ->
    forall t o c r d, thr st t = Asleep o c r d ->
      match o with Put _ => sh st <> None | Take | Read | Swap _ => sh st = None | _ => False end.
  Proof.
    intros E Hq t o c r d Et.
    destruct (monitor_sleepers _ _ _ _ _ _ p sched st h mv_ok mv_notify E Hq t o c r d Et) as [(g & Hg & Hs) (Hsub & Hok & Hg')].
    destruct o; cbn in Hg; repeat destruct Hg as [Hg|Hg]; try contradiction; subst g; destruct (sh st) eqn:Es; cbn in Hs; try congruence.
    (* inside swap the second wait is never reached with a value present *)
    exfalso. cbn [body] in Hsub.
    repeat match goal with H : subcode _ (_ _) |- _ => inversion H; subst; clear H | H : subcode _ (_ _ _) |- _ => inversion H; subst; clear H | H : subcode _ CRet |- _ => inversion H; subst; clear H end;
      cbn [asleep_ok] in Hok; try contradiction.
    - discriminate Hg'.
    - specialize (Hok None eq_refl). cbn in Hok. destruct d as [|[|[|d]]]; try contradiction; inversion Hok.
  Qed.
End P.
