(** C54: the quantity semaphore. *)
From Verif Require Import Common Monitor_Model Monitor_Spec Qsem_Model Qsem_Spec Qsem_Proof.
Local Open Scope Z_scope.

Definition gos (t n : nat) : list (nat * choice op) := repeat (t, Go) n.

(** The property would be: for every schedule of wait(q) and signal(q), with q >= 0, the
    history is that of a semaphore and the units granted never exceed the initial quantity.
    It is false: wait(q) waits for q units but takes only one.  Two threads are each granted
    two units of a semaphore that has three. *)
Definition over : list (nat * choice op) := [(1%nat, Invoke (Wait 2))] ++ gos 1 5 ++ [(2%nat, Invoke (Wait 2))] ++ gos 2 5.
Theorem C54_qsem_overcommit_refuted :
  ~ (forall n sched st h, 0 <= n -> run_qsem n sched = Some (st, h) -> linearizable semaphore n h).
Proof.
  intros H. destruct (run_qsem 3 over) as [[st h]|] eqn:E; [|vm_compute in E; discriminate].
  specialize (H 3 over st h ltac:(lia) E).
  assert (Eh : h = [EInv 1%nat (Wait 2); ERet 1%nat (Wait 2) true; EInv 2%nat (Wait 2); ERet 2%nat (Wait 2) true]).
  { vm_compute in E. inversion E. reflexivity. }
  subst h. clear E. destruct H as (l & b & Hv & Ht & Hl).
  assert (L : forall a l b, legal semaphore a l b -> forall t q, In (LLin t (Wait q) true) l -> (forall t o r, In (LLin t o r) l -> exists q', o = Wait q' /\ 0 <= q') -> q <= a).
  { clear. induction 1 as [a|a t o h b H IH|a t o r h b H IH|a t o r a1 h b Hs H IH]; intros u q Hin Hw.
    - destruct Hin.
    - destruct Hin as [Hin|Hin]; [discriminate|]. eapply IH; [exact Hin|]. intros. eapply Hw. right. eassumption.
    - destruct Hin as [Hin|Hin]; [discriminate|]. eapply IH; [exact Hin|]. intros. eapply Hw. right. eassumption.
    - destruct Hin as [Hin|Hin].
      + inversion Hin; subst. inversion Hs; subst. assumption.
      + destruct (Hw t o r (or_introl eq_refl)) as (q' & -> & Hq'). inversion Hs; subst.
        assert (q <= a - q') by (eapply IH; [exact Hin|]; intros; eapply Hw; right; eassumption). lia. }
  (* the only operations are the two waits, each of which takes effect *)
  assert (Hw : forall t o r, In (LLin t o r) l -> o = Wait 2).
  { intros t o r Hin. assert (Hi := explains_inv _ _ _ _ _ (conj Hv (conj Ht Hl)) t o r Hin). cbn in Hi.
    destruct Hi as [Hi|[Hi|[Hi|[Hi|[]]]]]; inversion Hi; reflexivity. }
  assert (Hr : forall t, (t = 1 \/ t = 2)%nat -> In (LLin t (Wait 2) true) l).
  { intros t Hti. assert (R : In (LRet t (Wait 2) true) l).
    { assert (Hin : In (ERet t (Wait 2) true) (flat_map visible l)) by (rewrite Hv; destruct Hti as [-> | ->]; cbn; auto).
      apply in_flat_map in Hin as (x & Hx & Hy). destruct x; cbn in Hy; try contradiction; destruct Hy as [Hy|[]]; inversion Hy; subst. exact Hx. }
    assert (G : forall p : list (levent op bool), thread_ok t p -> forall o r, In (LRet t o r) p -> In (LLin t o r) p).
    { clear. induction 1; intros o' r' Hin; cbn in Hin; try (intuition discriminate).
      destruct Hin as [?|[?|[E|?]]]; try discriminate; [inversion E; subst; right; left; reflexivity|]. do 3 right. auto. }
    assert (R' : In (LRet t (Wait 2) true) (of_thread t l)) by (apply filter_In; split; [exact R|cbn; apply Nat.eqb_refl]).
    apply (G _ (Ht t)) in R'. apply filter_In in R'. apply R'. }
  (* split the run at the first of them *)
  clear Hv Ht. revert Hw Hr. remember 3 as a eqn:Ea.
  induction Hl as [a|a t o h b H IH|a t o r h b H IH|a t o r a1 h b Hs H IH]; intros Hw Hr; subst.
  - destruct (Hr 1%nat (or_introl eq_refl)).
  - apply IH; [reflexivity| |]; intros; [eapply Hw; right; eassumption|]. destruct (Hr t0 H0) as [E|E]; [discriminate|exact E].
  - apply IH; [reflexivity| |]; intros; [eapply Hw; right; eassumption|]. destruct (Hr t0 H0) as [E|E]; [discriminate|exact E].
  - assert (o = Wait 2) as -> by (eapply Hw; left; reflexivity). inversion Hs; subst.
    assert (E : exists u, In (LLin u (Wait 2) true) h).
    { destruct (Hr 1%nat (or_introl eq_refl)) as [E1|E1]; [|eauto]. destruct (Hr 2%nat (or_intror eq_refl)) as [E2|E2]; [|eauto].
      inversion E1; inversion E2; subst. discriminate. }
    destruct E as (u & Hu). assert (2 <= 3 - 2); [|lia]. eapply L; [exact H|exact Hu|].
    intros t' o' r' Hin. exists 2. split; [eapply Hw; right; exact Hin|lia].
Qed.

(** What holds when every wait asks for one unit (lock/unlock included): the history is that of a
    semaphore, and the units granted never exceed the initial quantity. Missing: wait(q), q <> 1. *)
Theorem C54_qsem_units_partial : forall n sched st h, 0 <= n -> run_qsem n sched = Some (st, h) -> unit_calls h ->
  exists l b, explains semaphore n l h b /\ (own st = None -> sh st = b) /\ outstanding l <= n.
Proof. exact qsem_units. Qed.
(** For every q, what the code does is linearizable: wait(q) waits for q units and takes one. *)
Theorem C54_qsem_linearizable_as_coded_partial : forall n sched st h, run_qsem n sched = Some (st, h) ->
  exists l b, explains unit_semaphore n l h b /\ (own st = None -> sh st = b).
Proof. exact qsem_impl. Qed.
Theorem C54_qsem_no_deadlock : forall n sched st h, run_qsem n sched = Some (st, h) -> ~ quiescent st ->
  ~ (forall t, exec geval aeval false body false t Go st = None).
Proof. exact qsem_progress. Qed.
(** No lost wake-up: when nothing is running, wait(q) is asleep only if fewer than q units are there. *)
Theorem C54_qsem_no_lost_wakeup : forall n sched st h, run_qsem n sched = Some (st, h) -> quiescent st ->
  forall t o c r d, thr st t = Asleep o c r d -> match o with Wait q => sh st < q | _ => False end.
Proof. exact qsem_sleepers. Qed.

Example C54_case : match run_qsem 1 ([(1%nat, Invoke (Wait 1))] ++ gos 1 5 ++ [(2%nat, Invoke (Wait 1))] ++ gos 2 2 ++ [(1%nat, Invoke (Signal 1))] ++ gos 1 5 ++ gos 2 5) with
  | Some (st, h) => sh st = 0 /\ h = [EInv 1%nat (Wait 1); ERet 1%nat (Wait 1) true; EInv 2%nat (Wait 1); EInv 1%nat (Signal 1); ERet 1%nat (Signal 1) true; ERet 2%nat (Wait 1) true]
  | None => False end.
Proof. vm_compute. auto. Qed.

Print Assumptions C54_qsem_overcommit_refuted.
Print Assumptions C54_qsem_units_partial.
Print Assumptions C54_qsem_linearizable_as_coded_partial.
Print Assumptions C54_qsem_no_deadlock.
Print Assumptions C54_qsem_no_lost_wakeup.
