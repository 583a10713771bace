(** C52: mvar is a linearizable one-place buffer without lost wake-ups. *)
From Verif Require Import Common Monitor_Model Monitor_Spec Mvar_Model Mvar_Spec Mvar_Proof.

(** Every history of every schedule is that of atomic operations on an optional value. *)
Theorem C52_mvar_linearizable : forall (T : Type) (p : option T) sched st h, run_mvar p sched = Some (st, h) ->
  linearizable place p h /\ exists l b, explains place p l h b /\ (own st = None -> sh st = b).
Proof. intros T p sched st h E. destruct (mvar_linearizable p sched st h E) as (l & b & H). split; exists l, b; apply H. Qed.
Theorem C52_mvar_no_deadlock : forall (T : Type) (p : option T) sched st h, run_mvar p sched = Some (st, h) ->
  ~ quiescent st -> ~ (forall t, exec geval aeval true body RUnit t Go st = None).
Proof. intros T. exact mvar_progress. Qed.
(** No lost wake-up: when nothing is running any more, take, read and swap are asleep only if
    the variable is empty, put only if it is full. *)
Theorem C52_mvar_no_lost_wakeup : forall (T : Type) (p : option T) sched st h, run_mvar p sched = Some (st, h) -> quiescent st ->
  forall t o c r d, thr st t = Asleep o c r d ->
    match o with Put _ => sh st <> None | Take | Read | Swap _ => sh st = None | _ => False end.
Proof. intros T. exact mvar_sleepers. Qed.

(** Thread 1 starts to swap an empty variable and sleeps; thread 2 puts 5; thread 1 wakes up
    and swaps; thread 3 reads the new value. *)
Definition gos (t n : nat) : list (nat * choice (op nat)) := repeat (t, Go) n.
Definition sample : list (nat * choice (op nat)) :=
  [(1, Invoke (Swap 7))] ++ gos 1 3 ++ [(2, Invoke (Put 5))] ++ gos 2 6 ++ gos 1 13 ++ [(3, Invoke Read)] ++ gos 3 5.
Example C52_case : match run_mvar None sample with
  | Some (st, h) => sh st = Some 7 /\ own st = None /\
      h = [EInv 1 (Swap 7); EInv 2 (Put 5); ERet 2 (Put 5) RUnit; ERet 1 (Swap 7) (RVal 5); EInv 3 Read; ERet 3 Read (RVal 7)]
  | None => False end.
Proof. vm_compute. auto. Qed.
Example C52_case_asleep : match run_mvar (T := nat) None ([(1, Invoke Take)] ++ gos 1 2) with
  | Some (st, h) => match thr st 1 with Asleep Take _ _ _ => sh st = None | _ => False end | None => False end.
Proof. vm_compute. auto. Qed.

Print Assumptions C52_mvar_linearizable.
Print Assumptions C52_mvar_no_deadlock.
Print Assumptions C52_mvar_no_lost_wakeup.
