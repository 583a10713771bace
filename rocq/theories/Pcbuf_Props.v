(** C51: pcbuf is a linearizable bounded FIFO queue without lost wake-ups. *)
From Verif Require Import Common Monitor_Model Monitor_Spec Pcbuf_Model Pcbuf_Spec Pcbuf_Proof.

(** Every history of every schedule is that of a sequential bounded queue in which each call
    takes effect at one moment between its invocation and its return; at no such moment are
    there more than [cap] elements, and without clear() the elements come out exactly in the
    order in which they went in, none lost and none twice. *)
Theorem C51_pcbuf_linearizable : forall (T : Type) (cap : nat) sched st h, run_pcbuf (T := T) cap sched = Some (st, h) ->
  linearizable (fifo cap) [] h /\
  exists l b, explains (fifo cap) [] l h b /\ (own st = None -> sh st = b) /\
    length b <= cap /\ (forall t n, In (ERet t Size (RNum n)) h -> n <= cap) /\
    (Forall not_clear l -> flat_map went_in l = flat_map came_out l ++ b).
Proof. intros T cap sched st h E. destruct (pcbuf_linearizable cap sched st h E) as (l & b & H). split; [exists l, b; apply H|exists l, b; exact H]. Qed.
(** As long as some thread is neither idle nor asleep, some thread can go on. *)
Theorem C51_pcbuf_no_deadlock : forall (T : Type) (cap : nat) sched st h, run_pcbuf (T := T) cap sched = Some (st, h) ->
  ~ quiescent st -> ~ (forall t, exec (geval cap) aeval false body RUnit t Go st = None).
Proof. intros T. exact pcbuf_progress. Qed.
(** No lost wake-up: when nothing is running any more, a producer is asleep only if the
    buffer is full, a consumer only if it is empty. *)
Theorem C51_pcbuf_no_lost_wakeup : forall (T : Type) (cap : nat) sched st h, run_pcbuf (T := T) cap sched = Some (st, h) -> quiescent st ->
  forall t o c r d, thr st t = Asleep o c r d ->
    match o with Push _ | Push_for _ => cap <= length (sh st) | Pop | Pop_for => sh st = [] | _ => False end.
Proof. intros T. exact pcbuf_sleepers. Qed.

(** Two producers and a consumer on a buffer of capacity one: thread 1 pushes 10, thread 2
    finds the buffer full and sleeps, thread 3 pops and wakes it. *)
Definition sample : list (nat * choice (op nat)) :=
  [(1, Invoke (Push 10)); (2, Invoke (Push 20)); (1, Go); (1, Go); (1, Go); (1, Go); (1, Go); (1, Go);
   (2, Go); (2, Go); (3, Invoke Pop); (3, Go); (3, Go); (3, Go); (3, Go); (3, Go);
   (2, Go); (2, Go); (2, Go); (3, Go); (2, Go); (2, Go); (2, Go)].
Example C51_case : match run_pcbuf 1 sample with
  | Some (st, h) => sh st = [20] /\ own st = None /\
      h = [EInv 1 (Push 10); EInv 2 (Push 20); ERet 1 (Push 10) RUnit; EInv 3 Pop; ERet 3 Pop (RVal 10); ERet 2 (Push 20) RUnit]
  | None => False end.
Proof. vm_compute. auto. Qed.
Example C51_case_asleep : match run_pcbuf 1 (firstn 10 sample) with
  | Some (st, h) => thr st 2 = Asleep (Push 20) (CWaitWhile GFull (CAct (APush 20 RUnit) (CUnlock (CNotifyAll CRet)))) RUnit 1 /\ thr st 1 = Idle
  | None => False end.
Proof. vm_compute. auto. Qed.

Print Assumptions C51_pcbuf_linearizable.
Print Assumptions C51_pcbuf_no_deadlock.
Print Assumptions C51_pcbuf_no_lost_wakeup.
