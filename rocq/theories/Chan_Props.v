From Verif Require Import Common Chan_Model Chan_Spec Chan_Proof.

(** For every schedule there is one log of all the operations, in which each takes effect between
    its call and its return, such that on every channel the readers take exactly the messages
    written while the channel exists, in the order of the log, apart from those they put back;
    [rest] is what nobody has read yet.  If no thread can go on, those inside a call are readers
    of channels from which everything has been read: no wakeup is lost and nothing deadlocks. *)
Theorem C53_chan_delivery : forall (T : Type) (sched : list (tid * choice T)) s h, run sched = Some (s, h) ->
  exists l : list (event T), log_of l h /\ (forall c, exists rest, unread c l rest) /\
    (stuck s -> forall t, pcs s t = Idle \/ exists c, calls t l (Some (ORead c, None)) /\ unread c l []).
Proof.
  intros T sched s h E. destruct (chan_log sched s h E) as (l & L & U & _ & D). exists l. auto.
Qed.
(** size() and empty() tell how many messages are unread in the channel at their place in the log,
    except that the message of a write that has not returned may not be counted yet. *)
Theorem C114_answers_partial : forall (T : Type) (sched : list (tid * choice T)) s h, run sched = Some (s, h) ->
  exists l : list (event T), log_of l h /\ (forall c, exists rest, unread c l rest) /\ all_answers arrived l.
Proof.
  intros T sched s h E. destruct (chan_log sched s h E) as (l & L & U & A & D). exists l. auto.
Qed.
(** Channels that both exist receive the same messages in the same order from then on. *)
Theorem C53_same_order : forall (T : Type) (l1 l2 : list (event T)) c d, exists_in c l1 -> exists_in d l1 ->
  (forall t e, In (Commit t e) l2 -> e <> Destroyed c /\ e <> Destroyed d) ->
  exists ms, written c (l1 ++ l2) = written c l1 ++ ms /\ written d (l1 ++ l2) = written d l1 ++ ms.
Proof. exact @same_order. Qed.

(** Thread 1 writes 5, dups (channel 1), and writes 6; thread 2, asleep on channel 0, is woken and
    reads 5, then 6; thread 3 reads 6 from channel 1. *)
Definition ex_go (t n : nat) : list (tid * choice nat) := repeat (t, Go) n.
Definition ex_sched : list (tid * choice nat) :=
  (2, Invoke (ORead 0)) :: ex_go 2 3 ++ (1, Invoke (OWrite 5)) :: ex_go 1 7 ++ (1, Invoke ODup) :: ex_go 1 3
  ++ (1, Invoke (OWrite 6)) :: ex_go 1 12 ++ ex_go 2 4 ++ (3, Invoke (ORead 1)) :: ex_go 3 4 ++ (2, Invoke (ORead 0)) :: ex_go 2 4.
Example C53_nonvacuous : option_map snd (run ex_sched) =
  Some [Call 2 (ORead 0); Call 1 (OWrite 5); Ret 1 (Wrote 5); Call 1 ODup; Ret 1 (Created 1); Call 1 (OWrite 6); Ret 1 (Wrote 6);
        Ret 2 (Took 0 5); Call 3 (ORead 1); Ret 3 (Took 1 6); Call 2 (ORead 0); Ret 2 (Took 0 6)].
Proof. vm_compute. reflexivity. Qed.
Example C53_same_order_nonvacuous : exists_in 0 [Commit 1 (@Created nat 1)] /\ exists_in 1 [Commit 1 (@Created nat 1)].
Proof. split; reflexivity. Qed.
(** A reader can be left waiting: on an empty channel. *)
Example C53_stuck_reader : match run ((2, Invoke (ORead 0)) :: ex_go 2 3) with
  | Some (s, _) => pcs s 2 = RA 0 /\ exec 2 Go s = None | None => False end.
Proof. vm_compute. split; reflexivity. Qed.
(** The exception is needed: while thread 1 writes, thread 2 finds channel 1 not empty and then channel 0 empty, though
    nobody reads.  No order of the operations explains this. *)
Definition ex_tests : list (tid * choice nat) :=
  (1, Invoke ODup) :: ex_go 1 3 ++ (1, Invoke (OWrite 5)) :: ex_go 1 6 ++ (2, Invoke (OEmpty 1)) :: ex_go 2 3 ++ (2, Invoke (OEmpty 0)) :: ex_go 2 3.
Theorem C114_order_refuted : exists (sched : list (tid * choice nat)) s h, run sched = Some (s, h) /\
  forall l, log_of l h -> ~ all_answers unread l.
Proof.
  exists ex_tests. eexists. eexists. split; [vm_compute; reflexivity|]. intros l Hl A.
  apply (tests_refuted [Call 1 ODup; Ret 1 (Created 1); Call 1 (OWrite 5); Call 2 (OEmpty 1)] [Call 2 (OEmpty 0)] [] 2 1) with (l := l); [| |exact Hl|exact A].
  - cbn. intros o H D. destruct H as [H|[H|[H|[H|[H|[]]]]]]; try discriminate H. injection H as <-. discriminate D.
  - cbn. intros u o H. destruct H as [H|[H|[H|[H|[H|[H|[H|[]]]]]]]]; try discriminate H; injection H as <- <-; exact I.
Qed.
Example C114_nonvacuous : option_map snd (run ((1, Invoke (OWrite 5)) :: ex_go 1 7 ++ (1, Invoke (OSize 0)) :: ex_go 1 3 ++ (1, Invoke (OEmpty 0)) :: ex_go 1 3)) =
  Some [Call 1 (OWrite 5); Ret 1 (Wrote 5); Call 1 (OSize 0); Ret 1 (Sized 0 1); Call 1 (OEmpty 0); Ret 1 (Tested 0 false)].
Proof. vm_compute. reflexivity. Qed.
Print Assumptions C114_order_refuted.
Print Assumptions C53_chan_delivery.
Print Assumptions C53_same_order.
Print Assumptions C114_answers_partial.
