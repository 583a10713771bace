(** Linearizability (Herlihy and Wing), and when a monitor has lost a wake-up. *)
From Verif Require Import Common Monitor_Model.

Section Lin.
  Context {St Op R : Type}.
  (** A sequential object: [seq a o r b] says that in state [a] operation [o] may return [r]
      and leave [b].  An operation with no such [r], [b] has to wait. *)
  Context (seq : St -> Op -> R -> St -> Prop).

  (** Histories with the moment at which each operation takes effect marked. *)
  Inductive levent := LInv (t : nat) (o : Op) | LLin (t : nat) (o : Op) (r : R) | LRet (t : nat) (o : Op) (r : R).
  Definition visible (e : levent) : list (event Op R) :=
    match e with LInv t o => [EInv t o] | LLin _ _ _ => [] | LRet t o r => [ERet t o r] end.
  Definition tid_of (e : levent) : nat := match e with LInv t _ => t | LLin t _ _ => t | LRet t _ _ => t end.
  Definition of_thread (t : nat) (h : list levent) : list levent := filter (fun e => Nat.eqb (tid_of e) t) h.
  (** A thread's own view: calls one after the other, each taking effect between its
      invocation and its return, with the result it returns. *)
  Inductive thread_ok (t : nat) : list levent -> Prop :=
  | tk_nil : thread_ok t []
  | tk_inv : forall o, thread_ok t [LInv t o]
  | tk_lin : forall o r, thread_ok t [LInv t o; LLin t o r]
  | tk_ret : forall o r h, thread_ok t h -> thread_ok t (LInv t o :: LLin t o r :: LRet t o r :: h).
  (** The effects, in order, are a run of the sequential object. *)
  Inductive legal : St -> list levent -> St -> Prop :=
  | lg_nil : forall a, legal a [] a
  | lg_inv : forall a t o h b, legal a h b -> legal a (LInv t o :: h) b
  | lg_ret : forall a t o r h b, legal a h b -> legal a (LRet t o r :: h) b
  | lg_lin : forall a t o r a1 h b, seq a o r a1 -> legal a1 h b -> legal a (LLin t o r :: h) b.
  Definition explains (a : St) (l : list levent) (h : list (event Op R)) (b : St) : Prop :=
    flat_map visible l = h /\ (forall t, thread_ok t (of_thread t l)) /\ legal a l b.
  Definition linearizable (a : St) (h : list (event Op R)) : Prop := exists l b, explains a l h b.
End Lin.
Arguments levent : clear implicits.

Section Wake.
  Context {St Guard Act Op R : Type}.
  Context (geval : Guard -> St -> bool).
  (** No thread is running: each is idle or asleep. *)
  Definition quiescent (st : mstate St Guard Act Op R) : Prop :=
    forall t, match thr st t with Idle | Asleep _ _ _ _ => True | _ => False end.
  (** The condition a sleeping thread waits to see falsified. *)
  Definition sleeps_on (st : mstate St Guard Act Op R) (t : nat) (g : Guard) : Prop :=
    exists o c r d, thr st t = Asleep o c r d /\
      match c with CWaitWhile g' _ => g' = g | CWaitTimed g' _ _ => g' = g | _ => False end.
  (** Nobody sleeps although what they wait for has come about. *)
  Definition nobody_left_asleep (st : mstate St Guard Act Op R) : Prop :=
    forall t g, sleeps_on st t g -> geval g (sh st) = true.
End Wake.
