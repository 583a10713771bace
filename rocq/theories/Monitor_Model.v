(** A monitor: threads that share data protected by one pfi::concurrent mutex or r_mutex and
    one pfi::concurrent::condition (src/concurrent/{mutex,condition}.cpp), under every
    interleaving.  The bodies of the methods that use them (src/concurrent/{pcbuf,mvar,qsem}.h)
    are given as [code].  One instruction is one atomic step; that lock, unlock and wait may be
    taken as atomic is what Mutex_Props.v establishes about mutex.cpp and condition.cpp.
    Simplification: memory is sequentially consistent. *)
From Verif Require Import Common.

Section Monitor.
  (** Shared data, named tests of the data, named updates of the data, operations, results. *)
  Context {St Guard Act Op R : Type}.
  Context (geval : Guard -> St -> bool) (aeval : Act -> St -> R -> St * R).

  (** Method bodies. *)
  Inductive code :=
  | CLock (k : code)                         (* scoped_lock lock(m), lock.h:54-60 *)
  | CUnlock (k : code)                       (* its destructor, lock.h:70-77 *)
  | CWaitWhile (g : Guard) (k : code)        (* while (g) cond.wait(m) *)
  | CWaitTimed (g : Guard) (k kf : code)     (* while (g) if (second<=elapsed || !cond.wait(m,..)) kf *)
  | CIf (g : Guard) (k1 k2 : code)           (* if (g) k1 else k2, while holding m *)
  | CAct (a : Act) (k : code)                (* an update of the data and of the result *)
  | CNotifyAll (k : code)                    (* cond.notify_all() *)
  | CNotifyOne (k : code)                    (* cond.notify() *)
  | CRet.                                    (* return *)

  (** [recursive] distinguishes r_mutex from mutex; [body] is the code of each method and
      [r0] the result before one is stored. *)
  Context (recursive : bool) (body : Op -> code) (r0 : R).

  Inductive status :=
  | Idle
  | Run (o : Op) (c : code) (r : R)
  | Asleep (o : Op) (c : code) (r : R) (d : nat)   (* in pthread_cond_wait; d is the saved recursion count *)
  | Waking (o : Op) (c : code) (r : R) (d : nat).  (* woken, not yet holding the mutex again *)

  Record mstate := mkM { sh : St; own : option (nat * nat); thr : nat -> status }.
  Definition upd (f : nat -> status) (t : nat) (x : status) : nat -> status :=
    fun u => if Nat.eqb u t then x else f u.

  (** What the scheduler lets a thread do. *)
  Inductive choice :=
  | Invoke (o : Op)   (* an idle thread calls a method *)
  | Go                (* the next instruction *)
  | GoWake (w : nat)  (* cond.notify(), waking thread w *)
  | Timeout           (* a timed wait reaches its deadline *)
  | Spurious.         (* pthread_cond_wait may return without a notification *)

  Inductive event := EInv (t : nat) (o : Op) | ERet (t : nat) (o : Op) (r : R).

  Definition wake (x : status) : status :=
    match x with Asleep o c r d => Waking o c r d | _ => x end.
  Definition holds (st : mstate) (t : nat) : option nat :=
    match own st with Some (u, d) => if Nat.eqb u t then Some d else None | None => None end.

  Definition exec (t : nat) (ch : choice) (st : mstate) : option (mstate * list event) :=
    let run := fun o c r => mkM (sh st) (own st) (upd (thr st) t (Run o c r)) in
    match thr st t, ch with
    | Idle, Invoke o => Some (mkM (sh st) (own st) (upd (thr st) t (Run o (body o) r0)), [EInv t o])
    | Run o (CLock k) r, Go =>
        match own st with
        | None => Some (mkM (sh st) (Some (t, 1)) (upd (thr st) t (Run o k r)), [])
        | Some (u, d) => if recursive && Nat.eqb u t
                         then Some (mkM (sh st) (Some (t, S d)) (upd (thr st) t (Run o k r)), []) else None
        end
    | Run o (CUnlock k) r, Go =>
        match holds st t with
        | Some (S O) => Some (mkM (sh st) None (upd (thr st) t (Run o k r)), [])
        | Some (S d) => Some (mkM (sh st) (Some (t, d)) (upd (thr st) t (Run o k r)), [])
        | _ => None
        end
    | Run o (CWaitWhile g k) r, Go =>
        match holds st t with
        | Some d => if geval g (sh st) then Some (mkM (sh st) None (upd (thr st) t (Asleep o (CWaitWhile g k) r d)), [])
                    else Some (run o k r, [])
        | None => None
        end
    | Run o (CWaitTimed g k kf) r, Go =>
        match holds st t with
        | Some d => if geval g (sh st) then Some (mkM (sh st) None (upd (thr st) t (Asleep o (CWaitTimed g k kf) r d)), [])
                    else Some (run o k r, [])
        | None => None
        end
    | Run o (CWaitTimed g k kf) r, Timeout =>
        match holds st t with Some _ => if geval g (sh st) then Some (run o kf r, []) else None | None => None end
    | Run o (CIf g k1 k2) r, Go =>
        match holds st t with Some _ => Some (run o (if geval g (sh st) then k1 else k2) r, []) | None => None end
    | Run o (CAct a k) r, Go =>
        match holds st t with
        | Some _ => let (s, r') := aeval a (sh st) r in Some (mkM s (own st) (upd (thr st) t (Run o k r')), [])
        | None => None
        end
    | Run o (CNotifyAll k) r, Go => Some (mkM (sh st) (own st) (upd (fun u => wake (thr st u)) t (Run o k r)), [])
    | Run o (CNotifyOne k) r, Go => Some (run o k r, [])
    | Run o (CNotifyOne k) r, GoWake w =>
        if Nat.eqb w t then None
        else Some (mkM (sh st) (own st) (upd (upd (thr st) w (wake (thr st w))) t (Run o k r)), [])
    | Run o CRet r, Go => Some (mkM (sh st) (own st) (upd (thr st) t Idle), [ERet t o r])
    | Asleep o c r d, Spurious => Some (mkM (sh st) (own st) (upd (thr st) t (Waking o c r d)), [])
    | Asleep o (CWaitTimed g k kf) r d, Timeout => Some (mkM (sh st) (own st) (upd (thr st) t (Waking o kf r d)), [])
    | Waking o c r d, Go =>
        match own st with None => Some (mkM (sh st) (Some (t, d)) (upd (thr st) t (Run o c r)), []) | Some _ => None end
    | _, _ => None
    end.

  Definition init (s : St) : mstate := mkM s None (fun _ => Idle).

  (** The steps of a schedule; [None] when the schedule asks for a step that is not possible. *)
  Fixpoint run (sched : list (nat * choice)) (st : mstate) : option (mstate * list event) :=
    match sched with
    | [] => Some (st, [])
    | (t, ch) :: rest =>
        match exec t ch st with
        | None => None
        | Some (st1, e1) => match run rest st1 with None => None | Some (st2, e2) => Some (st2, e1 ++ e2) end
        end
    end.
End Monitor.
Arguments code : clear implicits.
Arguments status : clear implicits.
Arguments mstate : clear implicits.
Arguments choice : clear implicits.
Arguments event : clear implicits.
