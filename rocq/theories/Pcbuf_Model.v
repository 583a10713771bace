(** Model of src/concurrent/pcbuf.h.  The deque is a list, front first.  [Push_for] and
    [Pop_for] are the overloads with a timeout; when the deadline passes is left open. *)
From Verif Require Import Common Monitor_Model.

Section Pcbuf.
  Context {T : Type} (cap : nat).
  Inductive op := Push (v : T) | Push_for (v : T) | Pop | Pop_for | Size | Empty | Clear.
  (** [RUndef]: front()/pop_front() of an empty deque, which has no defined behaviour. *)
  Inductive ret := RUnit | RBool (b : bool) | RNum (n : nat) | RVal (v : T) | RUndef.
  Inductive guard := GFull | GEmpty.
  Inductive act := APush (v : T) (r : ret) | APop | ASize | AEmpty | AClear | AFail.

  (** q.size() >= cap (pcbuf.h:90,103), q.empty() (119,133) *)
  Definition geval (g : guard) (q : list T) : bool :=
    match g with GFull => cap <=? length q | GEmpty => match q with [] => true | _ => false end end.
  Definition aeval (a : act) (q : list T) (r : ret) : list T * ret :=
    match a with
    | APush v r' => (q ++ [v], r')                                                 (* 92, 108 *)
    | APop => match q with [] => ([], RUndef) | v :: q' => (q', RVal v) end          (* 121-122, 138-139 *)
    | ASize => (q, RNum (length q))                                                (* 59 *)
    | AEmpty => (q, RBool match q with [] => true | _ => false end)                (* 72 *)
    | AClear => ([], RUnit)                                                        (* 81 *)
    | AFail => (q, RBool false)                                                    (* 106, 136 *)
    end.

  Definition body (o : op) : code guard act :=
    match o with
    | Push v => CLock (CWaitWhile GFull (CAct (APush v RUnit) (CUnlock (CNotifyAll CRet))))     (* 86-96 *)
    | Push_for v => CLock (CWaitTimed GFull (CAct (APush v (RBool true)) (CUnlock (CNotifyAll CRet)))
                                            (CAct AFail (CUnlock CRet)))                         (* 98-113 *)
    | Pop => CLock (CWaitWhile GEmpty (CAct APop (CUnlock (CNotifyAll CRet))))                  (* 115-126 *)
    | Pop_for => CLock (CWaitTimed GEmpty (CAct APop (CUnlock (CNotifyAll CRet)))
                                          (CAct AFail (CUnlock CRet)))                           (* 128-144 *)
    | Size => CLock (CAct ASize (CUnlock CRet))                                                 (* 55-62 *)
    | Empty => CLock (CAct AEmpty (CUnlock CRet))                                               (* 68-75 *)
    | Clear => CLock (CAct AClear (CUnlock (CNotifyAll CRet)))                                  (* 77-84 *)
    end.

  (** pcbuf.h:150: a plain mutex. *)
  Definition run_pcbuf : list (nat * choice op) -> option (mstate (list T) guard act op ret * list (event op ret)) :=
    fun sched => run geval aeval false body RUnit sched (init []).
End Pcbuf.
Arguments op : clear implicits.
Arguments ret : clear implicits.
Arguments act : clear implicits.
