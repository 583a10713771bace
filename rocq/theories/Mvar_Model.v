(** Model of src/concurrent/mvar.h.  The shared_ptr is an optional value. *)
From Verif Require Import Common Monitor_Model.

Section Mvar.
  Context {T : Type}.
  Inductive op := Take | Put (v : T) | Read | Try_take | Try_put (v : T) | Swap (v : T) | Empty.
  (** [RUndef]: dereferencing the null pointer. *)
  Inductive ret := RUnit | RBool (b : bool) | RVal (v : T) | RUndef.
  Inductive guard := GNull | GFull.
  Inductive act := ATake | APut (v : T) | APutTrue (v : T) | APutKeep (v : T) | ARead | AFail | AEmpty.

  (** !p, p *)
  Definition geval (g : guard) (p : option T) : bool :=
    match g, p with GNull, None => true | GFull, Some _ => true | _, _ => false end.
  Definition aeval (a : act) (p : option T) (r : ret) : option T * ret :=
    match a with
    | ATake => (None, match p with Some v => RVal v | None => RUndef end)   (* ret = *p; p.reset(), mvar.h:60-61 *)
    | APut v => (Some v, RUnit)                                             (* p.reset(new T(r)), 74 *)
    | APutTrue v => (Some v, RBool true)                                    (* 113-118 *)
    | APutKeep v => (Some v, r)                                             (* put inside swap, 126 *)
    | ARead => (p, match p with Some v => RVal v | None => RUndef end)      (* 86 *)
    | AFail => (p, RBool false)                                             (* 98, 112 *)
    | AEmpty => (p, RBool match p with None => true | _ => false end)       (* 137 *)
    end.

  Definition body (o : op) : code guard act :=
    match o with
    | Take => CLock (CWaitWhile GNull (CAct ATake (CUnlock (CNotifyAll CRet))))        (* 53-66 *)
    | Put v => CLock (CWaitWhile GFull (CAct (APut v) (CUnlock (CNotifyAll CRet))))    (* 68-78 *)
    | Read => CLock (CWaitWhile GNull (CAct ARead (CUnlock CRet)))                     (* 80-91 *)
    | Try_take => CLock (CIf GNull (CAct AFail (CUnlock CRet))
                                   (CAct ATake (CUnlock (CNotifyAll CRet))))           (* 93-105 *)
    | Try_put v => CLock (CIf GFull (CAct AFail (CUnlock CRet))
                                    (CAct (APutTrue v) (CUnlock (CNotifyAll CRet))))   (* 107-118 *)
    | Swap v => CLock                                                                  (* 120-131 *)
        (CLock (CWaitWhile GNull (CAct ATake (CUnlock (CNotifyAll                      (* ret = take() *)
        (CLock (CWaitWhile GFull (CAct (APutKeep v) (CUnlock (CNotifyAll               (* put(r) *)
        (CUnlock (CNotifyAll CRet))))))))))))
    | Empty => CLock (CAct AEmpty (CUnlock CRet))                                      (* 133-142 *)
    end.

  (** mvar.h:146: an r_mutex.  [p] is the initial content (46-49). *)
  Definition run_mvar (p : option T) : list (nat * choice op) -> option (mstate (option T) guard act op ret * list (event op ret)) :=
    fun sched => run geval aeval true body RUnit sched (init p).
End Mvar.
Arguments op : clear implicits.
Arguments ret : clear implicits.
Arguments act : clear implicits.
