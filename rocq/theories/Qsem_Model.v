(** Model of src/concurrent/qsem.h.  Simplification: the int quantity is unbounded. *)
From Verif Require Import Common Monitor_Model.
Local Open Scope Z_scope.

Inductive op := Wait (q : Z) | Signal (q : Z).
Inductive guard := GLess (q : Z).
Inductive act := ADec | AAdd (q : Z).
(** quantity < q, qsem.h:57 *)
Definition geval (g : guard) (n : Z) : bool := match g with GLess q => n <? q end.
Definition aeval (a : act) (n : Z) (r : bool) : Z * bool :=
  match a with
  | ADec => (n - 1, true)       (* quantity--; return true, 59-60: one unit whatever q is *)
  | AAdd q => (n + q, true)     (* quantity += q, 70 *)
  end.
Definition body (o : op) : code guard act :=
  match o with
  | Wait q => CLock (CWaitWhile (GLess q) (CAct ADec (CUnlock CRet)))       (* 53-64 *)
  | Signal q => CLock (CAct (AAdd q) (CUnlock (CNotifyAll CRet)))           (* 66-76 *)
  end.
(** lock() is wait(1), unlock() is signal(1) (80-86). *)
Definition run_qsem (n : Z) : list (nat * choice op) -> option (mstate Z guard act op bool * list (event op bool)) :=
  fun sched => run geval aeval false body false sched (init n).
