(** A quantity semaphore as a sequential object: wait(q) takes q units when they are there. *)
From Verif Require Import Common Monitor_Model Monitor_Spec Qsem_Model.
Local Open Scope Z_scope.

Inductive semaphore : Z -> op -> bool -> Z -> Prop :=
| s_wait : forall n q, q <= n -> semaphore n (Wait q) true (n - q)
| s_signal : forall n q, semaphore n (Signal q) true (n + q).
(** What the code does: one unit is taken whatever [q] is. *)
Inductive unit_semaphore : Z -> op -> bool -> Z -> Prop :=
| u_wait : forall n q, q <= n -> unit_semaphore n (Wait q) true (n - 1)
| u_signal : forall n q, unit_semaphore n (Signal q) true (n + q).

(** Units granted minus units given back by the calls that have returned or taken effect. *)
Definition granted (e : levent op bool) : Z :=
  match e with LLin _ (Wait q) _ => q | LLin _ (Signal q) _ => - q | _ => 0 end.
Definition outstanding (l : list (levent op bool)) : Z := fold_right (fun e n => granted e + n) 0 l.
(** The history asks for single units only, and gives back no negative amounts. *)
Definition unit_call (o : op) : Prop := match o with Wait q => q = 1 | Signal q => 0 <= q end.
Definition unit_calls (h : list (event op bool)) : Prop := forall t o, In (EInv t o) h -> unit_call o.
