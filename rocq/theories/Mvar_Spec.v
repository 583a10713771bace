(** A one-place buffer as a sequential object. *)
From Verif Require Import Common Monitor_Model Monitor_Spec Mvar_Model.

Section Spec.
  Context {T : Type}.
  Inductive place : option T -> op T -> ret T -> option T -> Prop :=
  | p_take : forall v, place (Some v) Take (RVal v) None
  | p_put : forall v, place None (Put v) RUnit (Some v)
  | p_read : forall v, place (Some v) Read (RVal v) (Some v)
  | p_swap : forall v w, place (Some v) (Swap w) (RVal v) (Some w)
  | p_try_take : forall v, place (Some v) Try_take (RVal v) None
  | p_try_take_fail : place None Try_take (RBool false) None
  | p_try_put : forall v, place None (Try_put v) (RBool true) (Some v)
  | p_try_put_fail : forall v w, place (Some w) (Try_put v) (RBool false) (Some w)
  | p_empty : forall p b, (b = true <-> p = None) -> place p Empty (RBool b) p.
End Spec.
