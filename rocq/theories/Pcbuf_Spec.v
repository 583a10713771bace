(** A bounded FIFO queue as a sequential object. *)
From Verif Require Import Common Monitor_Model Monitor_Spec Pcbuf_Model.

Section Spec.
  Context {T : Type} (cap : nat).
  Inductive fifo : list T -> op T -> ret T -> list T -> Prop :=
  | f_push : forall q v, length q < cap -> fifo q (Push v) RUnit (q ++ [v])
  | f_push_for : forall q v, length q < cap -> fifo q (Push_for v) (RBool true) (q ++ [v])
  | f_push_late : forall q v, fifo q (Push_for v) (RBool false) q
  | f_pop : forall q v, fifo (v :: q) Pop (RVal v) q
  | f_pop_for : forall q v, fifo (v :: q) Pop_for (RVal v) q
  | f_pop_late : forall q, fifo q Pop_for (RBool false) q
  | f_size : forall q, fifo q Size (RNum (length q)) q
  | f_empty : forall q b, (b = true <-> q = []) -> fifo q Empty (RBool b) q
  | f_clear : forall q, fifo q Clear RUnit [].

  (** The values that went in, and those that came out, in order. *)
  Definition went_in (e : levent (op T) (ret T)) : list T :=
    match e with LLin _ (Push v) _ => [v] | LLin _ (Push_for v) (RBool true) => [v] | _ => [] end.
  Definition came_out (e : levent (op T) (ret T)) : list T :=
    match e with LLin _ Pop (RVal v) => [v] | LLin _ Pop_for (RVal v) => [v] | _ => [] end.
  Definition not_clear (e : levent (op T) (ret T)) : Prop := match e with LLin _ Clear _ => False | _ => True end.
End Spec.
