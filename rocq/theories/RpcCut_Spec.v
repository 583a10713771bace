(** Replies of which only the first bytes arrive. *)
From Verif Require Import Common Archive_Model Rpc_Spec.
Local Open Scope Z_scope.

(** [p] are the first bytes of [b], not all of them. *)
Definition cut_of (p b : list Z) : Prop := exists q, q <> [] /\ b = p ++ q.
(** What a string of which [k] bytes arrive looks like: its size is written first, in four bytes; what is missing is NUL. *)
Definition remains (msg : list Z) (k : nat) : list Z :=
  if (k <? 4)%nat then [] else firstn (k - 4) msg ++ repeat 0 (length msg - (k - 4)).
Definition no_space (s : list Z) : Prop := Forall (fun c => ~ (c = 32 \/ 9 <= c <= 13)) s.
