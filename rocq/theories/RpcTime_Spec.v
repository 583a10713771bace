(** What calls to a server with a timeout may give. *)
From Verif Require Import Common Archive_Model Archive_Spec Rpc_Spec.
Local Open Scope Z_scope.

(** What happens at a server with a timeout: a call in time; a call of which only some bytes have arrived when the server's patience ends; a connection
    that was quiet for too long between two calls. *)
Inductive act : Type := Call (r : request) | Late (arrived : nat) (r : request) | Quiet (client : nat).
(** The state of the application after it, and what the caller was told if there is one.  A call that was too late ends as one in time does, or with an
    error without text; in that case it may have been run only if it takes no arguments, and it is run as it should then. *)
Inductive served {A} (ver : Z) (svc : service A) (a : A) : act -> A -> list result -> Prop :=
| sv_call r a' x : answers ver svc a r a' x -> served ver svc a (Call r) a' [x]
| sv_quiet c : served ver svc a (Quiet c) a []
| sv_late n r a' x : answers ver svc a r a' x -> served ver svc a (Late n r) a' [x]
| sv_cut n r : served ver svc a (Late n r) a [Error []]
| sv_lost n r f a' v : registered svc (r_name r) f -> f_args f = [] -> f_body f a [] = (a', Ret v) -> served ver svc a (Late n r) a' [Error []].
Inductive served_all {A} (ver : Z) (svc : service A) : A -> list act -> A -> list result -> Prop :=
| sv_nil a : served_all ver svc a [] a []
| sv_cons a t ts a1 x a2 xs : served ver svc a t a1 x -> served_all ver svc a1 ts a2 xs -> served_all ver svc a (t :: ts) a2 (x ++ xs).
(** As Rpc_Spec.proper; and arguments of which a piece can be read safely (Archive_Spec). *)
Definition fine {A} (n : nat) (svc : service A) (t : act) : Prop :=
  match t with
  | Call r => (r_client r < n)%nat /\ proper svc r
  | Late _ r => (r_client r < n)%nat /\ proper svc r /\ Forall (fun t => no_arith_set t = true) (r_args r)
  | Quiet c => (c < n)%nat
  end.
