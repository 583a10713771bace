(** What a remote procedure call should give, independently of the protocol. *)
From Verif Require Import Common Archive_Model Archive_Spec Cast_Spec.
Local Open Scope Z_scope.

(** How a registered function ends: it returns, throws an rpc_error, or throws anything else. *)
Inductive fres : Type := Ret (v : val) | Rpc_error | Other_exn.
(** A registered function with its C++ signature; [A] is the state of the application that the
    functions work on. *)
Record func (A : Type) : Type := { f_args : list ty; f_ret : ty; f_body : A -> list val -> A * fres }.
Arguments f_args {A}. Arguments f_ret {A}. Arguments f_body {A}.
(** The registered functions by name. *)
Definition service (A : Type) : Type := list (list Z * func A).

(** What the caller sees: a value or one of the exceptions of exception.h, or it never returns. *)
Inductive result : Type :=
| Value (v : val) | Not_found (name : list Z) | Mismatch (server client : Z) | Error (msg : list Z) | No_connection | Hangs.

(** A call: which client makes it, its version, the name, the argument and result types it was
    instantiated with, the arguments. *)
Record request : Type := { r_client : nat; r_ver : Z; r_name : list Z; r_args : list ty; r_ret : ty; r_vals : list val }.

(** [registered svc name f]: the function that name stands for (a later add replaces). *)
Definition registered {A} (svc : service A) (name : list Z) (f : func A) : Prop :=
  exists pre post, svc = pre ++ (name, f) :: post /\ ~ In name (map fst pre).

(** One call, as if the function were local. *)
Inductive answers {A} (ver : Z) (svc : service A) (a : A) (r : request) : A -> result -> Prop :=
| ans_value f a' v : registered svc (r_name r) f -> r_ver r = ver -> f_body f a (r_vals r) = (a', Ret v) ->
    answers ver svc a r a' (Value v)
| ans_unknown : (forall f, ~ registered svc (r_name r) f) -> answers ver svc a r a (Not_found (r_name r))
| ans_version f : registered svc (r_name r) f -> r_ver r <> ver -> answers ver svc a r a (Mismatch ver (r_ver r)).
(** A sequence of calls. *)
Inductive answers_all {A} (ver : Z) (svc : service A) : A -> list request -> A -> list result -> Prop :=
| ans_nil a : answers_all ver svc a [] a []
| ans_cons a r rs a1 x a2 xs : answers ver svc a r a1 x -> answers_all ver svc a1 rs a2 xs ->
    answers_all ver svc a (r :: rs) a2 (x :: xs).

(** Functions that always return a value of their result type. *)
Definition returns {A} (f : func A) : Prop := forall a vs, Forall2 has_type (f_args f) vs ->
  exists a' v, f_body f a vs = (a', Ret v) /\ has_type (f_ret f) v.
Definition int32 (z : Z) : Prop := - 2 ^ 31 <= z < 2 ^ 31.
Definition reserved : list (list Z) := [str "<<<PING>>>"; str "<<<EXIT>>>"].

(** The caller passes arguments of the types it names, which are those of the registered function
    if there is one; a name that is not registered has no white space. *)
Definition proper {A} (svc : service A) (r : request) : Prop :=
  bytes (r_name r) /\ Z.of_nat (length (r_name r)) < 2 ^ 32 - 9 /\ ~ In (r_name r) reserved /\ int32 (r_ver r) /\
  Forall2 has_type (r_args r) (r_vals r) /\
  (forall f, registered svc (r_name r) f -> f_args f = r_args r /\ f_ret f = r_ret r) /\
  ((forall f, ~ registered svc (r_name r) f) -> Forall (fun c => ~ blank c) (r_name r)).
