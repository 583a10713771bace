(** What users of a MySQL connection may expect of its statements, over histories with the latest event first. *)
From Verif Require Import Common.
Local Open Scope Z_scope.

Definition text := list Z.
(** What the server answers to an execution: rows, done, refused, or the connection broke and nobody knows *)
Inductive answer (R : Type) := Rows (rows : list R) | Complete | Refused | Cut.
Arguments Rows {R}. Arguments Complete {R}. Arguments Refused {R}. Arguments Cut {R}.
Inductive event (A R V : Type) :=
| Prepared (h : nat) (q : text)                          (* the query q was accepted for the new statement h *)
| Ran (h : nat) (q : text) (args : list A) (a : answer R) (* on an execute of h the server ran q *)
| Got (h : nat) (v : V) | Bad (h : nat) | End_ (h : nat)  (* fetch_row of h: a row; a row that cannot be converted (an exception); false *)
| Asked (q : text).                                      (* the server was sent a command of the connection itself *)
Arguments Prepared {A R V}. Arguments Ran {A R V}. Arguments Got {A R V}. Arguments Bad {A R V}. Arguments End_ {A R V}. Arguments Asked {A R V}.
Section history.
Context {A R V : Type} (conv : R -> option V).
(** The rows h still has to give: those of its latest execution, less those given *)
Fixpoint pending (h : nat) (l : list (event A R V)) : list R :=
  match l with
  | [] => []
  | Ran k _ _ (Rows rs) :: r => if Nat.eqb k h then rs else pending h r
  | Ran k _ _ _ :: r => if Nat.eqb k h then [] else pending h r
  | Got k _ :: r | Bad k :: r => if Nat.eqb k h then tl (pending h r) else pending h r
  | _ :: r => pending h r
  end.
Fixpoint fetched (l : list (event A R V)) : Prop :=
  match l with
  | [] => True
  | Got h v :: r => (exists x, hd_error (pending h r) = Some x /\ conv x = Some v) /\ fetched r
  | Bad h :: r => (exists x, hd_error (pending h r) = Some x /\ conv x = None) /\ fetched r
  | End_ h :: r => pending h r = [] /\ fetched r
  | _ :: r => fetched r
  end.
(** Every statement runs its own query and no other. *)
Fixpoint own (l : list (event A R V)) : Prop :=
  match l with
  | [] => True
  | Ran h q _ _ :: r => In (Prepared h q) r /\ own r
  | Prepared h _ :: r => (forall q, ~ In (Prepared h q) r) /\ own r
  | _ :: r => own r
  end.
End history.
