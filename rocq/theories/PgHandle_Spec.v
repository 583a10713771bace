(** What a program owes libpq: every PGconn and PGresult it gets is given back once (PQfinish, PQclear), and used only in between.  Histories have the latest event first. *)
From Verif Require Import Common.
Local Open Scope nat_scope.

Inductive event := Take (h : nat) | Use (h : nat) | Release (h : nat).
Fixpoint takes (h : nat) (l : list event) : nat := match l with [] => 0 | Take k :: r => (if Nat.eqb k h then 1 else 0) + takes h r | _ :: r => takes h r end.
Fixpoint releases (h : nat) (l : list event) : nat := match l with [] => 0 | Release k :: r => (if Nat.eqb k h then 1 else 0) + releases h r | _ :: r => releases h r end.
Fixpoint proper (l : list event) : Prop :=
  match l with
  | [] => True
  | Take h :: r => takes h r = 0 /\ proper r
  | Use h :: r | Release h :: r => takes h r = 1 /\ releases h r = 0 /\ proper r
  end.
(** how many are not given back *)
Fixpoint taken (l : list event) : nat := match l with [] => 0 | Take _ :: r => S (taken r) | _ :: r => taken r end.
Fixpoint released (l : list event) : nat := match l with [] => 0 | Release _ :: r => S (released r) | _ :: r => released r end.
(** how many objects are not gone *)
Definition living {T} (l : list (option T)) : nat := length (filter (fun x => match x with Some _ => true | None => false end) l).
