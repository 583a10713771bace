(** What the threads of a web server should do, told by what happens, in the order of time. *)
From Verif Require Import Common.

(** Worker [w] accepts connection [c] and closes it; CGI object [k], used by [w], begins and ends to work on [c]; a worker is started; calls of the owner return or throw *)
Inductive event :=
| Accepted (w c : nat) | Closed (w c : nat) | Begin (w k c : nat) | End (w k c : nat)
| Started (w : nat) | Returned | Threw | Destroyed | Terminated.

(** The connections of worker [w] come one after the other, each closed before the next is accepted; [cur] is the one it has. *)
Fixpoint in_turn (w : nat) (cur : option nat) (l : list event) : Prop :=
  match l with
  | [] => True
  | Accepted w' c :: r => if Nat.eqb w' w then cur = None /\ in_turn w (Some c) r else in_turn w cur r
  | Closed w' c :: r => if Nat.eqb w' w then cur = Some c /\ in_turn w None r else in_turn w cur r
  | Begin w' _ c :: r | End w' _ c :: r => if Nat.eqb w' w then cur = Some c /\ in_turn w cur r else in_turn w cur r
  | _ :: r => in_turn w cur r
  end.
(** CGI object [k] works on one connection at a time; [cur] is the one it works on. *)
Fixpoint alone (k : nat) (cur : option nat) (l : list event) : Prop :=
  match l with
  | [] => True
  | Begin _ k' c :: r => if Nat.eqb k' k then cur = None /\ alone k (Some c) r else alone k cur r
  | End _ k' c :: r => if Nat.eqb k' k then cur = Some c /\ alone k None r else alone k cur r
  | _ :: r => alone k cur r
  end.
(** Each connection is accepted once and worked on at most once. *)
Definition accepted (l : list event) : list nat := flat_map (fun e => match e with Accepted _ c => [c] | _ => [] end) l.
Definition begun (l : list event) : list nat := flat_map (fun e => match e with Begin _ _ c => [c] | _ => [] end) l.
Definition once (l : list event) : Prop := NoDup (accepted l) /\ NoDup (begun l).
(** Each worker has a CGI object of its own. *)
Definition own (l : list event) : Prop := forall w k c w' k' c', In (Begin w k c) l -> In (Begin w' k' c') l -> (w = w' <-> k = k').
Definition orderly (l : list event) : Prop := (forall w, in_turn w None l) /\ (forall k, alone k None l) /\ once l /\ own l.
Definition started (l : list event) : nat := length (flat_map (fun e => match e with Started w => [w] | _ => [] end) l).
(** The calls that returned, and that ended with an exception *)
Definition returned (l : list event) : nat := length (flat_map (fun e => match e with Returned => [tt] | _ => [] end) l).
Definition threw (l : list event) : nat := length (flat_map (fun e => match e with Threw => [tt] | _ => [] end) l).
