(** What singleton<T>::instance() should do, told by what happens, in the order of time. *)
From Verif Require Import Common.

(** Thread [t] makes object [k]; the constructor of T throws; a call of [t] gives object [k], or ends with the exception. *)
Inductive event := Made (t k : nat) | Failed (t : nat) | Got (t k : nat) | Threw (t : nat).

(** One object at most is made, none fails once it is there, and every call that returns gives it; [cur] is the object. *)
Fixpoint single (cur : option nat) (l : list event) : Prop :=
  match l with
  | [] => True
  | Made _ k :: r => cur = None /\ single (Some k) r
  | Failed _ :: r => cur = None /\ single cur r
  | Got _ k :: r => cur = Some k /\ single cur r
  | Threw _ :: r => single cur r
  end.
(** A call ends with an exception only after the constructor threw one in its own thread: each is passed on once. *)
Fixpoint passed (t : nat) (pending : bool) (l : list event) : Prop :=
  match l with
  | [] => True
  | Failed t' :: r => if Nat.eqb t' t then pending = false /\ passed t true r else passed t pending r
  | Threw t' :: r => if Nat.eqb t' t then pending = true /\ passed t false r else passed t pending r
  | Got t' _ :: r => if Nat.eqb t' t then pending = false /\ passed t false r else passed t pending r
  | _ :: r => passed t pending r
  end.
(** The calls of [t] that have ended *)
Definition ended (t : nat) (l : list event) : nat :=
  length (flat_map (fun e => match e with Got t' _ | Threw t' => if Nat.eqb t' t then [tt] else [] | _ => [] end) l).
