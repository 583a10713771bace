(** What locked blocks leave behind. *)
From Verif Require Import Common ScopedLock_Model.
Local Open Scope Z_scope.

(** Each lock that was had is given back once, after what happened in its block; an owned lockable is destroyed once, after that. *)
Inductive nested : list ev -> Prop :=
| n_nil : nested []
| n_act n r : nested r -> nested (EAct n :: r)
| n_ref_yes i t r : nested t -> nested r -> nested (ELock i Yes :: t ++ EUnlock i :: r)
| n_ref_no i a r : a <> Yes -> nested r -> nested (ELock i a :: r)
| n_own_yes i t r : nested t -> nested r -> nested (ENew i :: ELock i Yes :: t ++ EUnlock i :: EDelete i :: r)
| n_own_no i a t r : a <> Yes -> nested t -> nested r -> nested (ENew i :: ELock i a :: t ++ EDelete i :: r).
(** How often the lock i was had and not given back. *)
Fixpoint held (i : Z) (t : list ev) : Z :=
  match t with
  | [] => 0
  | ELock j Yes :: r => (if i =? j then 1 else 0) + held i r
  | EUnlock j :: r => (if i =? j then -1 else 0) + held i r
  | _ :: r => held i r
  end.
Definition subject (w : which) : option Z := match w with Ref i => Some i | Own o => o end.
(** The steps of the program stand in blocks synchronized on i. *)
Fixpoint guarded (i : Z) (p : stmt) : Prop :=
  match p with
  | Act _ => False
  | Raise | Return => True
  | Seq a b | Try a b => guarded i a /\ guarded i b
  | Scope w b e => (subject w = Some i \/ guarded i b) /\ guarded i e
  end.
(** The steps of a program whose locks are all had and which raises nothing. *)
Fixpoint steps (p : stmt) : list Z :=
  match p with
  | Act n => [n]
  | Raise | Return => []
  | Seq a b => steps a ++ steps b
  | Try a _ => steps a
  | Scope _ b _ => steps b
  end.
Fixpoint straight (p : stmt) : Prop :=
  match p with
  | Act _ => True
  | Raise | Return => False
  | Seq a b => straight a /\ straight b
  | Try a _ => straight a
  | Scope w b _ => subject w <> None /\ straight b
  end.
Definition acts (t : list ev) : list Z := flat_map (fun e => match e with EAct n => [n] | _ => [] end) t.
(** No unique_ptr given to scoped_lock is empty. *)
Fixpoint no_null (p : stmt) : Prop :=
  match p with
  | Act _ | Raise | Return => True
  | Seq a b | Try a b => no_null a /\ no_null b
  | Scope w b e => subject w <> None /\ no_null b /\ no_null e
  end.
(** How often the lockable i was made and not destroyed. *)
Fixpoint alive (i : Z) (t : list ev) : Z :=
  match t with
  | [] => 0
  | ENew j :: r => (if i =? j then 1 else 0) + alive i r
  | EDelete j :: r => (if i =? j then -1 else 0) + alive i r
  | _ :: r => alive i r
  end.
