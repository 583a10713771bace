(** Holding a mutex, read off the calls and returns of its methods. *)
From Verif Require Import Common Mutex_Model.

(** How many times [t] has locked and not yet unlocked. *)
Definition count (t : tid) (e : event) (n : nat) : nat :=
  match e with
  | Locked u => if Pos.eqb u t then S n else n
  | Unlocked u true => if Pos.eqb u t then pred n else n
  | _ => n
  end.
Definition depth (t : tid) (h : list event) : nat := fold_left (fun n e => count t e n) h 0.
(** [t] has called wait and not returned from it. *)
Definition wait_flag (t : tid) (e : event) (b : bool) : bool :=
  match e with Wait u => if Pos.eqb u t then true else b | Waited u _ => if Pos.eqb u t then false else b | _ => b end.
Definition waiting (t : tid) (h : list event) : bool := fold_left (fun b e => wait_flag t e b) h false.
Definition holds (t : tid) (h : list event) : Prop := 0 < depth t h /\ waiting t h = false.

(** The rule for a plain mutex: only the thread that has locked it unlocks it. *)
Definition disciplined (h : list event) : Prop := forall h1 t h2, h = h1 ++ Unlock t :: h2 -> 0 < depth t h1.
