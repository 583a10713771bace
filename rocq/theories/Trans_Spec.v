(** What a transaction is to do: all of its writes or none.  See src/database/util.h. *)
From Verif Require Import Common.
Local Open Scope Z_scope.

(** How a block ends: normally, by an exception, or with the program terminated (a destructor threw). *)
Inductive fin := Done | Thrown | Terminated.
(** The program's view: the writes which it ran in the block, each with whether run returned or threw. *)
Definition seen := list (Z * bool).
Definition done_writes (t : seen) : list Z := map fst (filter snd t).
Definition all_ok (t : seen) : Prop := Forall (fun p => snd p = true) t.

(** Atomic: what the database holds afterwards is what it held, and the writes that were reported as done if the block
    ended normally; nothing new if it did not. *)
Definition atomic (before after : list Z) (t : seen) (f : fin) : Prop :=
  match f with Done => after = before ++ done_writes t | _ => after = before end.
