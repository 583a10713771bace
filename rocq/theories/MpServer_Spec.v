(** What happens around a server with a pool of threads, and what may be asked of it.  Histories have the latest event first. *)
From Verif Require Import Common.
Local Open Scope Z_scope.

Inductive event :=
| Created (ok : bool)              (* create() returns *)
| Asked (n : nat)                  (* run() begins to make n threads *)
| Started (w : nat) | Ended (w : nat)   (* thread w begins to serve; has left *)
| Left (w : nat)                   (* thread w was detached: nobody will wait for it *)
| Running (ok : bool)              (* run() returns *)
| Failed                           (* run() could not make a thread, has waited for the others and returns false *)
| Thrown                           (* run() throws *)
| Joined                           (* join() returns *)
| Took (w : nat) (from : option nat)    (* thread w takes a connection of this server's listener number [from], or of somebody else's *)
| Shut_other.                      (* this server closes a descriptor that is not its own *)

(** join() returns only after every thread that began to serve, and was not left alone, has ended. *)
Definition waits (h : list event) : Prop :=
  forall after before w, h = after ++ Joined :: before -> In (Started w) before -> ~ In (Left w) before -> In (Ended w) before.
(** As many threads serve as were last asked for, or fewer. *)
Definition serving (h : list event) (w : nat) : Prop := In (Started w) h /\ ~ In (Ended w) h.
Fixpoint asked (h : list event) : nat := match h with [] => O | Asked n :: _ => n | _ :: r => asked r end.
Definition no_more (h : list event) : Prop := forall ws, NoDup ws -> Forall (serving h) ws -> (length ws <= asked h)%nat.
