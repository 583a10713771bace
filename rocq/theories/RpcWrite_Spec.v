(** A connection of a server over which requests come one after another, and what is sent for them. *)
From Verif Require Import Common.

(** What is done with the stream for one request: bytes are put, and what was put is pushed out. *)
Inductive op := Put (d : list Z) | Push.
Definition text (o : op) : list Z := match o with Put d => d | Push => [] end.
(** All that should be sent for a request *)
Definition answer (ops : list op) : list Z := flat_map text ops.
(** A kind of request: what to send, and whether the connection is then given up, when all bytes of the request are there. *)
Definition protocol : Type := list Z -> option (list op * bool).
(** Requests have at least one byte, and answers are pushed out. *)
Definition sound (whole : protocol) : Prop :=
  whole [] = None /\ forall q ops stop, whole q = Some (ops, stop) -> exists o, ops = o ++ [Push].
(** A request that was carried out, and its answer *)
Definition event : Type := list Z * list op.
Definition wanted (log : list event) : list Z := flat_map (fun e => answer (snd e)) log.
Definition prefix (a b : list Z) : Prop := exists t, b = a ++ t.
