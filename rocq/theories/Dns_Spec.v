(** What a history of a caching resolver shows, and when it is right.  Independent of how the cache is kept. *)
From Verif Require Import Common.
Local Open Scope Z_scope.

Definition key : Type := list Z * Z. (* host and port *)
(** Answered k t a: a call that read the clock as t asked the resolver about k and got a.  Returned k t a: such a call returned a. *)
Inductive event := Answered (k : key) (t : Z) (a : list Z) | Returned (k : key) (t : Z) (a : list Z).
(** Histories have the newest event first. *)
Definition from_resolver (h : list event) : Prop :=
  forall new old k t a, h = new ++ Returned k t a :: old -> exists t0, In (Answered k t0 a) old.
Definition never_stale (expire : Z) (h : list event) : Prop :=
  forall new old k t a, h = new ++ Returned k t a :: old -> exists t0, In (Answered k t0 a) old /\ (t = t0 \/ t - t0 < expire).
(** The latest call about k returned a and had read the clock as t. *)
Definition last_use (h : list event) (k : key) (t : Z) (a : list Z) : Prop :=
  exists new old, h = new ++ Returned k t a :: old /\ forall t' a', ~ In (Returned k t' a') new.
