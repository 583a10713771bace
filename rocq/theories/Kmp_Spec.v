(** Occurrences of a pattern in a text. *)
From Verif Require Import Common.

Definition occurs {A} (q text : list A) (n : nat) : Prop := exists a b, text = a ++ q ++ b /\ length a = n.

(** [r] is the least occurrence at or after [offset]; [None] means there is none. *)
Definition first_occurrence {A} (q text : list A) (offset : nat) (r : option nat) : Prop :=
  match r with
  | Some n => offset <= n /\ occurs q text n /\ forall m, offset <= m -> occurs q text m -> n <= m
  | None => forall m, offset <= m -> ~ occurs q text m
  end.

(** The number a search answers with: the first occurrence, or 2^64-1 if there is none. *)
Definition answers {A} (q text : list A) (offset : nat) (z : Z) : Prop :=
  exists r, first_occurrence q text offset r /\ z = match r with Some n => Z.of_nat n | None => (2 ^ 64 - 1)%Z end.
(** What a 32-bit signed count sees of a text. *)
Definition seen {A} (text : list A) : list A :=
  let m := (Z.of_nat (length text) mod 2 ^ 32)%Z in if (m <? 2 ^ 31)%Z then firstn (Z.to_nat m) text else [].
