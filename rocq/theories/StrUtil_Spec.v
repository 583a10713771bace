(** What the string utilities compute. *)
From Verif Require Import Common.
Local Open Scope Z_scope.

(** The pieces with the separator between them. *)
Fixpoint interleave (sep : list Z) (xs : list (list Z)) : list Z :=
  match xs with [] => [] | [x] => x | x :: r => x ++ sep ++ interleave sep r end.

(** [p] occurs in [s] after [n] characters. *)
Definition occurs_at (p s : list Z) (n : nat) : Prop := exists a b, s = a ++ p ++ b /\ length a = n.

(** [xs] are the pieces of [s] between its leftmost, non-overlapping occurrences of [sep]. *)
Inductive pieces (sep : list Z) : list Z -> list (list Z) -> Prop :=
| pc_last s : (forall n, ~ occurs_at sep s n) -> pieces sep s [s]
| pc_cons a r xs : (forall n, occurs_at sep (a ++ sep ++ r) n -> (length a <= n)%nat) ->
    pieces sep r xs -> pieces sep (a ++ sep ++ r) (a :: xs).

(** Blank characters of the C locale: space, \t \n \v \f \r. *)
Definition blank (c : Z) : Prop := c = 32 \/ c = 9 \/ c = 10 \/ c = 11 \/ c = 12 \/ c = 13.
Definition no_leading_blank (s : list Z) : Prop := match s with [] => True | c :: _ => ~ blank c end.
