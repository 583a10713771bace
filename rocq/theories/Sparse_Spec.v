(** Sparse matrices as lists of rows, a row being its columns with their values. *)
From Verif Require Import Common.
Local Open Scope Z_scope.

Definition row : Type := list (Z * Z).
(** what may be written: columns are ints, not negative; values are bytes.  INT_MAX is left out *)
Definition row_ok (r : row) : Prop := Forall (fun e => 0 <= fst e < 2 ^ 31 - 1 /\ 0 <= snd e < 256) r.
(** columns ascend, as in a std::map *)
Fixpoint ascending (r : row) : Prop := match r with [] => True | (c, _) :: r => Forall (fun e => c < fst e) r /\ ascending r end.
(** an entry takes at most 6 bytes: sizes up to here are ints *)
Definition fits (m : list row) : Prop := 6 * Z.of_nat (length (concat m)) < 2 ^ 31 /\ Z.of_nat (length m) < 2 ^ 31.
Definition entry (m : list row) (r c v : Z) : Prop := 0 <= r /\ exists l, nth_error m (Z.to_nat r) = Some l /\ In (c, v) l.
Definition matrix (m : list row) : Prop := Forall (fun r => row_ok r /\ ascending r) m.
