(** Edit distance, common subsequences and increasing subsequences, from first principles. *)
From Verif Require Import Common.

(** One insertion, deletion or replacement of a single element. *)
Definition edit1 {A} (a b : list A) : Prop := exists p s x y,
  (a = p ++ x :: s /\ b = p ++ y :: s) \/ (a = p ++ s /\ b = p ++ y :: s) \/ (a = p ++ x :: s /\ b = p ++ s).
(** [n] successive edits lead from [a] to [b]. *)
Fixpoint edits {A} (n : nat) (a b : list A) : Prop :=
  match n with O => a = b | S m => exists c, edits m a c /\ edit1 c b end.
Definition least_edits {A} (a b : list A) (n : nat) : Prop := edits n a b /\ forall m, edits m a b -> n <= m.

(** [s] is obtained from [l] by deleting elements. *)
Inductive subseq {A} : list A -> list A -> Prop :=
  | sub_nil : subseq [] []
  | sub_take x s l : subseq s l -> subseq (x :: s) (x :: l)
  | sub_skip x s l : subseq s l -> subseq s (x :: l).
Definition longest_common {A} (a b : list A) (n : nat) : Prop :=
  (exists s, subseq s a /\ subseq s b /\ length s = n) /\ forall s, subseq s a -> subseq s b -> length s <= n.

(** Strictly increasing lists of integers. *)
Fixpoint increasing (l : list Z) : Prop :=
  match l with
  | [] => True
  | x :: r => match r with [] => True | y :: _ => (x < y)%Z end /\ increasing r
  end.
Definition longest_increasing (a : list Z) (n : nat) : Prop :=
  (exists s, subseq s a /\ increasing s /\ length s = n) /\ forall s, subseq s a -> increasing s -> length s <= n.

Definition int32 (x : Z) : Prop := (- 2147483648 <= x <= 2147483647)%Z.
