(** What the tree must compute, in terms of the history of increments only. *)
From Verif Require Import Common.
Local Open Scope Z_scope.

(** Sum of all increments ever made to positions in [lo, hi]. *)
Fixpoint added (ops : list (Z * Z)) (lo hi : Z) : Z :=
  match ops with
  | [] => 0
  | (k, n) :: r => (if (lo <=? k) && (k <=? hi) then n else 0) + added r lo hi
  end.
