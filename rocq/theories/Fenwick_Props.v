(** C33: the Fenwick tree answers range sums over any history of increments. *)
From Verif Require Import Common Fenwick_Model Fenwick_Spec Fenwick_Proof.
Local Open Scope Z_scope.

(** No increment at a non-negative position fails (positions beyond the size are
    ignored), and every query in range is the sum of the increments in its range. *)
Theorem C33_fenwick_sums : forall n ops, Forall (fun p => 0 <= fst p) ops ->
  exists v, increases ops (fenwick_init n) = Ok v /\
    (forall a, -1 <= a < Z.of_nat n -> query v a = Ok (added ops 0 a)) /\
    (forall a b, 0 <= a <= b + 1 -> b < Z.of_nat n -> query2 v a b = Ok (added ops a b)).
Proof. exact fenwick_correct. Qed.

Example C33_case : let ops := [(0, 5); (3, -2); (6, 10); (3, 4); (7, 1); (9, 1)] in
  Forall (fun p => 0 <= fst p) ops /\
  (let* v := increases ops (fenwick_init 8) in query v 6) = Ok 17 /\
  (let* v := increases ops (fenwick_init 8) in query2 v 1 5) = Ok 2 /\ added ops 1 5 = 2.
Proof.
  split; [repeat apply Forall_cons; try apply Forall_nil; cbn; lia|]. vm_compute. auto.
Qed.
(** Outside the domain: a negative position or a query past the end is undefined. *)
Example C33_outside : increase (fenwick_init 3) (-1) 1 = UB /\ query (fenwick_init 3) 3 = UB.
Proof. vm_compute. auto. Qed.

Print Assumptions C33_fenwick_sums.
