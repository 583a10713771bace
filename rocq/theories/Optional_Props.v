(** C36: optional. *)
From Verif Require Import Common Optional_Model Optional_Spec Optional_Proof.
From Coq Require Import ZArith.

(** Over every sequence of copies, assignments (also from a dereferenced optional),
    writes through * and swaps, the heap-based class behaves as independent values;
    it is undefined only where an empty optional is dereferenced, and every heap
    cell has exactly one owner (no leak, no sharing). *)
Theorem C36_optional_value_semantics : forall (T : Type) (ops : list (oop T)),
  match ref_run T ops (fun _ => None) with
  | Ok e => exists s, orun T ops opt_init = Ok s /\ (forall x, read T s x = Ok (e x)) /\ no_leak T s
  | r => orun T ops opt_init = UB /\ r = UB
  end.
Proof. exact optional_value_semantics. Qed.

(** If == and < of the elements form a total order, so do those of optional, with
    the empty value least, and the other four operators agree with them. *)
Theorem C36_optional_order : forall (T : Type) (eqb ltb : T -> T -> bool), total_order eqb ltb ->
  total_order (o_eq T eqb) (o_lt T ltb) /\
  (forall v, o_lt T ltb None (Some v) = true) /\
  (forall a b, o_ne T eqb a b = negb (o_eq T eqb a b)) /\
  (forall a b, o_gt T ltb a b = true <-> o_lt T ltb b a = true) /\
  (forall a b, o_le T ltb a b = true <-> o_lt T ltb a b = true \/ a = b) /\
  (forall a b, o_ge T ltb a b = true <-> o_gt T ltb a b = true \/ a = b).
Proof. exact optional_order. Qed.

Example C36_case : let ops := [AssignVal 0 5%Z; AssignOpt 1 0; Write 0 7%Z; AssignOpt 0 0; Swap 1 2; AssignDeref 3 0; Reset 0] in
  (let* e := ref_run Z ops (fun _ => None) in Ok (map e [0; 1; 2; 3]%nat)) = Ok [None; None; Some 5%Z; Some 7%Z] /\
  (let* s := orun Z ops opt_init in Ok (length (heap s))) = Ok 2%nat.
Proof. vm_compute. auto. Qed.
Example C36_order_case : total_order Z.eqb Z.ltb.
Proof. split; [apply Z.eqb_eq|]. split; [apply Z.ltb_irrefl|]. split; intros; lia. Qed.

Print Assumptions C36_optional_value_semantics.
Print Assumptions C36_optional_order.
