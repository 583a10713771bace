(** Model of src/data/fenwick_tree.h.  The element type is modelled by the
    integers; for a machine type all results are modulo its width. *)
From Verif Require Import Common.
Local Open Scope Z_scope.

(** fenwick_tree.h:43 *)
Definition fenwick_init (n : nat) : list Z := repeat 0 n.

(** v[i]; an index outside the vector is undefined. *)
Definition vget (v : list Z) (i : Z) : outcome Z :=
  if i <? 0 then UB else match nth_error v (Z.to_nat i) with Some x => Ok x | None => UB end.
Fixpoint upd (v : list Z) (i : nat) (x : Z) : list Z :=
  match v, i with
  | [], _ => []
  | _ :: r, O => x :: r
  | y :: r, S j => y :: upd r j x
  end.

(** fenwick_tree.h:45-47; the recursion strictly decreases [a]. *)
Fixpoint query_loop (fuel : nat) (v : list Z) (a : Z) : outcome Z :=
  if 0 <=? a then
    match fuel with
    | O => Fuel
    | S f => let* x := vget v a in
             let* r := query_loop f v (Z.land a (a + 1) - 1) in
             Ok (x + r)
    end
  else Ok 0.
Definition query (v : list Z) (a : Z) : outcome Z := query_loop (Z.to_nat (a + 1)) v a.

(** fenwick_tree.h:49-51 *)
Definition query2 (v : list Z) (a b : Z) : outcome Z :=
  let* y := query v b in let* x := query v (a - 1) in Ok (y - x).

(** fenwick_tree.h:53-58; the recursion strictly increases [k]. *)
Fixpoint increase_loop (fuel : nat) (v : list Z) (k n : Z) : outcome (list Z) :=
  if k <? Z.of_nat (length v) then
    match fuel with
    | O => Fuel
    | S f => let* x := vget v k in
             increase_loop f (upd v (Z.to_nat k) (x + n)) (Z.lor k (k + 1)) n
    end
  else Ok v.
Definition increase (v : list Z) (k n : Z) : outcome (list Z) :=
  increase_loop (length v) v k n.

(** A history of calls to [increase]. *)
Fixpoint increases (ops : list (Z * Z)) (v : list Z) : outcome (list Z) :=
  match ops with
  | [] => Ok v
  | (k, n) :: r => let* v' := increase v k n in increases r v'
  end.
