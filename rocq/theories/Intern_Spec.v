(** Reference: the list of interned keys in the order they were first seen. *)
From Verif Require Import Common Intern_Model.
Local Open Scope Z_scope.

Section Spec.
  Variable K : Type.
  Variable keq : forall a b : K, {a = b} + {a <> b}.

  (** Position of a key, -1 if absent. *)
  Fixpoint pos_from (i : Z) (k : K) (l : list K) : Z :=
    match l with [] => -1 | x :: r => if keq x k then i else pos_from (i + 1) k r end.
  Definition pos := pos_from 0.

  Definition ref_step (l : list K) (o : iop K) : Z * list K :=
    match o with
    | Clear => (0, [])
    | Key2id k gen =>
        if in_dec keq k l then (pos k l, l)
        else if gen then (Z.of_nat (length l), l ++ [k]) else (-1, l)
    end.
  Fixpoint ref_run (ops : list (iop K)) (l : list K) : list Z * list K :=
    match ops with
    | [] => ([], l)
    | o :: r => let (x, l1) := ref_step l o in let (xs, l2) := ref_run r l1 in (x :: xs, l2)
    end.

  (** What a caller can observe of a table holding the keys [l]. *)
  Definition shows (s : intern K) (l : list K) : Prop :=
    NoDup l /\
    size s = Z.of_nat (length l) /\
    empty s = (Z.of_nat (length l) =? 0) /\
    (forall k, key2id_nogen K keq s k = pos k l) /\
    (forall k, exist_key K keq s k = true <-> In k l) /\
    (forall id, exist_id s id = true <-> 0 <= id < Z.of_nat (length l)) /\
    (forall id k, id2key s id = Ok k <-> 0 <= id /\ nth_error l (Z.to_nat id) = Some k) /\
    (forall k id, 0 <= key2id_nogen K keq s k -> (key2id_nogen K keq s k = id <-> id2key s id = Ok k)).
End Spec.
