(** Reference cache: entries from least to most recently used. *)
From Verif Require Import Common Lru_Model.
Local Open Scope Z_scope.

Section Spec.
  Variable K V : Type.
  Variable keq : forall a b : K, {a = b} + {a <> b}.
  Variable vdef : V.

  Fixpoint lookup (k : K) (l : list (K * V)) : option V :=
    match l with [] => None | (k', v) :: r => if keq k' k then Some v else lookup k r end.
  Definition drop (k : K) (l : list (K * V)) : list (K * V) :=
    filter (fun p => if keq (fst p) k then false else true) l.
  (** Most recently used goes last. *)
  Definition use (k : K) (v : V) (l : list (K * V)) : list (K * V) := drop k l ++ [(k, v)].
  (** Insert a new key, first making room by dropping the least recently used entry. *)
  Definition put (cap : Z) (k : K) (v : V) (l : list (K * V)) : list (K * V) :=
    (if cap <=? Z.of_nat (length l) then tl l else l) ++ [(k, v)].

  Definition ref_step (cap : Z) (l : list (K * V)) (o : lop K V) : lres V * list (K * V) :=
    match o with
    | Has k => (RBool (match lookup k l with Some _ => true | None => false end), l)
    | Get k => match lookup k l with Some v => (RVal v, use k v l) | None => (RThrow, l) end
    | Set_ k v => match lookup k l with Some _ => (RUnit, l) | None => (RUnit, put cap k v l) end
    | Touch k => match lookup k l with Some v => (RUnit, use k v l) | None => (RUnit, l) end
    | Remove k => (RUnit, drop k l)
    | ClearAll => (RUnit, [])
    | Index k => match lookup k l with Some v => (RVal v, use k v l) | None => (RVal vdef, put cap k vdef l) end
    | Assign k v => match lookup k l with Some _ => (RUnit, use k v l) | None => (RUnit, put cap k v l) end
    end.
  Fixpoint ref_run (cap : Z) (ops : list (lop K V)) (l : list (K * V)) : list (lres V) * list (K * V) :=
    match ops with
    | [] => ([], l)
    | o :: r => let (x, l1) := ref_step cap l o in let (xs, l2) := ref_run cap r l1 in (x :: xs, l2)
    end.
End Spec.
