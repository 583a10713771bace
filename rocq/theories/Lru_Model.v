(** Model of src/data/lru.h.  [std::map] is an association list with unique keys,
    [std::multiset] a list kept sorted by (time, key). *)
From Verif Require Import Common.
Local Open Scope Z_scope.

Section Lru.
  Variable K V : Type.
  Variable keq : forall a b : K, {a = b} + {a <> b}.
  Variable klt : K -> K -> bool.      (* operator< on keys, used to order the multiset *)
  Variable vdef : V.                  (* V() *)

  (** lru.h:117-120 *)
  Record lru := mkLru { max_size : Z; cur : Z; cache : list (K * (V * Z)); atime : list (Z * K) }.
  Definition lru_new (n : Z) : lru := mkLru n 0 [] [].

  (** std::map operations. *)
  Fixpoint mfind (k : K) (m : list (K * (V * Z))) : option (V * Z) :=
    match m with [] => None | (k', x) :: r => if keq k' k then Some x else mfind k r end.
  Fixpoint merase (k : K) (m : list (K * (V * Z))) : list (K * (V * Z)) :=
    match m with [] => [] | (k', x) :: r => if keq k' k then r else (k', x) :: merase k r end.
  Fixpoint mset (k : K) (x : V * Z) (m : list (K * (V * Z))) : list (K * (V * Z)) :=
    match m with [] => [(k, x)] | (k', y) :: r => if keq k' k then (k', x) :: r else (k', y) :: mset k x r end.

  (** std::multiset operations. *)
  Definition tk_lt (a b : Z * K) : bool :=
    (fst a <? fst b) || ((fst a =? fst b) && klt (snd a) (snd b)).
  Fixpoint tinsert (x : Z * K) (l : list (Z * K)) : list (Z * K) :=
    match l with [] => [x] | y :: r => if tk_lt x y then x :: l else y :: tinsert x r end.
  Definition terase (t : Z) (k : K) (l : list (Z * K)) : list (Z * K) :=
    filter (fun y => negb ((fst y =? t) && (if keq (snd y) k then true else false))) l.

  (** cur++ on a uint64_t *)
  Definition next (c : Z) : Z := (c + 1) mod 2 ^ 64.

  (** lru.h:59-61 *)
  Definition has (s : lru) (k : K) : bool := match mfind k (cache s) with Some _ => true | None => false end.

  (** lru.h:86-94 *)
  Definition touch (s : lru) (k : K) : lru :=
    match mfind k (cache s) with
    | None => s
    | Some (v, t) => mkLru (max_size s) (next (cur s)) (mset k (v, cur s) (cache s))
                           (tinsert (cur s, k) (terase t k (atime s)))
    end.

  (** lru.h:63-69 *)
  Definition get (s : lru) (k : K) : outcome V * lru :=
    match mfind k (cache s) with
    | Some _ => let s' := touch s k in
                (match mfind k (cache s') with Some (v, _) => Ok v | None => UB end, s')
    | None => (Throw, s)
    end.

  (** lru.h:74-79: one pass of the loop erases the begin() of the multiset, which
      must exist; the assert is modelled as undefined behaviour when it fails. *)
  Fixpoint evict (fuel : nat) (s : lru) : outcome lru :=
    if max_size s <=? Z.of_nat (length (cache s)) then
      match fuel with
      | O => Fuel
      | S f =>
          if (length (atime s) =? length (cache s))%nat then
            match atime s with
            | [] => UB
            | (_, k) :: r => evict f (mkLru (max_size s) (cur s) (merase k (cache s)) r)
            end
          else UB
      end
    else Ok s.

  (** lru.h:71-84 *)
  Definition set (s : lru) (k : K) (v : V) : outcome lru :=
    if has s k then Ok s else
    let* s1 := evict (S (length (cache s))) s in
    Ok (mkLru (max_size s1) (next (cur s1)) (mset k (v, cur s1) (cache s1)) (tinsert (cur s1, k) (atime s1))).

  (** lru.h:96-100; cache[key] creates a zero-initialised entry when absent. *)
  Definition remove (s : lru) (k : K) : lru :=
    let '(c, t) := match mfind k (cache s) with
                   | Some (_, t) => (cache s, t)
                   | None => (mset k (vdef, 0) (cache s), 0)
                   end in
    mkLru (max_size s) (cur s) (merase k c) (terase t k (atime s)).

  (** lru.h:102-105 *)
  Definition clear (s : lru) : lru := mkLru (max_size s) (cur s) [] [].

  (** lru.h:107-114, reading: x = c[k] *)
  Definition index (s : lru) (k : K) : outcome (V * lru) :=
    let* s1 := if has s k then Ok (touch s k) else set s k vdef in
    match mfind k (cache s1) with Some (v, _) => Ok (v, s1) | None => UB end.

  (** lru.h:107-114, writing through the reference: c[k] = v *)
  Definition assign (s : lru) (k : K) (v : V) : outcome lru :=
    let* (_, s1) := index s k in
    match mfind k (cache s1) with
    | Some (_, t) => Ok (mkLru (max_size s1) (cur s1) (mset k (v, t) (cache s1)) (atime s1))
    | None => UB
    end.

  (** Histories *)
  Inductive lop := Has (k : K) | Get (k : K) | Set_ (k : K) (v : V) | Touch (k : K) | Remove (k : K) | ClearAll
                 | Index (k : K) | Assign (k : K) (v : V).
  Inductive lres := RUnit | RBool (b : bool) | RVal (v : V) | RThrow.

  Definition lstep (s : lru) (o : lop) : outcome (lres * lru) :=
    match o with
    | Has k => Ok (RBool (has s k), s)
    | Get k => match get s k with
               | (Ok v, s') => Ok (RVal v, s')
               | (Throw, s') => Ok (RThrow, s')
               | (UB, _) => UB
               | (Fuel, _) => Fuel
               end
    | Set_ k v => let* s' := set s k v in Ok (RUnit, s')
    | Touch k => Ok (RUnit, touch s k)
    | Remove k => Ok (RUnit, remove s k)
    | ClearAll => Ok (RUnit, clear s)
    | Index k => let* (v, s') := index s k in Ok (RVal v, s')
    | Assign k v => let* s' := assign s k v in Ok (RUnit, s')
    end.
  Fixpoint lrun (ops : list lop) (s : lru) : outcome (list lres * lru) :=
    match ops with
    | [] => Ok ([], s)
    | o :: r => let* (x, s1) := lstep s o in let* (xs, s2) := lrun r s1 in Ok (x :: xs, s2)
    end.
End Lru.
Arguments mkLru {K V}. Arguments lru_new {K V}. Arguments Has {K V}. Arguments Get {K V}. Arguments Set_ {K V}.
Arguments Touch {K V}. Arguments Remove {K V}. Arguments ClearAll {K V}. Arguments Index {K V}. Arguments Assign {K V}.
Arguments RUnit {V}. Arguments RBool {V}. Arguments RVal {V}. Arguments RThrow {V}.
Arguments cache {K V}. Arguments atime {K V}. Arguments max_size {K V}. Arguments cur {K V}.
