(** Which values a C++ type has. *)
From Verif Require Import Common Archive_Model.
Local Open Scope Z_scope.

Definition small {A} (l : list A) : Prop := Z.of_nat (length l) < 2 ^ 32.
Definition in_range (n : nat) (sg : bool) (z : Z) : Prop :=
  if sg then - 2 ^ (8 * Z.of_nat n - 1) <= z < 2 ^ (8 * Z.of_nat n - 1) else 0 <= z < 2 ^ (8 * Z.of_nat n).

(** The keys, pairwise, in iteration order. *)
Definition ascending (ks : list val) : Prop := ForallOrdPairs (fun a b => vcmp a b = Lt) ks.
Definition distinct (ks : list val) : Prop := ForallOrdPairs (fun a b => vcmp a b <> Eq) ks.

(** [has_type t v]: [v] is a value of the C++ type [t]; containers have fewer than 2^32
    elements, ordered containers list their keys in increasing order. *)
Fixpoint has_type (t : ty) (v : val) : Prop :=
  match t with
  | TBool => exists b, v = VB b
  | TNum n sg => (n > 0)%nat /\ exists z, v = VN z /\ in_range n sg z
  | TStr => exists s, v = VS s /\ bytes s /\ small s
  | TSeq t => exists l, v = VL l /\ small l /\ Forall (has_type t) l
  | TArr n t => exists l, v = VL l /\ length l = n /\ Forall (has_type t) l
  | TPair a b => exists x y, v = VP x y /\ has_type a x /\ has_type b y
  | TSet t => exists l, v = VL l /\ small l /\ Forall (has_type t) l /\ ascending l
  | TUSet t => exists l, v = VL l /\ small l /\ Forall (has_type t) l /\ distinct l
  | TMap a b => exists l : list (val * val), v = VL (map (fun p => VP (fst p) (snd p)) l) /\ small l /\
      Forall (fun p => has_type a (fst p) /\ has_type b (snd p)) l /\ ascending (map fst l)
  | TUMap a b => exists l : list (val * val), v = VL (map (fun p => VP (fst p) (snd p)) l) /\ small l /\
      Forall (fun p => has_type a (fst p) /\ has_type b (snd p)) l /\ distinct (map fst l)
  end.

(** No std::set / unordered_set directly of an arithmetic type. *)
Definition arith (t : ty) : bool := match t with TBool | TNum _ _ => true | _ => false end.
Fixpoint no_arith_set (t : ty) : bool :=
  match t with
  | TBool | TNum _ _ | TStr => true
  | TSeq t | TArr _ t => no_arith_set t
  | TPair a b | TMap a b | TUMap a b => no_arith_set a && no_arith_set b
  | TSet t | TUSet t => negb (arith t) && no_arith_set t
  end.
