(** Model of src/data/intern.h.  The hash map is an association list with unique
    keys; its iteration order is not modelled (see [reload]).  Ids are
    unbounded here, the code uses [int]. *)
From Verif Require Import Common.
Local Open Scope Z_scope.

Section Intern.
  Variable K : Type.
  Variable keq : forall a b : K, {a = b} + {a <> b}.

  (** intern.h:147-148 *)
  Record intern := mkIntern { tbl : list (K * Z); lbt : list K }.
  Definition intern_new : intern := mkIntern [] [].

  Fixpoint find (k : K) (t : list (K * Z)) : option Z :=
    match t with [] => None | (k', i) :: r => if keq k' k then Some i else find k r end.

  (** intern.h:57-74 *)
  Definition empty (s : intern) : bool := match tbl s with [] => true | _ => false end.
  Definition clear (s : intern) : intern := mkIntern [] [].
  Definition size (s : intern) : Z := Z.of_nat (length (tbl s)).

  (** intern.h:80-85 *)
  Definition key2id_nogen (s : intern) (k : K) : Z :=
    match find k (tbl s) with Some i => i | None => -1 end.

  (** intern.h:92-102; the new entry may land anywhere in the hash table. *)
  Definition key2id (s : intern) (k : K) (gen : bool) : Z * intern :=
    match find k (tbl s) with
    | Some i => (i, s)
    | None => if gen then let id := size s in (id, mkIntern ((k, id) :: tbl s) (lbt s ++ [k]))
              else (-1, s)
    end.

  (** intern.h:108-110; out of range is undefined. *)
  Definition id2key (s : intern) (id : Z) : outcome K :=
    if id <? 0 then UB else match nth_error (lbt s) (Z.to_nat id) with Some k => Ok k | None => UB end.

  (** intern.h:115-123 *)
  Definition exist_key (s : intern) (k : K) : bool :=
    match find k (tbl s) with Some _ => true | None => false end.
  Definition exist_id (s : intern) (id : Z) : bool := (0 <=? id) && (id <? Z.of_nat (length (lbt s))).

  Inductive iop := Key2id (k : K) (gen : bool) | Clear.
  Definition istep (s : intern) (o : iop) : Z * intern :=
    match o with Key2id k gen => key2id s k gen | Clear => (0, clear s) end.
  Fixpoint irun (ops : list iop) (s : intern) : list Z * intern :=
    match ops with
    | [] => ([], s)
    | o :: r => let (x, s1) := istep s o in let (xs, s2) := irun r s1 in (x :: xs, s2)
    end.

  (** intern.h:135-141, reading: the table is read back with its entries in some
      order [t], then [lbt] is rebuilt; [default] is the value-initialised key.
      An id outside the new vector is undefined. *)
  Fixpoint set_nth (l : list K) (i : nat) (k : K) : list K :=
    match l, i with
    | [], _ => []
    | _ :: r, O => k :: r
    | x :: r, S j => x :: set_nth r j k
    end.
  Fixpoint rebuild (t : list (K * Z)) (l : list K) : outcome (list K) :=
    match t with
    | [] => Ok l
    | (k, i) :: r => if (0 <=? i) && (i <? Z.of_nat (length l)) then rebuild r (set_nth l (Z.to_nat i) k) else UB
    end.
  Definition reload (default : K) (t : list (K * Z)) : outcome intern :=
    let* l := rebuild t (repeat default (length t)) in Ok (mkIntern t l).
End Intern.
Arguments mkIntern {K}. Arguments tbl {K}. Arguments lbt {K}. Arguments intern_new {K}.
Arguments Key2id {K}. Arguments Clear {K}. Arguments size {K}. Arguments id2key {K}. Arguments exist_id {K}. Arguments empty {K}.
