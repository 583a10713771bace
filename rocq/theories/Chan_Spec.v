(** What a channel delivers, in terms of a log of the operations on all the duplicates. *)
From Verif Require Import Common Chan_Model.

Section Spec.
  Context {T : Type}.
  Notation event := (event T).
  (** In a log every call takes effect exactly once, between its call and its return, in the way the return says. *)
  Definition does (o : op T) (e : effect T) : Prop :=
    match o, e with
    | OWrite m, Wrote m' => m' = m
    | ORead c, Took c' _ => c' = c
    | OUnget c m, Ungot c' m' => c' = c /\ m' = m
    | ODup, Created _ => True
    | ODestroy c, Destroyed c' => c' = c
    | OSize c, Sized c' _ => c' = c
    | OEmpty c, Tested c' _ => c' = c
    | _, _ => False
    end.
  Inductive calls (t : tid) : list event -> option (op T * option (effect T)) -> Prop :=
  | calls_nil : calls t [] None
  | calls_other l x e : calls t l x -> (match e with Call u _ | Commit u _ | Ret u _ => u <> t end) -> calls t (l ++ [e]) x
  | calls_call l o : calls t l None -> calls t (l ++ [Call t o]) (Some (o, None))
  | calls_commit l o e : calls t l (Some (o, None)) -> does o e -> calls t (l ++ [Commit t e]) (Some (o, Some e))
  | calls_ret l o e : calls t l (Some (o, Some e)) -> calls t (l ++ [Ret t e]) None.
  Definition log_of (l h : list event) : Prop := List.filter visible l = h /\ forall t, exists x, calls t l x.

  (** The messages written while channel [c] existed, in the order of the log; channel 0 exists from the start. *)
  Fixpoint written_from (c : chan) (alive : bool) (l : list event) : list T :=
    match l with
    | [] => []
    | Commit _ (Wrote m) :: l => if alive then m :: written_from c alive l else written_from c alive l
    | Commit _ (Created d) :: l => written_from c (if Nat.eqb d c then true else alive) l
    | Commit _ (Destroyed d) :: l => written_from c (if Nat.eqb d c then false else alive) l
    | _ :: l => written_from c alive l
    end.
  Definition written (c : chan) (l : list event) : list T := written_from c (Nat.eqb c 0) l.

  (** The readers of [c] take the messages from the front of [q], and may put some back: what is left. *)
  Fixpoint reads (c : chan) (l : list event) (q rest : list T) : Prop :=
    match l with
    | [] => rest = q
    | Commit _ (Took d m) :: l => if Nat.eqb d c then exists q', q = m :: q' /\ reads c l q' rest else reads c l q rest
    | Commit _ (Ungot d m) :: l => if Nat.eqb d c then reads c l (m :: q) rest else reads c l q rest
    | _ :: l => reads c l q rest
    end.
  Definition unread (c : chan) (l : list event) (rest : list T) : Prop := reads c l (written c l) rest.

  (** What has reached channel [c] and is still there: everything unread, but perhaps not yet the message of a write that has not returned. *)
  Definition arrived (c : chan) (l : list event) (q : list T) : Prop :=
    unread c l q \/ exists u m, calls u l (Some (OWrite m, Some (Wrote m))) /\ unread c l (q ++ [m]).
  (** The answers of size() and empty() after the log [l] *)
  Definition answers (holds : chan -> list event -> list T -> Prop) (l : list event) (e : effect T) : Prop :=
    match e with
    | Sized c n => exists q, holds c l q /\ (Z.of_nat (length q) < 2 ^ 31 -> n = Z.of_nat (length q))%Z
    | Tested c b => exists q, holds c l q /\ (b = true <-> q = [])
    | _ => True
    end.
  Definition all_answers (holds : chan -> list event -> list T -> Prop) (l : list event) : Prop :=
    forall l1 t e l2, l = l1 ++ Commit t e :: l2 -> answers holds l1 e.

  (** Does [c] exist at the end of the log? *)
  Fixpoint alive_from (c : chan) (a : bool) (l : list event) : bool :=
    match l with
    | [] => a
    | Commit _ (Created d) :: l => alive_from c (if Nat.eqb d c then true else a) l
    | Commit _ (Destroyed d) :: l => alive_from c (if Nat.eqb d c then false else a) l
    | _ :: l => alive_from c a l
    end.
  Definition exists_in (c : chan) (l : list event) : Prop := alive_from c (Nat.eqb c 0) l = true.

  (** No thread that is inside a call can go on. *)
  Definition stuck (s : state T) : Prop := forall t, exec t Go s = None.
End Spec.
