(** Value semantics: variables directly hold optional values. *)
From Verif Require Import Common Optional_Model.

Section Spec.
  Variable T : Type.
  Definition vset (e : nat -> option T) (x : nat) (v : option T) : nat -> option T :=
    fun y => if (y =? x)%nat then v else e y.

  Definition ref_step (e : nat -> option T) (o : oop T) : outcome (nat -> option T) :=
    match o with
    | Reset x => Ok (vset e x None)
    | AssignOpt x y => Ok (vset e x (e y))
    | AssignVal x v => Ok (vset e x (Some v))
    | AssignDeref x y => match e y with Some v => Ok (vset e x (Some v)) | None => UB end
    | Write x v => match e x with Some _ => Ok (vset e x (Some v)) | None => UB end
    | Swap x y => Ok (vset (vset e x (e y)) y (e x))
    end.
  Fixpoint ref_run (ops : list (oop T)) (e : nat -> option T) : outcome (nat -> option T) :=
    match ops with [] => Ok e | o :: r => let* e' := ref_step e o in ref_run r e' end.

  (** Every live heap cell belongs to exactly one variable. *)
  Definition no_leak (s : st T) : Prop :=
    NoDup (map fst (heap s)) /\
    forall l, In l (map fst (heap s)) <-> exists x, env s x = Some l /\ forall y, env s y = Some l -> y = x.

  (** Strict total order consistent with equality. *)
  Definition total_order {A} (eqb ltb : A -> A -> bool) : Prop :=
    (forall a b, eqb a b = true <-> a = b) /\
    (forall a, ltb a a = false) /\
    (forall a b c, ltb a b = true -> ltb b c = true -> ltb a c = true) /\
    (forall a b, ltb a b = true \/ a = b \/ ltb b a = true).
End Spec.
