(** Conventions shared by all model files: bytes, string literals, outcomes. *)
From Coq Require Export List ZArith Lia Bool Arith.
From Coq Require Export ZifyBool ZifyNat ZifyN.
From Coq Require Ascii String.
Export (notations) String.
Export ListNotations.
Local Open Scope Z_scope.

(** Outcome of a piece of C++ code. [UB] is undefined behaviour, [Throw] an
    exception, [Fuel] means the model ran out of fuel (never a normal value). *)
Inductive outcome (A : Type) : Type :=
| Ok (a : A)
| Throw
| UB
| Fuel.
Arguments Ok {A} a.
Arguments Throw {A}.
Arguments UB {A}.
Arguments Fuel {A}.

Definition obind {A B} (x : outcome A) (f : A -> outcome B) : outcome B :=
  match x with Ok a => f a | Throw => Throw | UB => UB | Fuel => Fuel end.
Definition omap {A B} (f : A -> B) (x : outcome A) : outcome B :=
  match x with Ok a => Ok (f a) | Throw => Throw | UB => UB | Fuel => Fuel end.

Notation "'let*' x ':=' a 'in' b" := (obind a (fun x => b))
  (at level 200, x pattern, a at level 100, b at level 200, right associativity).

(** A byte is an integer in [0,256); a [std::string] is a list of bytes. *)
Definition is_byte (c : Z) : Prop := 0 <= c < 256.
Definition bytes (s : list Z) : Prop := Forall is_byte s.
Definition is_byteb (c : Z) : bool := (0 <=? c) && (c <? 256).
Definition bytesb (s : list Z) : bool := forallb is_byteb s.

(** C++ string and character literals. *)
Definition chr (a : Ascii.ascii) : Z := Z.of_nat (Ascii.nat_of_ascii a).
Fixpoint str (s : String.string) : list Z :=
  match s with
  | String.EmptyString => []
  | String.String a s' => chr a :: str s'
  end.

Definition range0 (n : nat) : list Z := map Z.of_nat (seq 0 n).
