(** Random real numbers. *)
From Verif Require Import Common Double_Model Double_Spec.
Local Open Scope Z_scope.
(* From Double_Model only the data type [double] is used. *)

(** The value of a double in units of 2^-1074, an integer *)
Definition value (d : double) : Z := if dneg d then - mag d else mag d.
(** at least a and less than b; at least a and at most b *)
Definition in_open (a b x : double) : Prop := value a <= value x < value b.
Definition in_closed (a b x : double) : Prop := value a <= value x <= value b.
(** The difference of two doubles is beyond the largest double *)
Definition too_far (a b : double) : Prop := 2 ^ 1074 * (2 ^ 1024 - 2 ^ 970) <= Z.abs (value b - value a).
(** The results of normally distributed numbers come in pairs made of the same two draws: f makes the first and h the second. *)
Inductive in_pairs {A B : Type} (f h : A -> A -> B) (ok : A -> Prop) : list B -> Prop :=
| ip_nil : in_pairs f h ok []
| ip_half a b : ok a -> ok b -> in_pairs f h ok [f a b]
| ip_pair a b l : ok a -> ok b -> in_pairs f h ok l -> in_pairs f h ok (f a b :: h a b :: l).
