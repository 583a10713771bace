(** JSON archives: what is put comes out again. *)
From Verif Require Import Common Json_Model Json_Spec.
Local Open Scope Z_scope.
(* Of Json_Model only the type [json] is used. *)

(** What a get can answer: a value, an exception for a value of another kind, for malformed text or for the end of the stream, anything else. *)
Inductive answer (A : Type) := AValue (a : A) | ABadCast | AMalformed | AEnd | AWrong.
Arguments AValue {A} a. Arguments ABadCast {A}. Arguments AMalformed {A}. Arguments AEnd {A}. Arguments AWrong {A}.
(** Values that can be kept: no floating numbers, strings of UTF-8 without U+0000 *)
Definition keepable (j : json) : Prop := value no_floats j /\ holds text j.
