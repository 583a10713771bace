(** Lines and columns of a text, counted in characters. *)
From Verif Require Import Common.
Local Open Scope Z_scope.

Definition newline : Z := 10.

(** The characters behind the last newline. *)
Fixpoint last_line (cs : list Z) : list Z :=
  match cs with
  | [] => []
  | c :: r => if existsb (Z.eqb newline) r then last_line r else if c =? newline then r else c :: r
  end.
(** Where the character comes that follows the characters [cs]: line and column, both from 1. *)
Definition place (cs : list Z) : Z * Z :=
  (1 + Z.of_nat (length (filter (Z.eqb newline) cs)), 1 + Z.of_nat (length (last_line cs))).
