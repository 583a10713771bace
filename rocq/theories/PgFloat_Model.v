(** Model of src/database/postgresql/value.cpp:102-103: the cast that Pg_Model leaves open. *)
From Verif Require Import Common Double_Model LexFloat_Model.
Local Open Scope Z_scope.

(** value.cpp:103 lexical_cast<double>(p); the cast never gives an infinity (C111_sound). *)
Definition lexical_double (p : list Z) : outcome double :=
  match from_string p with Ok (Fin d) => Ok d | Ok _ => Throw | Throw => Throw | UB => UB | Fuel => Fuel end.
