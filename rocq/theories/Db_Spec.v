(** C++ values that go into and come out of statements. *)
From Verif Require Import Common Clock_Model.
Local Open Scope Z_scope.

Section spec.
Context {F : Type}. (* double *)
Inductive val := B (b : bool) | S_ (s : list Z) | I32 (n : Z) | I64 (n : Z) | D (d : F) | T_ (t : clock) | C_ (c : calendar).
Inductive ty := TB | TS | T32 | T64 | TD | TT | TC.
Definition type_of (v : val) : ty := match v with B _ => TB | S_ _ => TS | I32 _ => T32 | I64 _ => T64 | D _ => TD | T_ _ => TT | C_ _ => TC end.
Definition int32 (n : Z) : Prop := - 2 ^ 31 <= n < 2 ^ 31.
Definition int64 (n : Z) : Prop := - 2 ^ 63 <= n < 2 ^ 63.
Definition in_type (v : val) : Prop := match v with I32 n => int32 n | I64 n => int64 n | _ => True end.
End spec.
Arguments val : clear implicits.
