(** Texts of addresses. *)
From Verif Require Import Common Cast_Spec.
Local Open Scope Z_scope.

Notation addr := (Z * Z * Z * Z)%type.
Definition byte (x : Z) : Prop := 0 <= x < 256.
Definition is_addr (a : addr) : Prop := let '(w, x, y, z) := a in byte w /\ byte x /\ byte y /\ byte z.
Definition no_addr : addr := (255, 255, 255, 255).
(** [dotted s w x y z rest]: s starts with four integers, with blanks and signs allowed before each, and a point right after each of the first three. *)
Definition dotted (s : list Z) (w x y z : Z) (rest : list Z) : Prop :=
  exists s1 s2 s3 n1 n2 n3 n4 m1 m2 m3 m4,
    leading s n1 m1 (46 :: s1) /\ leading s1 n2 m2 (46 :: s2) /\ leading s2 n3 m3 (46 :: s3) /\ leading s3 n4 m4 rest /\
    w = value n1 m1 /\ x = value n2 m2 /\ y = value n3 m3 /\ z = value n4 m4.
Definition is_int (x : Z) : Prop := - 2 ^ 31 <= x < 2 ^ 31.
