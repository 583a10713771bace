(** What belongs to whom: descriptors and mappings that are held by objects. *)
From Verif Require Import Common.
From Coq Require Import Permutation.
Local Open Scope Z_scope.

(** What is there is what was there before plus what the objects hold, nothing twice *)
Definition accounted {A : Type} (base held now : list A) : Prop := Permutation now (base ++ held) /\ NoDup now.
(** the bytes of a mapping *)
Definition within (m : Z * Z) (p : Z) : Prop := fst m <= p < fst m + snd m.
(** what an object with these members is responsible for *)
Definition descriptor (fd : Z) : list Z := if 0 <=? fd then [fd] else [].
Definition mapping (ptr len : Z) : list (Z * Z) := if ptr =? 0 then [] else [(ptr, len)].
