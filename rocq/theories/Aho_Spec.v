(** Occurrences of the words of a dictionary in a text. *)
From Verif Require Import Common.
Local Open Scope Z_scope.

(** [w] occurs in [text] and its last byte is the [e]-th. *)
Definition occurs (text w : list Z) (e : Z) : Prop := exists a b, text = a ++ w ++ b /\ e = Z.of_nat (length a + length w).
(** Word number [k] of the dictionary. *)
Definition word_at (words : list (list Z)) (k : Z) (w : list Z) : Prop := 0 <= k /\ nth_error words (Z.to_nat k) = Some w.
(** The number a word is reported by: the first of its places in the dictionary. *)
Definition id_of (words : list (list Z)) (w : list Z) (k : Z) : Prop := word_at words k w /\ forall k', word_at words k' w -> k <= k'.
(** Words made of bytes other than NUL. *)
Definition nul_free (w : list Z) : Prop := Forall (fun c => 1 <= c < 256) w.
