(** C47: what is proved about byte order. *)
From Verif Require Import Common CommonLemmas Endian_Spec Endian_Model Endian_Proof.
Local Open Scope Z_scope.

(** Every type of at least one byte, every value, both kinds of machine. *)
Theorem C47_reverse : forall little t v, (0 < size t)%nat -> in_type (sgn t) (size t) v ->
  in_type (sgn t) (size t) (reverse little t v) /\
  little_order (size t) (reverse little t v) = big_order (size t) v /\
  reverse little t (reverse little t v) = v.
Proof.
  intros little t v Ht Hv. destruct (reverse_ok little t v Ht Hv) as [E H]. split; [exact H|]. split; [|now apply reverse_twice].
  unfold big_order. now rewrite !little_le.
Qed.
(** In the memory of a machine of either kind, to_big(v) has the most significant byte first, and so on. *)
Theorem C47_memory : forall little t v, (0 < size t)%nat -> in_type (sgn t) (size t) v ->
  store little (size t) (to_big little t v) = big_order (size t) v /\
  store little (size t) (to_little little t v) = little_order (size t) v.
Proof.
  intros little t v Ht Hv. destruct (reverse_ok little t v Ht Hv) as [E _]. unfold big_order. rewrite little_le.
  unfold to_big, to_little, is_big. rewrite is_little_ok. unfold store.
  destruct t as [s| | | | |s n]; [destruct little; split; reflexivity|..]; destruct little; cbn [negb]; rewrite ?E, ?rev_involutive; split; reflexivity.
Qed.
Theorem C47_inverse : forall little t v, (0 < size t)%nat -> in_type (sgn t) (size t) v ->
  from_big little t (to_big little t v) = v /\ to_big little t (from_big little t v) = v /\
  from_little little t (to_little little t v) = v /\ to_little little t (from_little little t v) = v.
Proof.
  intros little t v Ht Hv. pose proof (reverse_twice little t v Ht Hv) as E.
  unfold from_big, from_little, to_big, to_little. destruct t; auto; destruct (is_big little), (is_little little); auto.
Qed.
(** reverse(char*, int) *)
Theorem C47_array : forall p, reverse_array p (length p) = rev p.
Proof. apply reverse_array_rev. Qed.

Example C47_nonvacuous : in_type (sgn Int) (size Int) (-2147483648) /\ in_type (sgn (Other false 8)) 8 18446744073709551615.
Proof. split; cbn; lia. Qed.
Example C47_case : reverse true Int 305419896 = 2018915346 /\ reverse true Int (-2) = -16777217 /\ reverse true Short 128 = -32768 /\
  reverse false (Other true 8) 1 = 72057594037927936 /\ to_big true UInt 1 = 16777216 /\ to_big false UInt 1 = 1 /\
  reverse true (Other false 3) 1 = 65536.
Proof. repeat split; reflexivity. Qed.
Print Assumptions C47_reverse.
Print Assumptions C47_memory.
Print Assumptions C47_inverse.
Print Assumptions C47_array.
