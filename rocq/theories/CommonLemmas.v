From Verif Require Import Common.
Local Open Scope Z_scope.

Ltac Zify.zify_post_hook ::= Z.div_mod_to_equations.

Lemma is_byteb_spec c : is_byteb c = true <-> is_byte c.
Proof. unfold is_byteb, is_byte; lia. Qed.

Lemma bytesb_spec s : bytesb s = true <-> bytes s.
Proof.
  unfold bytesb, bytes. rewrite forallb_forall, Forall_forall.
  split; intros H x Hx; apply is_byteb_spec; auto.
Qed.

Lemma range0_in n z : In z (range0 n) <-> 0 <= z < Z.of_nat n.
Proof.
  unfold range0. rewrite in_map_iff. split.
  - intros (k & Hk & Hin). apply in_seq in Hin. lia.
  - intros H. exists (Z.to_nat z). rewrite in_seq. lia.
Qed.

(** Lifting a finite sweep over all values below [n]. *)
Lemma sweep (P : Z -> bool) n :
  forallb P (range0 n) = true -> forall z, 0 <= z < Z.of_nat n -> P z = true.
Proof.
  intros H z Hz. rewrite forallb_forall in H. apply H. apply range0_in; lia.
Qed.

Lemma byte_sweep (P : Z -> bool) :
  forallb P (range0 256) = true -> forall z, is_byte z -> P z = true.
Proof. intros H z Hz. apply (sweep P 256 H). unfold is_byte in Hz. lia. Qed.

Lemma byte_sweep2 (P : Z -> Z -> bool) :
  forallb (fun a => forallb (P a) (range0 256)) (range0 256) = true ->
  forall a b, is_byte a -> is_byte b -> P a b = true.
Proof.
  intros H a b Ha Hb.
  pose proof (byte_sweep (fun a => forallb (P a) (range0 256)) H a Ha) as H'. cbv beta in H'.
  exact (byte_sweep (P a) H' b Hb).
Qed.

(** Induction in steps of two or more. *)
Lemma list_len_ind {A} (P : list A -> Prop) :
  (forall l, (forall l', (length l' < length l)%nat -> P l') -> P l) -> forall l, P l.
Proof.
  intros H l. remember (length l) as n eqn:En. revert l En.
  induction n as [n IH] using lt_wf_ind. intros l En. apply H. intros l' Hl.
  apply (IH (length l')); lia.
Qed.

(** ** Bit operations as arithmetic *)
Lemma lor_add a b k : 0 <= k -> 0 <= b < 2 ^ k -> Z.lor (a * 2 ^ k) b = a * 2 ^ k + b.
Proof.
  intros Hk Hb.
  rewrite <- Z.shiftl_mul_pow2 by lia.
  symmetry. rewrite Z.add_nocarry_lxor.
  - apply Z.bits_inj'. intros n Hn. rewrite Z.lxor_spec, Z.lor_spec.
    destruct (Z_lt_le_dec n k) as [Hlt|Hge].
    + rewrite Z.shiftl_spec_low by lia. now destruct (Z.testbit b n).
    + assert (Hbn : Z.testbit b n = false).
      { destruct (Z.eq_dec b 0) as [->|Hb0]; [apply Z.testbit_0_l|].
        apply Z.bits_above_log2; [lia|]. apply Z.log2_lt_pow2; [lia|].
        apply Z.lt_le_trans with (2 ^ k); [lia|]. apply Z.pow_le_mono_r; lia. }
      rewrite Hbn. now destruct (Z.testbit (Z.shiftl a k) n).
  - apply Z.bits_inj'. intros n Hn. rewrite Z.land_spec, Z.testbit_0_l.
    destruct (Z_lt_le_dec n k) as [Hlt|Hge].
    + rewrite Z.shiftl_spec_low by lia. reflexivity.
    + assert (Hbn : Z.testbit b n = false).
      { destruct (Z.eq_dec b 0) as [->|Hb0]; [apply Z.testbit_0_l|].
        apply Z.bits_above_log2; [lia|]. apply Z.log2_lt_pow2; [lia|].
        apply Z.lt_le_trans with (2 ^ k); [lia|]. apply Z.pow_le_mono_r; lia. }
      rewrite Hbn. now rewrite andb_false_r.
Qed.

Lemma lor_shiftl_add a b k : 0 <= k -> 0 <= b < 2 ^ k -> Z.lor (Z.shiftl a k) b = a * 2 ^ k + b.
Proof. intros. rewrite Z.shiftl_mul_pow2 by lia. now apply lor_add. Qed.

Lemma land_mod a k : 0 <= k -> Z.land a (2 ^ k - 1) = a mod 2 ^ k.
Proof. intros. rewrite <- Z.land_ones by lia. f_equal. rewrite Z.ones_equiv. lia. Qed.

Lemma bytes_app a b : bytes (a ++ b) <-> bytes a /\ bytes b.
Proof. unfold bytes. apply Forall_app. Qed.

Lemma bytes_cons a b : bytes (a :: b) <-> is_byte a /\ bytes b.
Proof. unfold bytes. split; [intros H; inversion H; auto|intros []; constructor; auto]. Qed.

Lemma bytes_nil : bytes [].
Proof. constructor. Qed.
