(** C43: what is proved about ratio<T>. *)
From Coq Require Import QArith.
From Verif Require Import Common CommonLemmas NumText_Model Ratio_Spec Ratio_Model Ratio_Proof.
Local Open Scope Z_scope.

(** Every T: exact and in lowest terms, if T has all numbers up to twice the square of the largest operand. *)
Theorem C43_ratio_exact : forall fits a b, lowest a -> lowest b ->
  let B := Z.max (size a) (size b) in
  let ok := exact fits (2 * B * B) in
  ok (plus fits a b) (toQ a + toQ b)%Q /\ ok (minus fits a b) (toQ a - toQ b)%Q /\ ok (times fits a b) (toQ a * toQ b)%Q /\
  (~ (toQ b == 0)%Q -> ok (over fits a b) (toQ a / toQ b)%Q).
Proof.
  intros fits a b Ha Hb B ok. assert (Wa : within B a) by (unfold within, B, size; lia). assert (Wb : within B b) by (unfold within, B, size; lia).
  assert (HL : 2 * B * B <= 2 * B * B) by lia. unfold ok, exact. destruct Ha as [Ha1 Ha2] eqn:Ea, Hb as [Hb1 Hb2] eqn:Eb.
  assert (Hd : 0 < snd a * snd b) by nia.
  split; [|split; [|split]].
  - destruct (plus_res fits _ B HL a b Ha Hb Wa Wb) as (r & Hr & Hl). exists r. split; [apply Hl|]. split; [|exact Hr].
    rewrite (is_lowest_Q _ _ _ Hd Hl), (toQ_plus a b Ha1 Hb1). reflexivity.
  - destruct (minus_res fits _ B HL a b Ha Hb Wa Wb) as (r & Hr & Hl). exists r. split; [apply Hl|]. split; [|exact Hr].
    rewrite (is_lowest_Q _ _ _ Hd Hl), (toQ_minus a b Ha1 Hb1). reflexivity.
  - destruct (times_res fits _ B HL a b Ha Hb Wa Wb) as (r & Hr & Hl). exists r. split; [apply Hl|]. split; [|exact Hr].
    rewrite (is_lowest_Q _ _ _ Hd Hl), (toQ_mult a b Ha1 Hb1). reflexivity.
  - intros H0. assert (Hn : fst b <> 0).
    { intros E. apply H0. unfold Qeq, toQ. cbn [Qnum Qden]. rewrite E. reflexivity. }
    destruct (over_res fits _ B HL a b Ha Hb Wa Wb Hn) as (r & Hr & Hl). exists r. split; [apply Hl|]. split; [|exact Hr].
    now apply is_lowest_div.
Qed.
Theorem C43_ratio_make : forall fits n d, d <> 0 -> exact fits (Z.max (Z.abs n) (Z.abs d)) (make fits n d) (frac n d).
Proof.
  intros fits n d Hd. destruct (make_res fits (Z.max (Z.abs n) (Z.abs d)) n d Hd) as (r & Hr & Hl); [lia..|].
  exists r. split; [apply Hl|]. split; [now apply is_lowest_frac|exact Hr].
Qed.
Theorem C43_ratio_equal : forall a b, lowest a -> lowest b -> (equal a b = true <-> (toQ a == toQ b)%Q).
Proof.
  intros a b Ha Hb. unfold equal. rewrite andb_true_iff, !Z.eqb_eq. split.
  - intros [E1 E2]. unfold toQ. rewrite E1, E2. reflexivity.
  - intros E. assert (a = b) as ->; [|auto]. apply lowest_unique; try assumption.
    destruct Ha, Hb. unfold Qeq, toQ in E. cbn [Qnum Qden] in E. rewrite !Z2Pos.id in E by lia. exact E.
Qed.
Theorem C43_ratio_of_int : forall n, lowest (of_int n) /\ (toQ (of_int n) == inject_Z n)%Q.
Proof. intros n. split; [split; cbn; [lia|apply Z.gcd_1_r]|reflexivity]. Qed.
(** A zero denominator, or a division by zero, is undefined. *)
Theorem C43_ratio_zero : forall fits n, fits (Z.abs n) = true -> fits 0 = true -> make fits n 0 = UB.
Proof. intros fits n Hn H0. unfold make. change (0 <? 0) with false. cbn. unfold reduce, gcd, chk. cbn [fst snd obind]. rewrite Hn. cbn. rewrite H0. reflexivity. Qed.

(** The text printed for a fraction determines it: two results print the same exactly if they are the same rational number. *)
Theorem C43_ratio_print : forall r, ratio_text (print r) r.
Proof. intros r. exists (show_int (fst r)), (show_int (snd r)). split; [reflexivity|split; apply show_numeral]. Qed.
Theorem C43_ratio_print_inj : forall a b, lowest a -> lowest b -> (print a = print b <-> (toQ a == toQ b)%Q).
Proof.
  intros a b Ha Hb. rewrite <- (C43_ratio_equal a b Ha Hb). unfold equal. rewrite andb_true_iff, !Z.eqb_eq. split; [|now intros [E1 E2]; unfold print; rewrite E1, E2].
  intros E. apply (ratio_text_unique (print a) a b); [apply C43_ratio_print|rewrite E; apply C43_ratio_print].
Qed.
Example C43_print_case : print (-3, 10) = str "-3/10" /\ print (of_int 0) = str "0/1".
Proof. split; reflexivity. Qed.

Definition int32 (z : Z) : bool := (-2147483648 <=? z) && (z <=? 2147483647).
Example C43_ratio_nonvacuous : lowest (-3, 10) /\ lowest (7, 15) /\ ~ (toQ (7, 15)%Z == 0)%Q /\
  forall z, Z.abs z <= 2 * 15 * 15 -> int32 z = true.
Proof. split; [split; reflexivity|]. split; [split; reflexivity|]. split; [discriminate|]. unfold int32. intros z H. lia. Qed.
Example C43_case : make int32 6 (-20) = Ok (-3, 10) /\ plus int32 (-3, 10) (7, 15) = Ok (1, 6) /\ over int32 (-3, 10) (-7, 15) = Ok (9, 14) /\
  times int32 (65537, 1) (65537, 1) = UB /\ over int32 (1, 2) (0, 1) = UB /\ make int32 0 (-5) = Ok (0, 1).
Proof. repeat split; reflexivity. Qed.
Print Assumptions C43_ratio_exact.
Print Assumptions C43_ratio_make.
Print Assumptions C43_ratio_equal.
Print Assumptions C43_ratio_of_int.
Print Assumptions C43_ratio_zero.
Print Assumptions C43_ratio_print.
Print Assumptions C43_ratio_print_inj.
