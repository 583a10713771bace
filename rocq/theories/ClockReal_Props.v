(** C113: clock times as doubles. *)
From Verif Require Import Common CommonLemmas Double_Model Double_Spec LexFloat_Model RandReal_Spec RandReal_Model RandReal_Proof.
From Verif Require Import Clock_Spec Clock_Model Clock_Proof ClockReal_Spec ClockReal_Model ClockReal_Proof.
Local Open Scope Z_scope.

(** Up to the year 2242 the double of a clock time, normalised or not, determines the microseconds. *)
Theorem C113_value_partial c : valid c -> 0 <= instant c < 2 ^ 33 * million -> exists d, to_real c = Fin d /\ is_double d /\ stands_for d (instant c).
Proof. intros V I. destruct (real_near c V I) as (d & E & Hd & R). exists d. split; [ exact E | ]. split; [ exact Hd | exact (near_only d _ R) ]. Qed.
(** So ==, !=, >, <= and >=, which compare the doubles, agree with the instants and with operator<. *)
Theorem C113_compare_partial a b : normal a -> normal b -> fst a < 2 ^ 33 -> fst b < 2 ^ 33 ->
  c_eq a b = (instant a =? instant b) /\ c_ne a b = negb (instant a =? instant b) /\ c_gt a b = (instant b <? instant a) /\
  c_le a b = (instant a <=? instant b) /\ c_ge a b = (instant b <=? instant a) /\ less a b = (instant a <? instant b).
Proof.
  intros Na Nb La Lb. destruct (compare_spec a b Na Nb La Lb) as [ E1 L1 ]. destruct (compare_spec b a Nb Na Lb La) as [ E2 L2 ].
  unfold c_eq, c_ne, c_gt, c_le, c_ge. rewrite E1, L1, L2. split; [ reflexivity | ]. split; [ reflexivity | ]. split; [ reflexivity | ]. split; [ | split ].
  - destruct (Z.leb_spec (instant a) (instant b)), (Z.ltb_spec (instant a) (instant b)), (Z.eqb_spec (instant a) (instant b)); cbn [orb]; try reflexivity; lia.
  - destruct (Z.leb_spec (instant b) (instant a)), (Z.ltb_spec (instant b) (instant a)), (Z.eqb_spec (instant a) (instant b)); cbn [orb]; try reflexivity; lia.
  - unfold less, normal, instant, million in *. destruct (Z.eqb_spec (fst a) (fst b)) as [ E | E ]; cbn [negb].
    + rewrite E. apply Bool.eq_true_iff_eq. rewrite !Z.ltb_lt. lia.
    + apply Bool.eq_true_iff_eq. rewrite !Z.ltb_lt. nia.
Qed.
(** For all times the doubles do not reverse the order. *)
Theorem C113_order a b : normal a -> normal b -> instant a <= instant b ->
  exists da db, to_real a = Fin da /\ to_real b = Fin db /\ is_double da /\ is_double db /\ value da <= value db.
Proof.
  intros Na Nb L. destruct (real_parts a Na) as (x & p & d & PA). destruct (real_parts b Nb) as (y & q & e & PB). exists d, e.
  split; [ apply PA | ]. split; [ apply PB | ]. split; [ apply PA | ]. split; [ apply PB | ]. apply (real_mono a b d e Na Nb L); [ apply PA | apply PB ].
Qed.
Example C113_nonvacuous : valid (1479312000, 999999) /\ instant (1479312000, 999999) < 2 ^ 33 * million /\ to_real (1479312000, 999999) = Fin (mkD false 6204684243042300 (-22)) /\
  c_gt (1479312000, 2) (1479312000, 1) = true /\ c_eq (8589934591, 999998) (8589934591, 999999) = false /\ to_real (2, -500000) = Fin (mkD false (2 ^ 52 + 2 ^ 51) (-52)).
Proof. split; [ unfold valid; cbn [fst snd]; lia | ]. split; [ unfold instant, million; cbn [fst snd]; lia | ]. split; [ vm_compute; reflexivity | ]. split; [ vm_compute; reflexivity | ]. split; [ vm_compute; reflexivity | ]. vm_compute. reflexivity. Qed.
(** From 2242 on the microseconds are lost, and a < b although a == b and a >= b. *)
Theorem C113_late_refuted : exists a b, normal a /\ normal b /\ fst a = 2 ^ 33 /\ instant a < instant b /\ to_real a = to_real b /\ c_eq a b = true /\ c_ge a b = true /\ less a b = true.
Proof. 
  exists (2 ^ 33, 1), (2 ^ 33, 2). split; [ unfold normal, million; cbn [fst snd]; lia | ]. split; [ unfold normal, million; cbn [fst snd]; lia | ]. split; [ reflexivity | ]. split; [ unfold instant, million; cbn [fst snd]; lia | ].
  split; [ vm_compute; reflexivity | ]. split; [ vm_compute; reflexivity | ]. split; [ vm_compute; reflexivity | ]. vm_compute. reflexivity.
Qed.
(** Time elapsed between two clock times, start first, is right; if the clock was set back it is over 10^18 seconds, not negative. *)
Theorem C113_elapsed_partial now start : normal now -> normal start -> 0 <= instant now - instant start < 2 ^ 33 * million ->
  exists d, elapsed now start = Ok (Fin d) /\ is_double d /\ stands_for d (instant now - instant start).
Proof.
  intros Nn Ns I. pose proof (normal_range now Nn) as Rn. pose proof (normal_range start Ns) as Rs. destruct (minus_ok now start) as (c & Ec & Nc & Ic). { unfold normal, million in *. lia. }
  rewrite Z.mod_small in Ic by lia. unfold elapsed. rewrite Ec. cbn [obind]. destruct (C113_value_partial c (normal_valid c Nc)) as (d & -> & Hd & S); [ lia | ].
  exists d. split; [ reflexivity | ]. split; [ exact Hd | ]. rewrite <- Ic. exact S.
Qed.
Theorem C113_back_refuted now start : normal now -> normal start -> instant now < instant start -> instant start - instant now <= 2 ^ 63 * million ->
  exists d, elapsed now start = Ok (Fin d) /\ is_double d /\ 2 ^ 63 * 2 ^ 1074 <= value d.
Proof.
  intros Nn Ns L1 L2. destruct (minus_ok now start) as (c & Ec & Nc & Ic). { unfold normal, million in *. lia. }
  assert (E : (instant now - instant start) mod horizon = instant now - instant start + horizon).
  { symmetry. apply (Z.mod_unique_pos _ _ (-1)); unfold horizon, million in *; lia. }
  rewrite E in Ic. assert (F : 2 ^ 63 <= fst c). { unfold instant at 1 in Ic. unfold normal, horizon, million in *. lia. }
  unfold elapsed. rewrite Ec. cbn [obind]. destruct (real_parts c Nc) as (a & p & d & P). exists d. rewrite (pr _ _ _ _ P). split; [ reflexivity | ]. split; [ apply P | ].
  exact (real_back c d Nc F (pr _ _ _ _ P)).
Qed.
Example C113_elapsed_nonvacuous : elapsed (10, 250000) (9, 750000) = Ok (Fin (mkD false (2 ^ 52) (-53))) /\ elapsed (9, 999999) (10, 0) = Ok (Fin (mkD false (2 ^ 52) 12)).
Proof. split; vm_compute; reflexivity. Qed.

Print Assumptions C113_value_partial.
Print Assumptions C113_compare_partial.
Print Assumptions C113_order.
Print Assumptions C113_late_refuted.
Print Assumptions C113_elapsed_partial.
Print Assumptions C113_back_refuted.
