(** C44: the fast Fourier transform. *)
From Verif Require Import Common CommonLemmas Fft_Spec Fft_Model Fft_Proof.
From Coq Require Import Ring_theory ZArithRing.
Local Open Scope Z_scope.

(** Up to 2^32 elements, fft computes the Fourier sums. *)
Theorem C44_fourier_partial : forall R rO rI radd rmul rsub ropp, @ring_theory R rO rI radd rmul rsub ropp eq ->
  forall w l root x fuel, principal rI rmul ropp w l -> (forall z, 0 <= z -> root z = power rI rmul w (Z.to_nat z)) ->
  length x = (2 ^ l)%nat -> (l <= 32)%nat -> (4 * length x + 4 <= fuel)%nat ->
  exists y, fft_wrap radd rmul rsub root fuel x = Ok y /\ length y = length x /\ forall k, (k < length x)%nat -> nth k y rO = dft rO rI radd rmul w x k.
Proof.
  intros R rO rI radd rmul rsub ropp Rth w l root x fuel Hw Hroot Hx Hl F.
  assert (Ll : (l < 2 ^ l)%nat) by (apply Nat.pow_gt_lin_r; lia).
  unfold fft_wrap. rewrite Hx. rewrite (proj2 (is_pow2_spec _)) by (exists l; rewrite Nat2Z.inj_pow; reflexivity). unfold fft_inner. rewrite Hx.
  assert (V0 : vals (2 ^ l) x (fun i => nth i x rO)) by (split; [exact Hx|]; intros i Hi; apply nth_error_nth'; lia).
  destruct (shuffle_vals l (fun i => nth i x rO) fuel 1 x) as (a1 & E1 & V1); [lia|destruct l; [auto|rewrite Nat.pow_succ_r'; pose proof (pow2_pos l); lia]|lia| |].
  { eapply vals_ext; [exact V0|]. intros i Hi. cbv beta. replace (rev l 0) with 0%nat in * by (rewrite <- (Nat.add_0_r l), rev_high by (cbn; lia); reflexivity).
    assert (R0 : rev l 0 = 0%nat) by (rewrite <- (Nat.add_0_r l), rev_high by (cbn; lia); reflexivity).
    destruct (Nat.ltb_spec i 1) as [C|C]; cbn [orb]; [assert (i = 0)%nat by lia; subst i; now rewrite R0|].
    destruct (Nat.ltb_spec (rev l i) 1) as [D|D]; [|reflexivity]. assert (E : rev l i = 0%nat) by lia. pose proof (rev_rev l i Hi) as RR. rewrite E, R0 in RR. lia. }
  replace (Z.of_nat (rev l (1 - 1))) with 0 in E1 by (rewrite <- (Nat.add_0_r l), rev_high by (cbn; lia); reflexivity). rewrite E1. cbn [obind].
  destruct (stages_vals rO rI radd rmul rsub ropp Rth root w l Hw Hroot (fun i => nth i x rO) Hl fuel 0 a1) as (y & E2 & L2 & V2); [lia|lia| |].
  { eapply vals_ext; [exact V1|]. intros i Hi. symmetry. apply (after_0 rO rI radd rmul rsub ropp Rth). }
  exists y. split; [exact E2|]. split; [lia|]. intros k Hk. apply nth_error_nth. rewrite V2 by lia. f_equal.
  rewrite after_all by lia. unfold dft. now rewrite Hx.
Qed.
(** Other lengths are refused. *)
Theorem C44_lengths : forall R radd rmul rsub root fuel (x : list R), (forall l, length x <> (2 ^ l)%nat) -> fft_wrap radd rmul rsub root fuel x = Throw.
Proof.
  intros R radd rmul rsub root fuel x H. unfold fft_wrap. destruct (is_pow2 (Z.of_nat (length x))) eqn:E; [|reflexivity]. apply is_pow2_spec in E as [l E]. elim (H l).
  apply Nat2Z.inj. rewrite E, Nat2Z.inj_pow. reflexivity.
Qed.
(** With more than 2^32 elements the int that counts the blocks overflows and fft does not return. *)
Theorem C44_huge_refuted : forall R radd rmul rsub root (x : list R) l, length x = (2 ^ l)%nat -> (33 <= l)%nat ->
  forall fuel y, fft_wrap radd rmul rsub root fuel x <> Ok y.
Proof.
  intros R radd rmul rsub root x l Hx Hl fuel y. unfold fft_wrap, fft_inner. destruct (is_pow2 _); [|discriminate]. destruct (shuffle fuel (length x) 0 1 x) as [a| | |]; try discriminate.
  cbn [obind]. rewrite Hx. pose proof (pow2_pos l). destruct fuel as [|fuel]; [discriminate|]. cbn [stages]. replace (Nat.leb (1 * 2) (2 ^ l)) with true.
  - replace (blocks radd rmul rsub root fuel (2 ^ l) (1 * 2) 1 0 0 a) with (@Fuel (list R)); [discriminate|]. destruct fuel as [|fuel]; [reflexivity|]. cbn [blocks].
    rewrite (proj2 (Nat.ltb_lt 0 (2 ^ l))) by assumption. replace (Z.shiftr (Z.of_nat (2 ^ l)) 2) with (2 ^ (31 + Z.of_nat (l - 33))).
    + now rewrite bump_huge.
    + rewrite Nat2Z.inj_pow. change (Z.of_nat 2) with 2. rewrite Z.shiftr_div_pow2 by lia. replace (Z.of_nat l) with (31 + Z.of_nat (l - 33) + 2) by lia.
      rewrite (Z.pow_add_r 2 (31 + Z.of_nat (l - 33)) 2) by lia. symmetry. apply Z.div_mul. lia.
  - symmetry. apply Nat.leb_le. destruct l as [|l]; [lia|]. rewrite Nat.pow_succ_r' in *. lia.
Qed.
(** fft and then ifft, which has the roots of the other direction, multiplies everything by the length: *)
Theorem C44_inverse_partial : forall R rO rI radd rmul rsub ropp, @ring_theory R rO rI radd rmul rsub ropp eq ->
  forall w v l root toor x fuel, principal rI rmul ropp w l -> rmul w v = rI ->
  (forall z, 0 <= z -> root z = power rI rmul w (Z.to_nat z)) -> (forall z, 0 <= z -> toor z = power rI rmul v (Z.to_nat z)) ->
  length x = (2 ^ l)%nat -> (l <= 32)%nat -> (4 * length x + 4 <= fuel)%nat ->
  (let* y := fft_wrap radd rmul rsub root fuel x in fft_wrap radd rmul rsub toor fuel y) = Ok (map (rmul (sum rO radd (length x) (fun _ => rI))) x).
Proof.
  intros R rO rI radd rmul rsub ropp Rth w v l root toor x fuel Hw Hv Hr Ht Hx Hl F.
  destruct (C44_fourier_partial R rO rI radd rmul rsub ropp Rth w l root x fuel Hw Hr Hx Hl F) as (y & -> & Ly & Hy). cbn [obind].
  pose proof (v_principal rO rI radd rmul rsub ropp Rth w l Hw v Hv) as Pv.
  destruct (C44_fourier_partial R rO rI radd rmul rsub ropp Rth v l toor y fuel Pv Ht ltac:(lia) Hl ltac:(lia)) as (z & -> & Lz & Hz). f_equal.
  apply nth_ext with (d := rO) (d' := rO); [rewrite map_length; lia|]. intros k Hk. rewrite Hz by lia.
  rewrite (dft_back rO rI radd rmul rsub ropp Rth w l Hw v Hv x y) by (try lia; intros; apply Hy; lia). rewrite <- Hx.
  rewrite (nth_indep (map _ x) rO (rmul (sum rO radd (length x) (fun _ => rI)) rO)) by (rewrite map_length; lia). now rewrite map_nth.
Qed.
(** so it does not give x back. *)
Notation gauss_add := (cadd Z.add). Notation gauss_sub := (csub Z.sub). Notation gauss_mul := (cmul Z.add Z.mul Z.sub).
Definition gauss_root (w : Z * Z) (z : Z) : Z * Z := power (1, 0) gauss_mul w (Z.to_nat z).
Theorem C44_inverse_refuted : exists x : list (Z * Z), (* Gaussian integers, the root is -1 *)
  (let* y := fft_wrap gauss_add gauss_mul gauss_sub (gauss_root (-1, 0)) 100 x in fft_wrap gauss_add gauss_mul gauss_sub (gauss_root (-1, 0)) 100 y)
  = Ok [(2, 0); (0, 0)] /\ x = [(1, 0); (0, 0)].
Proof. exists [(1, 0); (0, 0)]. split; reflexivity. Qed.

(** Complex numbers whose parts are from a commutative ring, multiplied as in the code, are such a ring. *)
Theorem C44_complex : forall K kO kI kadd kmul ksub kopp, @ring_theory K kO kI kadd kmul ksub kopp eq ->
  ring_theory (kO, kO) (kI, kO) (cadd kadd) (cmul kadd kmul ksub) (csub ksub) (copp kopp) eq.
Proof. intros K kO kI kadd kmul ksub kopp Kth. exact (complex_ring kO kI kadd kmul ksub kopp Kth). Qed.

Example C44_nonvacuous : ring_theory (0, 0) (1, 0) gauss_add gauss_mul gauss_sub (copp Z.opp) eq /\
  principal (1, 0) gauss_mul (copp Z.opp) (0, 1) 2 /\ gauss_mul (0, 1) (0, -1) = (1, 0).
Proof. split; [exact (C44_complex Z 0 1 Z.add Z.mul Z.sub Z.opp (Zth))|]. split; reflexivity. Qed.
Example C44_case :
  fft_wrap gauss_add gauss_mul gauss_sub (gauss_root (0, 1)) 100 [(1, 0); (2, 0); (3, 0); (4, 0)] = Ok [(10, 0); (-2, -2); (-2, 0); (-2, 2)] /\
  fft_wrap gauss_add gauss_mul gauss_sub (gauss_root (0, -1)) 100 [(10, 0); (-2, -2); (-2, 0); (-2, 2)] = Ok [(4, 0); (8, 0); (12, 0); (16, 0)].
Proof. split; vm_compute; reflexivity. Qed.

Print Assumptions C44_fourier_partial.
Print Assumptions C44_lengths.
Print Assumptions C44_huge_refuted.
Print Assumptions C44_inverse_partial.
Print Assumptions C44_inverse_refuted.
Print Assumptions C44_complex.
