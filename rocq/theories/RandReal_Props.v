(** C112: random real numbers. *)
From Verif Require Import Common Double_Model Double_Spec LexFloat_Model RandReal_Spec RandReal_Model RandReal_Proof.
From Verif Require Random_Model Random_Proof.
Local Open Scope Z_scope.

Definition zero : double := mkD false 0 (-1074).
(** A generator that always gives the same number. *)
Definition always (v : Z) (g : unit) : Z * unit := (v, g).

(** next_double() is in [0,1) and 2^53 times it is an integer, for every generator. *)
Theorem C112_unit (G : Type) (gen : G -> Z * G) g : exists d k, fst (next_double gen g) = Fin d /\ is_double d /\ in_open zero (mkD false (2 ^ 52) (-52)) d /\ 2 ^ 53 * value d = k * 2 ^ 1074.
Proof.
  unfold next_double. pose proof (Random_Proof.next_double_below gen g) as B. destruct (Random_Model.next_double gen g) as [ k g' ]. cbn [fst] in *.
  destruct (uniform_exact k B) as (d & E & Hd & V). exists d, k. split; [ exact E | ]. split; [ exact Hd | ]. unfold in_open. rewrite V.
  change (value zero) with 0. change (value (mkD false (2 ^ 52) (-52))) with (2 ^ 53 * 2 ^ 1021). change (2 ^ 1074) with (2 ^ 53 * 2 ^ 1021). assert (0 < 2 ^ 1021) by reflexivity. set (T := 2 ^ 1021) in *. clearbody T. split; [ nia | ring ].
Qed.
Example C112_unit_nonvacuous : fst (next_double (always (2 ^ 31)) tt) = Fin (mkD false (2 ^ 52 + 2 ^ 25) (-53)) /\ fst (next_double (always 0) tt) = Fin zero.
Proof. vm_compute. auto. Qed.

(** next_double(a) is in [0,a) for every finite a above 2^-1022, although the product is rounded. *)
Theorem C112_below_partial (G : Type) (gen : G -> Z * G) a g : is_double a -> 2 ^ 52 < value a ->
  exists d, fst (next_double1 gen (Fin a) g) = Fin d /\ is_double d /\ in_open zero a d.
Proof.
  intros Ha Hv. unfold next_double1. pose proof (Random_Proof.next_double_below gen g) as B. destruct (Random_Model.next_double gen g) as [ k g' ]. cbn [fst] in *.
  destruct (times_spec a k Ha B) as (d & E & N). exists d. split; [ exact E | ]. pose proof N as (Hd & Sd & _). split; [ exact Hd | ].
  pose proof (mag_nonneg a Ha). pose proof (mag_nonneg d Hd). unfold in_open. change (value zero) with 0.
  assert (dneg a = false) as Na by (unfold value in Hv; destruct (dneg a); [ lia | reflexivity ]). unfold value in Hv |- *. rewrite Na in Hv. pose proof (times_lt a k d Ha Hv B N). rewrite Sd, Na. lia.
Qed.
Example C112_below_nonvacuous : fst (next_double1 (always (2 ^ 32 - 1)) (Fin (mkD false (2 ^ 52 + 1) (-1074))) tt) = Fin (mkD false (2 ^ 52) (-1074)).
Proof. vm_compute. reflexivity. Qed.
(** It is false for all others: there is a generator for which next_double(a) is a. *)
Theorem C112_below_refuted a : is_double a -> 0 < value a <= 2 ^ 52 -> fst (next_double1 (always (2 ^ 32 - 1)) (Fin a) tt) = Fin a.
Proof.
  intros Ha Hv. unfold next_double1. replace (Random_Model.next_double (always (2 ^ 32 - 1)) tt) with (2 ^ 53 - 1, tt) by reflexivity. cbn [fst].
  destruct (times_spec a (2 ^ 53 - 1) Ha ltac:(lia)) as (d & -> & N). f_equal. apply (times_self a d Ha); [ | exact N ].
  pose proof (mag_nonneg a Ha). unfold value in Hv. destruct (dneg a); lia.
Qed.
Example C112_below_refuted_nonvacuous : is_double (mkD false 1 (-1074)) /\ value (mkD false 1 (-1074)) = 1.
Proof. split; [ unfold is_double; cbn [dman dexp]; lia | reflexivity ]. Qed.

(** next_double(a,b) is in [a,b] for all finite a <= b whose difference is not too large, for every generator. *)
Theorem C112_between_partial (G : Type) (gen : G -> Z * G) a b g : is_double a -> is_double b -> value a <= value b -> ~ too_far a b ->
  exists d, fst (next_double2 gen (Fin a) (Fin b) g) = Fin d /\ is_double d /\ in_closed a b d.
Proof.
  intros Ha Hb Hab Hf. unfold next_double2, next_double1. pose proof (Random_Proof.next_double_below gen g) as B. destruct (Random_Model.next_double gen g) as [ k g' ]. cbn [fst] in *.
  exact (between_spec a b k Ha Hb Hab Hf B).
Qed.
Example C112_between_nonvacuous :
  fst (next_double2 (always (2 ^ 31)) (Fin (mkD true (2 ^ 52) (-52))) (Fin (mkD false (2 ^ 52) (-52))) tt) = Fin (mkD false (2 ^ 52) (-79)).
Proof. vm_compute. reflexivity. Qed.
(** The full claim, [a,b), is false: from 1 to 1 + 2^-52 a generator can give the upper end. *)
Theorem C112_between_refuted : exists a b, is_double a /\ is_double b /\ value a < value b /\ ~ too_far a b /\
  fst (next_double2 (always (2 ^ 32 - 1)) (Fin a) (Fin b) tt) = Fin b.
Proof.
  exists (mkD false (2 ^ 52) (-52)), (mkD false (2 ^ 52 + 1) (-52)). split; [ unfold is_double; cbn [dman dexp]; lia | ]. split; [ unfold is_double; cbn [dman dexp]; lia | ].
  split; [ apply Z.ltb_lt; vm_compute; reflexivity | ]. split; [ | vm_compute; reflexivity ]. unfold too_far. apply Z.lt_nge, Z.ltb_lt. vm_compute. reflexivity.
Qed.
(** Between the largest doubles the result is infinite or not a number. *)
Theorem C112_wide_refuted : exists a b, is_double a /\ is_double b /\ value a < value b /\
  fst (next_double2 (always (2 ^ 32 - 1)) (Fin a) (Fin b) tt) = Inf false /\ (exists n, fst (next_double2 (always 0) (Fin a) (Fin b) tt) = NaN n).
Proof.
  exists (mkD true (2 ^ 53 - 1) 971), (mkD false (2 ^ 53 - 1) 971). split; [ unfold is_double; cbn [dman dexp]; lia | ]. split; [ unfold is_double; cbn [dman dexp]; lia | ].
  split; [ apply Z.ltb_lt; vm_compute; reflexivity | ]. split; [ vm_compute; reflexivity | ]. eexists. vm_compute. reflexivity.
Qed.

(** Whatever else is called in between, the results of next_gaussian() come in pairs made of the same two draws, and what is given to log
    and sin is 1 - u: never 0, at most 1. *)
Theorem C112_gaussian (G : Type) (gen : G -> Z * G) (r1 r2 : fl -> fl -> fl) cs g : in_pairs r1 r2 in_unit (gaussians gen r1 r2 cs (create g)).
Proof. exact (gaussians_pairs gen r1 r2 cs g None). Qed.
Example C112_gaussian_nonvacuous :
  gaussians (always 0) (fun a _ => a) (fun _ _ => Inf true) [Gauss; Int0; Gauss; Dbl1 one; Gauss] (create tt) = [one; Inf true; one].
Proof. vm_compute. reflexivity. Qed.

Print Assumptions C112_unit.
Print Assumptions C112_below_partial.
Print Assumptions C112_below_refuted.
Print Assumptions C112_between_partial.
Print Assumptions C112_between_refuted.
Print Assumptions C112_wide_refuted.
Print Assumptions C112_gaussian.
