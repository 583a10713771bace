(** C84: the two-dimensional Fourier transform. *)
From Verif Require Import Common CommonLemmas Fft_Spec Fft_Model Fft_Proof Fft_Props Fft2_Spec Fft2_Model Fft2_Proof.
From Coq Require Import Ring_theory ZArithRing.
Local Open Scope nat_scope.

(** The array a, row by row, of 2^k rows and 2^l columns (k, l at most 32): the Fourier sums over the rectangle. *)
Theorem C84_rows_partial : forall R rO rI radd rmul rsub ropp, @ring_theory R rO rI radd rmul rsub ropp eq ->
  forall root rr rc k l fuel a, principal rI rmul ropp rr l -> principal rI rmul ropp rc k ->
  (forall z, (0 <= z)%Z -> root (2 ^ l) z = power rI rmul rr (Z.to_nat z)) -> (forall z, (0 <= z)%Z -> root (2 ^ k) z = power rI rmul rc (Z.to_nat z)) ->
  l <= 32 -> k <= 32 -> 4 * 2 ^ l + 4 <= fuel -> 4 * 2 ^ k + 4 <= fuel -> length a = 2 ^ k * 2 ^ l ->
  exists b, fft2d rO radd rmul rsub root fuel a (2 ^ l) = Ok (true, b) /\ length b = length a /\
  forall v u, v < 2 ^ k -> u < 2 ^ l -> nth (v * 2 ^ l + u) b rO = dft2 rO rI radd rmul rr rc (2 ^ k) (2 ^ l) (fun j i => nth (j * 2 ^ l + i) a rO) v u.
Proof.
  intros R rO rI radd rmul rsub ropp Rth root rr rc k l fuel a Hr Hc Rr Rc Hl Hk Fl Fk La.
  eexists. split; [rewrite (any_flat rO _ _ a La) at 1; now apply (fft2d_ok rO rI radd rmul rsub ropp Rth root fuel rr rc k l)|]. split; [rewrite concat_len; lia|].
  intros v u Hv Hu. erewrite nth_error_nth; [|apply concat_vals; nia]. cbv beta.
  replace ((v * 2 ^ l + u) / 2 ^ l) with v by (apply Nat.div_unique with u; lia). now replace ((v * 2 ^ l + u) mod 2 ^ l) with u by (apply Nat.mod_unique with v; lia).
Qed.
(** The same for a vector of rows. *)
Theorem C84_matrix_partial : forall R rO rI radd rmul rsub ropp, @ring_theory R rO rI radd rmul rsub ropp eq ->
  forall root rr rc k l fuel a, principal rI rmul ropp rr l -> principal rI rmul ropp rc k ->
  (forall z, (0 <= z)%Z -> root (2 ^ l) z = power rI rmul rr (Z.to_nat z)) -> (forall z, (0 <= z)%Z -> root (2 ^ k) z = power rI rmul rc (Z.to_nat z)) ->
  l <= 32 -> k <= 32 -> 4 * 2 ^ l + 4 <= fuel -> 4 * 2 ^ k + 4 <= fuel -> length a = 2 ^ k -> Forall (fun r => length r = 2 ^ l) a ->
  exists b, fft2d_m rO radd rmul rsub root fuel a = Ok (true, b) /\ length b = 2 ^ k /\ Forall (fun r => length r = 2 ^ l) b /\
  forall v u, v < 2 ^ k -> u < 2 ^ l -> nth u (nth v b []) rO = dft2 rO rI radd rmul rr rc (2 ^ k) (2 ^ l) (fun j i => nth i (nth j a []) rO) v u.
Proof.
  intros R rO rI radd rmul rsub ropp Rth root rr rc k l fuel a Hr Hc Rr Rc Hl Hk Fl Fk La Ra.
  eexists. split; [rewrite (any_rect rO _ a Ra) at 1; rewrite La; now apply (fft2d_m_ok rO rI radd rmul rsub ropp Rth root fuel rr rc k l)|]. split; [apply rect_len|].
  split; [apply Forall_forall; intros r H; unfold rect in H; apply in_map_iff in H as (y & <- & _); apply row_len|].
  intros v u Hv Hu. rewrite (nth_error_nth _ _ [] (rect_nth _ _ _ _ _ Hv)). cbn [Nat.add]. apply nth_error_nth. now apply (proj2 (row_vals _ _)).
Qed.
(** A vector of rows that is no rectangle with sides powers of two is refused unchanged. *)
Theorem C84_matrix_shape : forall R rO radd rmul rsub root fuel (a : list (list R)), ~ (exists k l, length a = 2 ^ k /\ Forall (fun r => length r = 2 ^ l) a) ->
  fft2d_m rO radd rmul rsub root fuel a = Ok (false, a).
Proof. intros. now apply fft2d_m_shape. Qed.
(** So is an array stored row by row that is not a number of rows, or whose rows have a length that is not a power of two; *)
Theorem C84_rows_shape_partial : forall R rO radd rmul rsub root fuel (a : list R) w, 0 < w -> a <> [] -> length a mod w <> 0 \/ (forall l, w <> 2 ^ l) ->
  fft2d rO radd rmul rsub root fuel a w = Ok (false, a).
Proof. intros R rO radd rmul rsub root fuel a w W A [H|H]; [apply fft2d_rectangle|apply fft2d_width]; auto; lia. Qed.
(** but if only the number of rows is wrong, length_error comes after the rows have been transformed, *)
Theorem C84_unchanged_refuted : forall R rO rI radd rmul rsub ropp, @ring_theory R rO rI radd rmul rsub ropp eq ->
  forall root rr l h fuel a, principal rI rmul ropp rr l -> (forall z, (0 <= z)%Z -> root (2 ^ l) z = power rI rmul rr (Z.to_nat z)) ->
  l <= 32 -> 4 * 2 ^ l + 4 <= fuel -> length a = h * 2 ^ l -> (forall k, h <> 2 ^ k) ->
  exists b, fft2d rO radd rmul rsub root fuel a (2 ^ l) = Ok (false, b) /\ length b = length a /\
  forall v u, v < h -> u < 2 ^ l -> nth (v * 2 ^ l + u) b rO = dft rO rI radd rmul rr (firstn (2 ^ l) (skipn (v * 2 ^ l) a)) u.
Proof.
  intros R rO rI radd rmul rsub ropp Rth root rr l h fuel a Hr Rr Hl Fl La N.
  eexists. split; [rewrite (any_flat rO _ _ a La) at 1; now apply (fft2d_height rO rI radd rmul rsub ropp Rth root fuel rr l)|]. split; [rewrite concat_len; lia|].
  intros v u Hv Hu. erewrite nth_error_nth; [|apply concat_vals; nia]. cbv beta.
  replace ((v * 2 ^ l + u) / 2 ^ l) with v by (apply Nat.div_unique with u; lia). replace ((v * 2 ^ l + u) mod 2 ^ l) with u by (apply Nat.mod_unique with v; lia).
  unfold line, dft. rewrite firstn_length, skipn_length, La. replace (Nat.min (2 ^ l) (h * 2 ^ l - v * 2 ^ l)) with (2 ^ l) by nia.
  apply (sum_ext rO radd). intros i Hi. f_equal. rewrite <- (firstn_skipn (v * 2 ^ l) a) at 1.
  assert (Lv : length (firstn (v * 2 ^ l) a) = v * 2 ^ l) by (rewrite firstn_length; nia).
  rewrite app_nth2, Lv by lia. replace (v * 2 ^ l + i - v * 2 ^ l) with i by lia.
  rewrite <- (firstn_skipn (2 ^ l) (skipn (v * 2 ^ l) a)) at 1. rewrite app_nth1; [reflexivity|]. rewrite firstn_length, skipn_length. nia.
Qed.
(** and rows of length 0 are a division by zero. *)
Theorem C84_pitch_refuted : forall R rO radd rmul rsub root fuel (a : list R), fft2d rO radd rmul rsub root fuel a 0 = UB.
Proof. reflexivity. Qed.
(** fft2d and then ifft2d, with the roots of the other direction, multiplies everything by the number of elements. *)
Theorem C84_inverse_partial : forall R rO rI radd rmul rsub ropp, @ring_theory R rO rI radd rmul rsub ropp eq ->
  forall root toor rr rc vr vc k l fuel a, principal rI rmul ropp rr l -> principal rI rmul ropp rc k -> rmul rr vr = rI -> rmul rc vc = rI ->
  (forall z, (0 <= z)%Z -> root (2 ^ l) z = power rI rmul rr (Z.to_nat z)) -> (forall z, (0 <= z)%Z -> root (2 ^ k) z = power rI rmul rc (Z.to_nat z)) ->
  (forall z, (0 <= z)%Z -> toor (2 ^ l) z = power rI rmul vr (Z.to_nat z)) -> (forall z, (0 <= z)%Z -> toor (2 ^ k) z = power rI rmul vc (Z.to_nat z)) ->
  l <= 32 -> k <= 32 -> 4 * 2 ^ l + 4 <= fuel -> 4 * 2 ^ k + 4 <= fuel ->
  let size := rmul (sum rO radd (2 ^ l) (fun _ => rI)) (sum rO radd (2 ^ k) (fun _ => rI)) in
  (length a = 2 ^ k * 2 ^ l -> (let* (_, b) := fft2d rO radd rmul rsub root fuel a (2 ^ l) in fft2d rO radd rmul rsub toor fuel b (2 ^ l)) = Ok (true, map (rmul size) a)) /\
  (forall m, length m = 2 ^ k -> Forall (fun r => length r = 2 ^ l) m ->
   (let* (_, b) := fft2d_m rO radd rmul rsub root fuel m in fft2d_m rO radd rmul rsub toor fuel b) = Ok (true, map (map (rmul size)) m)).
Proof.
  intros R rO rI radd rmul rsub ropp Rth root toor rr rc vr vc k l fuel a Hr Hc Vr Vc Rr Rc Tr Tc Hl Hk Fl Fk size.
  pose proof (v_principal rO rI radd rmul rsub ropp Rth rr l Hr vr Vr) as Pr. pose proof (v_principal rO rI radd rmul rsub ropp Rth rc k Hc vc Vc) as Pc. split.
  - intros La. rewrite (any_flat rO _ _ a La). rewrite (fft2d_ok rO rI radd rmul rsub ropp Rth root fuel rr rc k l) by assumption. cbn [obind].
    rewrite (fft2d_ok rO rI radd rmul rsub ropp Rth toor fuel vr vc k l) by assumption. do 2 f_equal. rewrite concat_map. f_equal.
    unfold rect at 2. rewrite map_map. unfold rect. apply map_ext_in. intros y Hy. apply in_seq in Hy. unfold row. rewrite map_map. apply map_ext_in. intros u Hu. apply in_seq in Hu.
    apply (dft2_back rO rI radd rmul rsub ropp Rth); auto; lia.
  - intros m Lm Fm. rewrite (any_rect rO _ m Fm), Lm. rewrite (fft2d_m_ok rO rI radd rmul rsub ropp Rth root fuel rr rc k l) by assumption. cbn [obind].
    rewrite (fft2d_m_ok rO rI radd rmul rsub ropp Rth toor fuel vr vc k l) by assumption. do 2 f_equal.
    unfold rect at 2. rewrite map_map. unfold rect. apply map_ext_in. intros y Hy. apply in_seq in Hy. unfold row. rewrite map_map. apply map_ext_in. intros u Hu. apply in_seq in Hu.
    apply (dft2_back rO rI radd rmul rsub ropp Rth); auto; lia.
Qed.

(** Gaussian integers: the root for length 2 is -1, that for length 4 is i *)
Definition groot (n : nat) (z : Z) : Z * Z := gauss_root (if (n =? 4)%nat then (0, 1) else if (n =? 2)%nat then (-1, 0) else (1, 0))%Z z.
Example C84_nonvacuous : principal (1, 0)%Z gauss_mul (copp Z.opp) (0, 1)%Z 2 /\ principal (1, 0)%Z gauss_mul (copp Z.opp) (-1, 0)%Z 1 /\
  (forall z, (0 <= z)%Z -> groot (2 ^ 2) z = power (1, 0)%Z gauss_mul (0, 1)%Z (Z.to_nat z)) /\ (forall z, (0 <= z)%Z -> groot (2 ^ 1) z = power (1, 0)%Z gauss_mul (-1, 0)%Z (Z.to_nat z)).
Proof. repeat split; reflexivity. Qed.
Example C84_case : let fft := fft2d (0, 0)%Z gauss_add gauss_mul gauss_sub groot 100 in let fftm := fft2d_m (0, 0)%Z gauss_add gauss_mul gauss_sub groot 100 in
  fft [(1, 0); (2, 0); (3, 0); (4, 0); (0, 0); (0, 0); (0, 0); (1, 0)]%Z 4 = Ok (true, [(11, 0); (-2, -3); (-3, 0); (-2, 3); (9, 0); (-2, -1); (-1, 0); (-2, 1)]%Z) /\
  fftm [[(1, 0); (2, 0); (3, 0); (4, 0)]; [(0, 0); (0, 0); (0, 0); (1, 0)]]%Z = Ok (true, [[(11, 0); (-2, -3); (-3, 0); (-2, 3)]; [(9, 0); (-2, -1); (-1, 0); (-2, 1)]]%Z) /\
  fft [(1, 0); (2, 0); (3, 0); (4, 0); (0, 0); (7, 0)]%Z 2 = Ok (false, [(3, 0); (-1, 0); (7, 0); (-1, 0); (7, 0); (-7, 0)]%Z) /\
  fftm [[(1, 0); (2, 0)]; [(3, 0)]]%Z = Ok (false, [[(1, 0); (2, 0)]; [(3, 0)]]%Z).
Proof. repeat split; vm_compute; reflexivity. Qed.

Print Assumptions C84_rows_partial.
Print Assumptions C84_matrix_partial.
Print Assumptions C84_matrix_shape.
Print Assumptions C84_rows_shape_partial.
Print Assumptions C84_unchanged_refuted.
Print Assumptions C84_pitch_refuted.
Print Assumptions C84_inverse_partial.
