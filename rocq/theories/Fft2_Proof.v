(** Proofs about the two-dimensional Fourier transform. *)
From Verif Require Import Common CommonLemmas Fft_Spec Fft_Model Fft_Proof Fft_Props Fft2_Spec Fft2_Model.
From Coq Require Import Ring_theory.
Local Open Scope nat_scope.

(** A rectangle as a list of rows, from row s on *)
Definition row {R} (w : nat) (g : nat -> R) : list R := map g (seq 0 w).
Definition rect {R} (w s h : nat) (g : nat -> nat -> R) : list (list R) := map (fun y => row w (g y)) (seq s h).

Lemma nth_error_ext {T} : forall a b : list T, (forall i, nth_error a i = nth_error b i) -> a = b.
Proof.
  induction a as [|x a IH]; intros [|y b] H; [reflexivity|specialize (H 0); discriminate H|specialize (H 0); discriminate H|].
  pose proof (H 0) as H0. cbn in H0. injection H0 as ->. f_equal. apply IH. intros i. exact (H (S i)).
Qed.
Section lists.
Context {R : Type}.
Implicit Types g : nat -> nat -> R.
Lemma row_len w (g : nat -> R) : length (row w g) = w. Proof. unfold row. now rewrite map_length, seq_length. Qed.
Lemma row_vals w (g : nat -> R) : vals w (row w g) g.
Proof. split; [apply row_len|]. intros i Hi. unfold row. rewrite nth_error_map, nth_error_nth' with (d := 0) by now rewrite seq_length. cbn. now rewrite seq_nth. Qed.
Lemma vals_row w a (g : nat -> R) : vals w a g -> a = row w g.
Proof.
  intros [L V]. pose proof (row_vals w g) as [L' V']. apply nth_error_ext. intros i. destruct (Nat.ltb_spec i w) as [C|C]; [now rewrite V, V'|].
  rewrite (proj2 (nth_error_None a i)), (proj2 (nth_error_None _ i)) by lia. reflexivity.
Qed.
Lemma rect_len w s h g : length (rect w s h g) = h. Proof. unfold rect. now rewrite map_length, seq_length. Qed.
Lemma rect_cons w s h g : rect w s (S h) g = row w (g s) :: rect w (S s) h g. Proof. reflexivity. Qed.
Lemma rect_snoc w s h g : rect w s (S h) g = rect w s h g ++ [row w (g (s + h))].
Proof. unfold rect. now rewrite seq_S, map_app. Qed.
Lemma concat_len w s h g : length (concat (rect w s h g)) = h * w.
Proof. revert s. induction h as [|h IH]; intros s; [reflexivity|]. rewrite rect_cons. cbn [concat]. rewrite app_length, row_len, IH. lia. Qed.
Lemma rect_ext w h g g' : (forall y x, y < h -> x < w -> g y x = g' y x) -> rect w 0 h g = rect w 0 h g'.
Proof. intros H. unfold rect. apply map_ext_in. intros y Hy. apply in_seq in Hy. apply map_ext_in. intros x Hx. apply in_seq in Hx. apply H; lia. Qed.
Lemma rect_nth w s h g y : y < h -> nth_error (rect w s h g) y = Some (row w (g (s + y))).
Proof. intros Hy. unfold rect. rewrite nth_error_map, nth_error_nth' with (d := 0) by now rewrite seq_length. cbn. now rewrite seq_nth. Qed.
Lemma concat_vals w h g : vals (h * w) (concat (rect w 0 h g)) (fun p => g (p / w) (p mod w)).
Proof.
  split; [apply concat_len|]. induction h as [|h IH]; intros p Hp; [lia|]. rewrite rect_snoc, concat_app. cbn [concat]. rewrite app_nil_r.
  assert (W : w <> 0) by (intros ->; lia).
  destruct (Nat.ltb_spec p (h * w)) as [C|C].
  - rewrite nth_error_app1 by now rewrite concat_len. now apply IH.
  - rewrite nth_error_app2, concat_len by now rewrite concat_len. rewrite (proj2 (row_vals w _)) by lia. f_equal.
    assert (E : p = w * h + (p - h * w)) by lia.
    replace (p / w) with h by (apply Nat.div_unique with (p - h * w); lia). replace (p mod w) with (p - h * w) by (apply Nat.mod_unique with h; lia). reflexivity.
Qed.

(** transposing *)
Lemma cell x y h w : y < h -> x < w -> x * h + y < w * h. Proof. intros Hy Hx. nia. Qed.
Lemma cell_eq h p x y : 0 < h -> y < h -> (p =? x * h + y) = ((p / h =? x) && (p mod h =? y)).
Proof.
  intros H Hy. destruct (Nat.eqb_spec p (x * h + y)) as [->|N].
  - symmetry. apply andb_true_iff. split; apply Nat.eqb_eq; symmetry; [apply Nat.div_unique with y|apply Nat.mod_unique with x]; lia.
  - symmetry. apply andb_false_iff. destruct (Nat.eqb_spec (p / h) x) as [E|E]; [right|now left]. apply Nat.eqb_neq. intros E'. elim N.
    rewrite (Nat.div_mod_eq p h), E, E'. lia.
Qed.
Definition moved (g : nat -> nat -> R) (f : nat -> R) (h y x p : nat) : R :=
  if (p mod h <? y) || ((p mod h =? y) && (p / h <? x)) then g (p mod h) (p / h) else f p.
Lemma move_row_vals h w g f a y : y < h -> vals (h * w) a (fun p => g (p / w) (p mod w)) -> forall cnt x c, x + cnt = w ->
  vals (w * h) c (moved g f h y x) -> exists c', move_row h w y x cnt a c = Ok c' /\ vals (w * h) c' (moved g f h y w).
Proof.
  intros Hy Va. induction cnt as [|cnt IH]; intros x c Hx Vc; cbn [move_row].
  - exists c. split; [reflexivity|]. now replace w with x at 2 by lia.
  - rewrite (vals_get _ _ _ _ Va) by nia. cbn [obind].
    destruct (vals_put _ _ _ (x * h + y) (g ((y * w + x) / w) ((y * w + x) mod w)) Vc) as (c1 & -> & V1); [nia|]. cbn [obind].
    apply (IH (S x)); [lia|]. eapply vals_ext; [exact V1|]. intros p Hp. cbv beta. rewrite cell_eq by lia. unfold moved.
    replace ((y * w + x) / w) with y by (apply Nat.div_unique with x; lia). replace ((y * w + x) mod w) with x by (apply Nat.mod_unique with y; lia).
    destruct (Nat.eqb_spec (p / h) x) as [->|N]; cbn [andb].
    + destruct (Nat.eqb_spec (p mod h) y) as [->|M]; cbn [andb].
      * rewrite (proj2 (Nat.ltb_lt x (S x))) by lia. now rewrite orb_true_r.
      * reflexivity.
    + replace (p / h <? S x) with (p / h <? x); [reflexivity|]. destruct (Nat.ltb_spec (p / h) x), (Nat.ltb_spec (p / h) (S x)); try reflexivity; lia.
Qed.
Lemma moved_next g f h w y p : p < w * h -> moved g f h y w p = moved g f h (S y) 0 p.
Proof.
  intros Hp. unfold moved. assert (p / h < w) by (apply Nat.div_lt_upper_bound; [intros ->|]; lia). rewrite (proj2 (Nat.ltb_lt (p / h) w)), andb_true_r by assumption.
  rewrite (proj2 (Nat.ltb_ge (p / h) 0) (Nat.le_0_l _)), andb_false_r, orb_false_r.
  replace ((p mod h <? y) || (p mod h =? y)) with (p mod h <? S y); [reflexivity|].
  destruct (Nat.ltb_spec (p mod h) (S y)), (Nat.ltb_spec (p mod h) y), (Nat.eqb_spec (p mod h) y); try reflexivity; lia.
Qed.
Lemma move_rows_vals h w g f a : vals (h * w) a (fun p => g (p / w) (p mod w)) -> forall cnt y c, y + cnt = h ->
  vals (w * h) c (moved g f h y 0) -> exists c', move_rows h w y cnt a c = Ok c' /\ vals (w * h) c' (moved g f h h 0).
Proof.
  intros Va. induction cnt as [|cnt IH]; intros y c Hy Vc; cbn [move_rows].
  - exists c. split; [reflexivity|]. now replace h with y at 3 by lia.
  - destruct (move_row_vals h w g f a y ltac:(lia) Va w 0 c eq_refl Vc) as (c1 & -> & V1). cbn [obind]. apply IH; [lia|].
    eapply vals_ext; [exact V1|]. intros p Hp. now apply moved_next.
Qed.
Lemma transpose_ok h w g c : 0 < h -> 0 < w -> length c = w * h ->
  transpose (concat (rect w 0 h g)) c w = Ok (concat (rect h 0 w (fun x y => g y x))).
Proof.
  intros Hh Hw Lc. unfold transpose. rewrite (proj2 (Nat.eqb_neq w 0)) by lia. rewrite concat_len, Nat.div_mul by lia.
  destruct c as [|d c0] eqn:Ec; [cbn in Lc; nia|]. rewrite <- Ec in *.
  destruct (move_rows_vals h w g (fun p => nth p c d) _ (concat_vals w h g) h 0 c eq_refl) as (c' & -> & V').
  - split; [exact Lc|]. intros p Hp. unfold moved. rewrite !(proj2 (Nat.ltb_ge _ 0) (Nat.le_0_l _)), andb_false_r. cbn [orb].
    apply nth_error_nth'. lia.
  - f_equal. apply vals_row in V'. rewrite V'. symmetry. apply vals_row. eapply vals_ext; [apply concat_vals|]. intros p Hp. unfold moved.
    now rewrite (proj2 (Nat.ltb_lt (p mod h) h)) by (apply Nat.mod_upper_bound; lia).
Qed.

(** the same for a vector of vectors *)
Definition vals2 (h w : nat) (c : list (list R)) (f : nat -> nat -> R) : Prop := length c = h /\ forall y, y < h -> exists r, nth_error c y = Some r /\ vals w r (f y).
Lemma rect_vals2 h w g : vals2 h w (rect w 0 h g) g.
Proof. split; [apply rect_len|]. intros y Hy. exists (row w (g y)). split; [now apply rect_nth|apply row_vals]. Qed.
Lemma vals2_ext h w (c : list (list R)) f f' : vals2 h w c f -> (forall y x, y < h -> x < w -> f y x = f' y x) -> vals2 h w c f'.
Proof. intros [L V] H. split; [exact L|]. intros y Hy. destruct (V y Hy) as (r & E & Vr). exists r. split; [exact E|]. eapply vals_ext; [exact Vr|]. intros; now apply H. Qed.
Lemma vals2_rect h w (c : list (list R)) f : vals2 h w c f -> c = rect w 0 h f.
Proof.
  intros [L V]. apply nth_error_ext. intros y. destruct (Nat.ltb_spec y h) as [C|C].
  - destruct (V y C) as (r & -> & Vr). rewrite rect_nth by assumption. f_equal. now apply vals_row.
  - rewrite (proj2 (nth_error_None c y)), (proj2 (nth_error_None _ y)) by (rewrite ?rect_len; lia). reflexivity.
Qed.
Lemma vals2_get h w (c : list (list R)) f y x : vals2 h w c f -> y < h -> x < w -> get2 c y x = Ok (f y x).
Proof. intros [L V] Hy Hx. destruct (V y Hy) as (r & E & Vr). unfold get2, get at 1. rewrite E. cbn [obind]. now apply (vals_get w). Qed.
Lemma nth_error_set {T} (c : list T) y r y' : y < length c -> nth_error (firstn y c ++ r :: skipn (S y) c) y' = if y' =? y then Some r else nth_error c y'.
Proof.
  revert c y'. induction y as [|y IH]; intros [|z c] y' Hy; cbn [length] in Hy; try lia; destruct y' as [|y']; try reflexivity.
  cbn [firstn app skipn nth_error]. change (S y' =? S y) with (y' =? y). rewrite <- IH by lia. reflexivity.
Qed.
Lemma vals2_put h w (c : list (list R)) f y x v : vals2 h w c f -> y < h -> x < w ->
  exists c', put2 c y x v = Ok c' /\ vals2 h w c' (fun y' x' => if (y' =? y) && (x' =? x) then v else f y' x').
Proof.
  intros [L V] Hy Hx. destruct (V y Hy) as (r & E & Vr). unfold put2, get. rewrite E. cbn [obind].
  destruct (vals_put w r (f y) x v Vr Hx) as (r' & -> & Vr'). cbn [obind]. unfold put. rewrite (proj2 (Nat.ltb_lt y (length c))) by lia.
  eexists. split; [reflexivity|]. split.
  - rewrite app_length. cbn [length]. rewrite firstn_length, skipn_length. lia.
  - intros y' Hy'. rewrite nth_error_set by lia. destruct (Nat.eqb_spec y' y) as [->|N]; cbn [andb]; [now exists r'|now apply V].
Qed.
Definition moved2 (g f : nat -> nat -> R) (y x x' y' : nat) : R := if (y' <? y) || ((y' =? y) && (x' <? x)) then g y' x' else f x' y'.
Lemma move_mrow_vals h w g f (a : list (list R)) y : y < h -> vals2 h w a g -> forall cnt x c, x + cnt = w ->
  vals2 w h c (moved2 g f y x) -> exists c', move_mrow y x cnt a c = Ok c' /\ vals2 w h c' (moved2 g f y w).
Proof.
  intros Hy Va. induction cnt as [|cnt IH]; intros x c Hx Vc; cbn [move_mrow].
  - exists c. split; [reflexivity|]. now replace w with x at 2 by lia.
  - rewrite (vals2_get _ _ _ _ _ _ Va) by lia. cbn [obind].
    destruct (vals2_put _ _ _ _ x y (g y x) Vc) as (c1 & -> & V1); [lia|lia|]. cbn [obind].
    apply (IH (S x)); [lia|]. eapply vals2_ext; [exact V1|]. intros x' y' Hx' Hy'. cbv beta. unfold moved2.
    destruct (Nat.eqb_spec x' x) as [->|N]; cbn [andb].
    + destruct (Nat.eqb_spec y' y) as [->|M]; cbn [andb]; [|reflexivity].
      rewrite (proj2 (Nat.ltb_lt x (S x))) by lia. now rewrite orb_true_r.
    + replace (x' <? S x) with (x' <? x); [reflexivity|]. destruct (Nat.ltb_spec x' x), (Nat.ltb_spec x' (S x)); try reflexivity; lia.
Qed.
Lemma move_mrows_vals h w g f (a : list (list R)) : vals2 h w a g -> forall cnt y c, y + cnt = h ->
  vals2 w h c (moved2 g f y 0) -> exists c', move_mrows w y cnt a c = Ok c' /\ vals2 w h c' (moved2 g f h 0).
Proof.
  intros Va. induction cnt as [|cnt IH]; intros y c Hy Vc; cbn [move_mrows].
  - exists c. split; [reflexivity|]. now replace h with y at 2 by lia.
  - destruct (move_mrow_vals h w g f a y ltac:(lia) Va w 0 c eq_refl Vc) as (c1 & -> & V1). cbn [obind]. apply IH; [lia|].
    eapply vals2_ext; [exact V1|]. intros x' y' Hx' Hy'. unfold moved2. rewrite (proj2 (Nat.ltb_lt x' w)), andb_true_r by assumption.
    rewrite (proj2 (Nat.ltb_ge x' 0)), andb_false_r, orb_false_r by lia.
    replace ((y' <? y) || (y' =? y)) with (y' <? S y); [reflexivity|].
    destruct (Nat.ltb_spec y' (S y)), (Nat.ltb_spec y' y), (Nat.eqb_spec y' y); try reflexivity; lia.
Qed.
Lemma transpose_m_ok h w g f (c : list (list R)) : 0 < h -> c = rect h 0 w f -> transpose_m (rect w 0 h g) c = Ok (rect h 0 w (fun x y => g y x)).
Proof.
  intros Hh ->. unfold transpose_m, get. rewrite rect_nth by assumption. cbn [obind]. rewrite row_len, rect_len.
  destruct (move_mrows_vals h w g f _ (rect_vals2 h w g) h 0 (rect h 0 w f) eq_refl) as (c' & -> & V').
  - eapply vals2_ext; [apply rect_vals2|]. intros x y Hx Hy. unfold moved2. rewrite (proj2 (Nat.ltb_ge y 0)) by lia.
    rewrite (proj2 (Nat.ltb_ge x 0)), andb_false_r by lia. reflexivity.
  - f_equal. apply vals2_rect in V'. rewrite V'. apply rect_ext. intros x y Hx Hy. unfold moved2. now rewrite (proj2 (Nat.ltb_lt y h)).
Qed.

(** every list is a row, every rectangle a rect *)
Lemma any_row (d : R) a : a = row (length a) (fun i => nth i a d).
Proof. apply vals_row. split; [reflexivity|]. intros i Hi. now apply nth_error_nth'. Qed.
Lemma any_rect d w (a : list (list R)) : Forall (fun r => length r = w) a -> a = rect w 0 (length a) (fun y x => nth x (nth y a []) d).
Proof.
  intros F. apply vals2_rect. split; [reflexivity|]. intros y Hy. exists (nth y a []). split; [now apply nth_error_nth'|].
  assert (L : length (nth y a []) = w) by (apply (proj1 (Forall_forall _ a) F); now apply nth_In). split; [exact L|]. intros i Hi. apply nth_error_nth'. lia.
Qed.
Lemma any_flat (d : R) w h a : length a = h * w -> a = concat (rect w 0 h (fun y x => nth (y * w + x) a d)).
Proof.
  intros L. transitivity (row (h * w) (fun p => nth p a d)).
  - rewrite <- L. apply any_row.
  - symmetry. apply vals_row. eapply vals_ext; [apply concat_vals|]. intros p Hp. cbv beta. f_equal. rewrite (Nat.div_mod_eq p w) at 3. lia.
Qed.
Lemma row_repeat (d : R) n : repeat d n = row n (fun _ => d).
Proof. unfold row. generalize 0. induction n as [|n IH]; intros s; [reflexivity|]. cbn [repeat seq map]. now rewrite (IH (S s)). Qed.
Lemma rect_repeat (d : R) h w : repeat (repeat d h) w = rect h 0 w (fun _ _ => d).
Proof. rewrite row_repeat. unfold rect. generalize 0. induction w as [|w IH]; intros s; [reflexivity|]. cbn [repeat seq map]. now rewrite (IH (S s)). Qed.
Lemma rect_square w h g : forallb (fun r => length r =? w) (rect w 0 h g) = true.
Proof. apply forallb_forall. intros r H. unfold rect in H. apply in_map_iff in H as (y & <- & _). apply Nat.eqb_eq, row_len. Qed.
End lists.

Section ring.
Context {R : Type} (rO rI : R) (radd rmul rsub : R -> R -> R) (ropp : R -> R) (Rth : ring_theory rO rI radd rmul rsub ropp eq).
Context (root : nat -> Z -> R) (fuel : nat).
Add Ring Rring : Rth.
Notation sum := (sum rO radd). Notation pow := (power rI rmul).
Notation fft1 := (fft1 radd rmul rsub root fuel).
Notation pieces := (pieces radd rmul rsub root fuel). Notation each := (each radd rmul rsub root fuel).
(** the transform of the rows *)
Definition line (r : R) (w : nat) (g : nat -> nat -> R) (y u : nat) : R := sum w (fun i => rmul (g y i) (pow r (i * u))).

Section dir.
Context (r : R) (l : nat) (Hw : principal rI rmul ropp r l) (Hroot : forall z, (0 <= z)%Z -> root (2 ^ l) z = pow r (Z.to_nat z))
  (Hl : l <= 32) (F : 4 * 2 ^ l + 4 <= fuel).
Lemma fft1_row (g : nat -> R) : fft1 (row (2 ^ l) g) = Ok (row (2 ^ l) (fun u => sum (2 ^ l) (fun i => rmul (g i) (pow r (i * u))))).
Proof.
  unfold Fft2_Model.fft1. rewrite row_len.
  destruct (C44_fourier_partial R rO rI radd rmul rsub ropp Rth r l (root (2 ^ l)) (row (2 ^ l) g) fuel Hw Hroot (row_len _ _) Hl) as (y & -> & Ly & Hy); [rewrite row_len; exact F|].
  f_equal. rewrite row_len in *. apply vals_row. split; [exact Ly|]. intros k Hk. rewrite (nth_error_nth' y rO) by lia. f_equal. rewrite Hy by assumption.
  unfold dft. rewrite row_len. apply sum_ext; [assumption..|]. intros i Hi. f_equal. apply nth_error_nth. now apply row_vals.
Qed.
Lemma pieces_ok g : forall cnt s pre, pieces (2 ^ l) cnt (length pre) (pre ++ concat (rect (2 ^ l) s cnt g)) = Ok (true, pre ++ concat (rect (2 ^ l) s cnt (line r (2 ^ l) g))).
Proof.
  induction cnt as [|cnt IH]; intros s pre; [reflexivity|]. cbn [Fft2_Model.pieces]. rewrite !rect_cons. cbn [concat].
  rewrite skipn_app, skipn_all, Nat.sub_diag. cbn [skipn app]. rewrite firstn_app, row_len, Nat.sub_diag, firstn_O, app_nil_r.
  rewrite firstn_all2 by now rewrite row_len. rewrite fft1_row. rewrite firstn_app, firstn_all, Nat.sub_diag, firstn_O, app_nil_r.
  replace (skipn (length pre + 2 ^ l) _) with (concat (rect (2 ^ l) (S s) cnt g)).
  - specialize (IH (S s) (pre ++ row (2 ^ l) (line r (2 ^ l) g s))). rewrite app_length, row_len, <- !app_assoc in IH. exact IH.
  - rewrite app_assoc, skipn_app, skipn_all2 by (rewrite app_length, row_len; lia). rewrite app_length, row_len, Nat.sub_diag. reflexivity.
Qed.
Lemma each_ok g : forall cnt s pre, each pre (rect (2 ^ l) s cnt g) = Ok (true, pre ++ rect (2 ^ l) s cnt (line r (2 ^ l) g)).
Proof.
  induction cnt as [|cnt IH]; intros s pre; [cbn; now rewrite app_nil_r|]. rewrite rect_cons. cbn [Fft2_Model.each]. rewrite fft1_row, IH, <- app_assoc. reflexivity.
Qed.
End dir.

Context (rr rc : R) (k l : nat) (Hr : principal rI rmul ropp rr l) (Hc : principal rI rmul ropp rc k)
  (Rr : forall z, (0 <= z)%Z -> root (2 ^ l) z = pow rr (Z.to_nat z)) (Rc : forall z, (0 <= z)%Z -> root (2 ^ k) z = pow rc (Z.to_nat z))
  (Hl : l <= 32) (Hk : k <= 32) (Fl : 4 * 2 ^ l + 4 <= fuel) (Fk : 4 * 2 ^ k + 4 <= fuel).
Notation dft2 := (dft2 rO rI radd rmul rr rc (2 ^ k) (2 ^ l)).
Lemma lines g y u : line rc (2 ^ k) (fun x y => line rr (2 ^ l) g y x) u y = dft2 g y u.
Proof.
  unfold line, Fft2_Spec.dft2. apply (sum_ext rO radd). intros j Hj. rewrite (Rmul_comm Rth). rewrite <- (sum_scale rO rI radd rmul rsub ropp Rth).
  apply (sum_ext rO radd). intros i Hi. ring.
Qed.
Lemma fft2d_ok g : fft2d rO radd rmul rsub root fuel (concat (rect (2 ^ l) 0 (2 ^ k) g)) (2 ^ l) = Ok (true, concat (rect (2 ^ l) 0 (2 ^ k) (dft2 g))).
Proof.
  pose proof (pow2_pos k) as Pk. pose proof (pow2_pos l) as Pl. unfold fft2d. rewrite (proj2 (Nat.eqb_neq (2 ^ l) 0)) by lia. rewrite concat_len, Nat.div_mul, Nat.eqb_refl by lia. cbn [negb].
  pose proof (pieces_ok rr l Hr Rr Hl Fl g (2 ^ k) 0 []) as E. cbn [app length] in E. rewrite E. cbn [obind negb].
  rewrite transpose_ok by (rewrite ?repeat_length; lia). cbn [obind].
  pose proof (pieces_ok rc k Hc Rc Hk Fk (fun x y => line rr (2 ^ l) g y x) (2 ^ l) 0 []) as E'. cbn [app length] in E'. rewrite E'. cbn [obind negb].
  rewrite transpose_ok by (rewrite ?concat_len; lia). cbn [obind]. do 3 f_equal. apply rect_ext. intros y x _ _. apply lines.
Qed.
Lemma fft2d_m_ok g : fft2d_m rO radd rmul rsub root fuel (rect (2 ^ l) 0 (2 ^ k) g) = Ok (true, rect (2 ^ l) 0 (2 ^ k) (dft2 g)).
Proof.
  pose proof (pow2_pos k) as Pk. pose proof (pow2_pos l) as Pl. unfold fft2d_m. rewrite rect_len. rewrite (proj2 (is_pow2_spec _)) by (exists k; rewrite Nat2Z.inj_pow; reflexivity).
  cbn [negb]. unfold get at 1. rewrite rect_nth by assumption. cbn [obind]. rewrite row_len, rect_square. cbn [negb].
  rewrite (each_ok rr l Hr Rr Hl Fl g (2 ^ k) 0 []). cbn [obind negb app]. rewrite rect_repeat.
  rewrite (transpose_m_ok _ _ _ _ _ Pk eq_refl). cbn [obind]. rewrite (each_ok rc k Hc Rc Hk Fk _ (2 ^ l) 0 []). cbn [obind negb app].
  rewrite (transpose_m_ok _ _ _ _ _ Pl eq_refl). cbn [obind]. do 2 f_equal. apply rect_ext. intros y x _ _. apply lines.
Qed.
End ring.

Section shape.
Context {R : Type} (rO : R) (radd rmul rsub : R -> R -> R) (root : nat -> Z -> R) (fuel : nat).
Lemma fft1_throws a : (forall l, length a <> 2 ^ l) -> fft1 radd rmul rsub root fuel a = Throw.
Proof. intros H. unfold fft1. now apply C44_lengths. Qed.
Lemma pow2_dec n : (exists l, n = 2 ^ l) \/ (forall l, n <> 2 ^ l).
Proof.
  destruct (is_pow2 (Z.of_nat n)) eqn:E.
  - left. apply is_pow2_spec in E as [l E]. exists l. apply Nat2Z.inj. rewrite E, Nat2Z.inj_pow. reflexivity.
  - right. intros l ->. rewrite (proj2 (is_pow2_spec _)) in E; [discriminate|]. exists l. rewrite Nat2Z.inj_pow. reflexivity.
Qed.
Lemma not_pow2 n : (forall l, n <> 2 ^ l) -> is_pow2 (Z.of_nat n) = false.
Proof.
  intros H. destruct (is_pow2 _) eqn:E; [|reflexivity]. apply is_pow2_spec in E as [l E]. elim (H l). apply Nat2Z.inj. rewrite E, Nat2Z.inj_pow. reflexivity.
Qed.
Lemma fft2d_m_shape a : ~ (exists k l, length a = 2 ^ k /\ Forall (fun r => length r = 2 ^ l) a) -> fft2d_m rO radd rmul rsub root fuel a = Ok (false, a).
Proof.
  intros H. unfold fft2d_m. destruct (pow2_dec (length a)) as [[k Hk]|N]; [|now rewrite not_pow2].
  destruct (is_pow2 (Z.of_nat (length a))); [|reflexivity]. cbn [negb]. pose proof (pow2_pos k) as Pk. destruct a as [|r a]; [cbn in Hk; lia|]. cbn [get nth_error obind].
  change (get (r :: a) 0) with (Ok r). cbn [obind].
  destruct (forallb (fun r0 => length r0 =? length r) (r :: a)) eqn:E; [|reflexivity]. cbn [negb each].
  rewrite fft1_throws; [reflexivity|]. intros l El. apply H. exists k, l. split; [exact Hk|]. rewrite forallb_forall in E. apply Forall_forall. intros q Hq. rewrite <- El.
  now apply Nat.eqb_eq, E.
Qed.
Lemma fft2d_rectangle a w : w <> 0 -> length a mod w <> 0 -> fft2d rO radd rmul rsub root fuel a w = Ok (false, a).
Proof.
  intros W M. unfold fft2d. rewrite (proj2 (Nat.eqb_neq w 0)) by assumption. rewrite (proj2 (Nat.eqb_neq _ (length a))); [reflexivity|].
  pose proof (Nat.div_mod_eq (length a) w). lia.
Qed.
Lemma fft2d_width a w : w <> 0 -> a <> [] -> (forall l, w <> 2 ^ l) -> fft2d rO radd rmul rsub root fuel a w = Ok (false, a).
Proof.
  intros W A N. unfold fft2d. rewrite (proj2 (Nat.eqb_neq w 0)) by assumption. destruct (Nat.eqb_spec (length a / w * w) (length a)) as [E|E]; [|reflexivity]. cbn [negb].
  destruct (length a / w) as [|h] eqn:D; [destruct a; [congruence|cbn in E; lia]|]. cbn [pieces skipn]. rewrite fft1_throws; [reflexivity|].
  intros l. rewrite firstn_length. specialize (N l). lia.
Qed.
End shape.

Section more.
Context {R : Type} (rO rI : R) (radd rmul rsub : R -> R -> R) (ropp : R -> R) (Rth : ring_theory rO rI radd rmul rsub ropp eq).
Add Ring Rring2 : Rth.
Notation sum := (sum rO radd). Notation pow := (power rI rmul). Notation line := (line rO rI radd rmul).
Lemma fft2d_height root fuel rr l h g : principal rI rmul ropp rr l -> (forall z, (0 <= z)%Z -> root (2 ^ l) z = pow rr (Z.to_nat z)) -> l <= 32 -> 4 * 2 ^ l + 4 <= fuel ->
  (forall k, h <> 2 ^ k) ->
  fft2d rO radd rmul rsub root fuel (concat (rect (2 ^ l) 0 h g)) (2 ^ l) = Ok (false, concat (rect (2 ^ l) 0 h (line rr (2 ^ l) g))).
Proof.
  intros Hr Rr Hl Fl N. pose proof (pow2_pos l) as Pl. unfold fft2d. rewrite (proj2 (Nat.eqb_neq (2 ^ l) 0)) by lia. rewrite concat_len, Nat.div_mul, Nat.eqb_refl by lia. cbn [negb].
  pose proof (pieces_ok rO rI radd rmul rsub ropp Rth root fuel rr l Hr Rr Hl Fl g h 0 []) as E. cbn [app length] in E. rewrite E. cbn [obind negb].
  assert (T : exists t, transpose (concat (rect (2 ^ l) 0 h (line rr (2 ^ l) g))) (repeat rO (2 ^ l * h)) (2 ^ l) = Ok t /\ length t = 2 ^ l * h).
  { destruct h as [|h].
    - exists []. rewrite Nat.mul_0_r. split; [|reflexivity]. unfold transpose. rewrite (proj2 (Nat.eqb_neq (2 ^ l) 0)) by lia. cbn [rect seq map concat length]. rewrite Nat.div_0_l by lia. reflexivity.
    - rewrite transpose_ok by (rewrite ?repeat_length; lia). eexists. split; [reflexivity|]. apply concat_len. }
  destruct T as (t & -> & Lt). cbn [obind]. destruct (2 ^ l) as [|w]; [lia|]. cbn [pieces skipn]. rewrite fft1_throws; [reflexivity|].
  intros k. rewrite firstn_length. specialize (N k). nia.
Qed.
Lemma line_ext r w g g' y u : (forall i, i < w -> g y i = g' y i) -> line r w g y u = line r w g' y u.
Proof. intros H. unfold Fft2_Proof.line. apply (sum_ext rO radd). intros i Hi. now rewrite H. Qed.
Lemma line_scale r w c g y u : line r w (fun y x => rmul c (g y x)) y u = rmul c (line r w g y u).
Proof. unfold Fft2_Proof.line. rewrite <- (sum_scale rO rI radd rmul rsub ropp Rth). apply (sum_ext rO radd). intros i Hi. ring. Qed.
Lemma line_back w l v g y u : principal rI rmul ropp w l -> rmul w v = rI -> u < 2 ^ l -> line v (2 ^ l) (line w (2 ^ l) g) y u = rmul (sum (2 ^ l) (fun _ => rI)) (g y u).
Proof.
  intros Hw Hv Hu. pose proof (row_vals (2 ^ l) (g y)) as [L V]. pose proof (row_vals (2 ^ l) (line w (2 ^ l) g y)) as [L' V'].
  pose proof (dft_back rO rI radd rmul rsub ropp Rth w l Hw v Hv (row (2 ^ l) (g y)) (row (2 ^ l) (line w (2 ^ l) g y)) L L') as D.
  rewrite <- (nth_error_nth _ _ rO (V u Hu)). rewrite <- D; [|intros k Hk; rewrite (nth_error_nth _ _ rO (V' k Hk)); unfold dft; rewrite L; apply (sum_ext rO radd); intros i Hi; now rewrite (nth_error_nth _ _ rO (V i Hi))|exact Hu].
  unfold dft. rewrite L'. apply (sum_ext rO radd). intros i Hi. now rewrite (nth_error_nth _ _ rO (V' i Hi)).
Qed.
Lemma lines' rr rc h w g y u : dft2 rO rI radd rmul rr rc h w g y u = line rr w (fun y x => line rc h (fun x y => g y x) x y) y u.
Proof.
  unfold Fft2_Proof.line, dft2. rewrite (sum_swap rO rI radd rmul rsub ropp Rth). apply (sum_ext rO radd). intros i Hi. rewrite (Rmul_comm Rth).
  rewrite <- (sum_scale rO rI radd rmul rsub ropp Rth). apply (sum_ext rO radd). intros j Hj. ring.
Qed.
Lemma lines2 rr rc h w g y u : dft2 rO rI radd rmul rr rc h w g y u = line rc h (fun x y => line rr w g y x) u y.
Proof.
  unfold Fft2_Proof.line, dft2. apply (sum_ext rO radd). intros j Hj. rewrite (Rmul_comm Rth).
  rewrite <- (sum_scale rO rI radd rmul rsub ropp Rth). apply (sum_ext rO radd). intros i Hi. ring.
Qed.
Lemma dft2_back rr rc vr vc k l g y u : principal rI rmul ropp rr l -> principal rI rmul ropp rc k -> rmul rr vr = rI -> rmul rc vc = rI -> y < 2 ^ k -> u < 2 ^ l ->
  dft2 rO rI radd rmul vr vc (2 ^ k) (2 ^ l) (dft2 rO rI radd rmul rr rc (2 ^ k) (2 ^ l) g) y u
  = rmul (rmul (sum (2 ^ l) (fun _ => rI)) (sum (2 ^ k) (fun _ => rI))) (g y u).
Proof.
  intros Hr Hc Vr Vc Hy Hu. rewrite lines2.
  transitivity (line vc (2 ^ k) (fun x y => rmul (sum (2 ^ l) (fun _ => rI)) (line rc (2 ^ k) (fun x y => g y x) x y)) u y).
  - apply line_ext. intros j Hj. cbv beta. rewrite <- (line_back rr l vr (fun y x => line rc (2 ^ k) (fun x y => g y x) x y) j u Hr Vr Hu).
    apply line_ext. intros i Hi. apply lines'.
  - rewrite line_scale, (line_back rc k vc (fun x y => g y x) u y Hc Vc Hy). ring.
Qed.
End more.
