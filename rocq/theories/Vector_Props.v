(** C85, C86: vectors. *)
From Verif Require Import Common CommonLemmas NumText_Model Cast_Spec Cast_Model Vector_Spec Vector_Model Vector_Proof.
From Coq Require Import Ring_theory Field_theory ZArithRing QArith Qcanon.
Local Open Scope nat_scope.

(** The operations work on the components; the inner product is the sum of the products. *)
Theorem C85_components : forall T tO tI tadd tmul tsub topp tdiv, @ring_theory T tO tI tadd tmul tsub topp eq -> forall n a b m, length a = n -> length b = n ->
  components tO n (vadd tadd a b) (fun i => tadd (nth i a tO) (nth i b tO)) /\
  components tO n (vsub tsub a b) (fun i => tsub (nth i a tO) (nth i b tO)) /\
  components tO n (vneg topp a) (fun i => topp (nth i a tO)) /\
  components tO n (vscale tmul m a) (fun i => tmul m (nth i a tO)) /\
  components tO n (vdiv tdiv a m) (fun i => tdiv (nth i a tO) m) /\
  components tO n (vzero tO n) (fun _ => tO) /\
  inner tO tadd tmul a b = total tO tadd n (fun i => tmul (nth i a tO) (nth i b tO)) /\
  norm tO tadd tmul a = total tO tadd n (fun i => tmul (nth i a tO) (nth i a tO)).
Proof.
  intros T tO tI tadd tmul tsub topp tdiv Tth n a b m <- Lb.
  assert (B : forall f, components tO (length a) (both f a b) (fun i => f (nth i a tO) (nth i b tO))).
  { intros f. split; [apply both_len; auto|]. intros i Hi. apply both_nth; auto. }
  split; [apply B|]. split; [apply B|]. split; [apply map_comp|]. split; [apply (map_comp tO (fun x => tmul m x))|]. split; [apply (map_comp tO (fun x => tdiv x m))|].
  split; [split; [apply repeat_length|intros i Hi; apply nth_repeat]|]. split; now apply (inner_total tO tI tadd tmul tsub topp Tth).
Qed.
(** They are those of a module, *)
Theorem C85_module : forall T tO tI tadd tmul tsub topp, @ring_theory T tO tI tadd tmul tsub topp eq -> forall n a b c p q, length a = n -> length b = n -> length c = n ->
  let add := vadd tadd in let scale := vscale tmul in
  add a b = add b a /\ add a (add b c) = add (add a b) c /\ add a (vzero tO n) = a /\ add a (vneg topp a) = vzero tO n /\ vsub tsub a b = add a (vneg topp b) /\
  scale p (add a b) = add (scale p a) (scale p b) /\ scale (tadd p q) a = add (scale p a) (scale q a) /\ scale (tmul p q) a = scale p (scale q a) /\ scale tI a = a.
Proof.
  intros T tO tI tadd tmul tsub topp Tth n a b c p q La Lb Lc add scale. subst n. unfold add, scale.
  split; [now apply (add_comm tO tI tadd tmul tsub topp Tth)|]. split; [apply (add_assoc tO tI tadd tmul tsub topp Tth); congruence|].
  split; [now apply (add_zero tO tI tadd tmul tsub topp Tth)|]. split; [now apply (add_neg tO tI tadd tmul tsub topp Tth)|]. split; [now apply (sub_neg tO tI tadd tmul tsub topp Tth)|].
  split; [now apply (scale_add tO tI tadd tmul tsub topp Tth)|]. split; [now apply (scale_plus tO tI tadd tmul tsub topp Tth)|].
  split; [now apply (scale_mul tO tI tadd tmul tsub topp Tth)|now apply (scale_one tO tI tadd tmul tsub topp Tth)].
Qed.
(** and the inner product is symmetric and bilinear. *)
Theorem C85_inner : forall T tO tI tadd tmul tsub topp, @ring_theory T tO tI tadd tmul tsub topp eq -> forall n a b c m, length a = n -> length b = n -> length c = n ->
  let inn := inner tO tadd tmul in inn a b = inn b a /\ inn (vadd tadd a b) c = tadd (inn a c) (inn b c) /\ inn (vscale tmul m a) b = tmul m (inn a b).
Proof.
  intros T tO tI tadd tmul tsub topp Tth n a b c m La Lb Lc inn. subst n. unfold inn. split; [now apply (inner_sym tO tI tadd tmul tsub topp Tth)|].
  split; [apply (inner_add tO tI tadd tmul tsub topp Tth); congruence|now apply (inner_scale tO tI tadd tmul tsub topp Tth)].
Qed.
(** The outer product of two dimensions is the determinant: bilinear, alternating, and with the inner product it makes up the product of the norms. *)
Theorem C85_outer2 : forall T tO tI tadd tmul tsub topp, @ring_theory T tO tI tadd tmul tsub topp eq -> forall a b c m, length a = 2 -> length b = 2 -> length c = 2 ->
  let out := outer2 tO tmul tsub in let inn := inner tO tadd tmul in
  out [tI; tO] [tO; tI] = tI /\ out a a = tO /\ out a b = topp (out b a) /\ out (vadd tadd a b) c = tadd (out a c) (out b c) /\ out (vscale tmul m a) b = tmul m (out a b) /\
  tadd (tmul (out a b) (out a b)) (tmul (inn a b) (inn a b)) = tmul (inn a a) (inn b b).
Proof.
  intros T tO tI tadd tmul tsub topp Tth. exact (outer2_laws tO tI tadd tmul tsub topp Tth).
Qed.
(** That of three dimensions is orthogonal to its arguments, right-handed, bilinear and alternating; Lagrange's and Jacobi's identities and that of the triple product hold. *)
Theorem C85_outer3 : forall T tO tI tadd tmul tsub topp, @ring_theory T tO tI tadd tmul tsub topp eq -> forall a b c m, length a = 3 -> length b = 3 -> length c = 3 ->
  let out := outer3 tmul tsub in let inn := inner tO tadd tmul in let add := vadd tadd in let sq x := tmul x x in
  out [tI; tO; tO] [tO; tI; tO] = [tO; tO; tI] /\ inn (out a b) a = tO /\ inn (out a b) b = tO /\ out a a = vzero tO 3 /\ out a b = vneg topp (out b a) /\
  out (add a b) c = add (out a c) (out b c) /\ out (vscale tmul m a) b = vscale tmul m (out a b) /\
  tadd (inn (out a b) (out a b)) (sq (inn a b)) = tmul (inn a a) (inn b b) /\
  inn (out a b) c = inn a (out b c) /\ out a (out b c) = vsub tsub (vscale tmul (inn a c) b) (vscale tmul (inn a b) c) /\
  add (out a (out b c)) (add (out b (out c a)) (out c (out a b))) = vzero tO 3.
Proof.
  intros T tO tI tadd tmul tsub topp Tth. exact (outer3_laws tO tI tadd tmul tsub topp Tth).
Qed.
(** Over a field: a / m is the vector that m takes to a, and a / b is the factor for which a - (a / b) b is orthogonal to b *)
Theorem C85_division : forall F fO fI fadd fmul fsub fopp fdiv finv, @field_theory F fO fI fadd fmul fsub fopp fdiv finv eq -> forall n a b m, length a = n -> length b = n ->
  (m <> fO -> vscale fmul m (vdiv fdiv a m) = a) /\
  (inner fO fadd fmul b b <> fO -> forall k, inner fO fadd fmul (vsub fsub a (vscale fmul k b)) b = fO <-> k = project fO fadd fmul fdiv a b).
Proof.
  intros F fO fI fadd fmul fsub fopp fdiv finv Fth. exact (division_laws fO fI fadd fmul fsub fopp fdiv finv Fth).
Qed.
(** normalize gives a vector of the wanted length and the direction of a, where sqrt is exact *)
Theorem C85_normalize_partial : forall F fO fI fadd fmul fsub fopp fdiv finv, @field_theory F fO fI fadd fmul fsub fopp fdiv finv eq -> forall sqrt a b,
  let r := sqrt (norm fO fadd fmul a) in fmul r r = norm fO fadd fmul a -> r <> fO ->
  norm fO fadd fmul (normalize fO fadd fmul fdiv sqrt a b) = fmul b b /\ vscale fmul r (normalize fO fadd fmul fdiv sqrt a b) = vscale fmul b a.
Proof.
  intros F fO fI fadd fmul fsub fopp fdiv finv Fth. exact (normalize_partial_laws fO fI fadd fmul fsub fopp fdiv finv Fth).
Qed.
(** but over the integers, where the type allows it as well, the factor is rounded to 0, and a / b too. *)
Theorem C85_integers_refuted : exists a b : list Z, norm 0%Z Z.add Z.mul a = (5 * 5)%Z /\ normalize 0%Z Z.add Z.mul Z.quot Z.sqrt a 1%Z = [0; 0]%Z /\
  project 0%Z Z.add Z.mul Z.quot a b = 0%Z /\ inner 0%Z Z.add Z.mul a b = 25%Z.
Proof. exists [3; 4]%Z, [7; 1]%Z. repeat split; vm_compute; reflexivity. Qed.

(** == is equality and < the dictionary order, a strict total order, for components whose == and < are such. *)
Theorem C86_order : forall T (d : T) (lt : T -> T -> Prop) teqb tltb, (forall x y, teqb x y = true <-> x = y) -> (forall x y, tltb x y = true <-> lt x y) ->
  (forall x, ~ lt x x) -> (forall x y z, lt x y -> lt y z -> lt x z) -> (forall x y, lt x y \/ x = y \/ lt y x) ->
  forall n a b c, length a = n -> length b = n -> length c = n ->
  (veqb teqb a b = true <-> a = b) /\ (vltb teqb tltb a b = true <-> before d lt n a b) /\
  vltb teqb tltb a a = false /\ (vltb teqb tltb a b = true -> vltb teqb tltb b c = true -> vltb teqb tltb a c = true) /\
  (vltb teqb tltb a b = true \/ veqb teqb a b = true \/ vltb teqb tltb b a = true).
Proof.
  intros T d lt teqb tltb Heq Hlt Irr Trans Tot n a b c La Lb Lc. pose proof (vltb_before d lt teqb tltb Heq Hlt Irr Trans Tot) as B. pose proof (veqb_spec lt teqb tltb Heq Hlt Irr Trans Tot) as Q.
  split; [apply Q; congruence|].
  split; [rewrite <- La; apply B; congruence|]. split.
  { destruct (vltb teqb tltb a a) eqn:E; [|reflexivity]. apply (B a a) in E; [|reflexivity]. elim (before_irr d lt Irr _ _ E). }
  split.
  - rewrite !B by congruence. rewrite La, Lb. apply (before_trans d lt teqb tltb Heq Hlt Irr Trans Tot).
  - rewrite !B by congruence. rewrite Q by congruence. rewrite Lb, <- La. apply (before_total d lt teqb tltb Heq Hlt Irr Trans Tot). congruence.
Qed.
(** A component is found by its index, *)
Theorem C86_index : forall T (d : T) a i, i < length a -> at_switch a (Z.of_nat i) = Ok (nth i a d) /\ (length a = 2 -> forall ndebug, at_name2 ndebug a (Z.of_nat i) = Ok (nth i a d)).
Proof.
  intros T d a i Hi. split.
  - unfold at_switch. replace (Z.of_nat i <? 0)%Z with false by lia. rewrite Nat2Z.id, (nth_error_nth' a d Hi). reflexivity.
  - intros L ndebug. unfold at_name2. replace ((0 <=? Z.of_nat i) && (Z.of_nat i <? 2))%Z with true by lia. rewrite andb_false_r.
    destruct (Z.eqb_spec (Z.of_nat i) 0) as [E|E]; [replace i with 0 by lia|replace i with 1 by lia]; rewrite (nth_error_nth' a d) by lia; reflexivity.
Qed.
(** but another index is undefined behaviour, except that of vector2 with names: it aborts or, without assertions, takes the second component. *)
Theorem C86_index_refuted : forall T (a : list T) i, (i < 0 \/ Z.of_nat (length a) <= i)%Z -> at_switch a i = UB /\
  (length a = 2 -> at_name2 false a i = Throw /\ exists y, nth_error a 1 = Some y /\ at_name2 true a i = Ok y).
Proof.
  intros T a i Hi. split.
  - unfold at_switch. destruct (Z.ltb_spec i 0); [reflexivity|]. rewrite (proj2 (nth_error_None a (Z.to_nat i))) by lia. reflexivity.
  - intros L. unfold at_name2. replace ((0 <=? i) && (i <? 2))%Z with false by lia. split; [reflexivity|]. cbn [negb andb].
    destruct a as [|x [|y [|? ?]]]; try discriminate. exists y. split; [reflexivity|]. destruct (Z.eqb_spec i 0); [cbn in Hi; lia|reflexivity].
Qed.
(** Pointers: n elements are taken and stored; the rest of the array stays. *)
Theorem C86_arrays : forall T (d : T) n a v, length a = n -> n <= length v -> exists w, to_array a v = Ok w /\ length w = length v /\ of_array n w = Ok a /\ forall i, n <= i -> nth i w d = nth i v d.
Proof.
  intros T d n a v <- Hn. unfold to_array, of_array. rewrite (proj2 (Nat.leb_le _ _) Hn). eexists. split; [reflexivity|]. rewrite app_length, skipn_length. split; [lia|]. split.
  - rewrite (proj2 (Nat.leb_le _ _)) by lia. rewrite firstn_app, firstn_all, Nat.sub_diag, firstn_O, app_nil_r. reflexivity.
  - intros i Hi. rewrite app_nth2 by exact Hi. rewrite <- (firstn_skipn (length a) v) at 2. rewrite app_nth2 by (rewrite firstn_length; lia). f_equal. rewrite firstn_length. lia.
Qed.
(** What << writes of integers >> reads back, and what follows is left in the stream. *)
Theorem C86_text : forall sgn b a rest, (0 < b)%Z -> a <> [] -> Forall (fun x => lo (TNum sgn b) <= x <= hi (TNum sgn b))%Z a -> (match rest with [] => True | c :: _ => ~ digit c end) ->
  exists i, vread (TNum sgn b) (length a) {| left := vwrite (TNum sgn b) a ++ rest; atend := false; bad := false |} = Ok (a, i) /\ left i = rest /\ bad i = false.
Proof.
  intros sgn b a rest Hb N F Hr. exists (after rest). split; [|split; reflexivity]. unfold vread.
  pose proof (get_nums_show sgn b Hb a rest [] N F Hr ltac:(constructor)) as E. cbn [app] in E. rewrite E, settled_some. reflexivity.
Qed.
(** But a text with too few numbers is not refused: variables that were never set are copied. *)
Theorem C86_short_refuted : forall sgn b a n rest, (0 < b)%Z -> Forall (fun x => lo (TNum sgn b) <= x <= hi (TNum sgn b))%Z a -> length a < n -> Forall (fun c => isspace c = true) rest ->
  vread (TNum sgn b) n {| left := vwrite (TNum sgn b) a ++ rest; atend := false; bad := false |} = UB.
Proof. exact vread_short. Qed.

Example C85_nonvacuous : exists a b : list Qc, let inn := inner 0%Qc Qcplus Qcmult in length a = length b /\ inn b b <> 0%Qc /\ project 0%Qc Qcplus Qcmult Qcdiv a b = Q2Qc (11 # 25) /\
  normalize 0%Qc Qcplus Qcmult Qcdiv (fun _ => Q2Qc 5) b 1%Qc = [Q2Qc (3 # 5); Q2Qc (4 # 5)] /\ (Q2Qc 5 * Q2Qc 5 = norm 0 Qcplus Qcmult b)%Qc /\
  field_theory 0%Qc 1%Qc Qcplus Qcmult Qcminus Qcopp Qcdiv Qcinv eq.
Proof.
  exists [Q2Qc 1; Q2Qc 2], [Q2Qc 3; Q2Qc 4]. split; [reflexivity|]. split; [intros H; apply (f_equal this) in H; vm_compute in H; discriminate|].
  split; [apply Qc_is_canon; reflexivity|]. split; [cbn [normalize vscale map]; apply (f_equal2 (@cons Qc)); [apply Qc_is_canon; reflexivity|]; apply (f_equal2 (@cons Qc)); [apply Qc_is_canon|]; reflexivity|].
  split; [apply Qc_is_canon; reflexivity|exact Qcft].
Qed.
Example C85_case : outer3 Z.mul Z.sub [1; 2; 3]%Z [4; 5; 7]%Z = [-1; 5; -3]%Z /\ outer2 0%Z Z.mul Z.sub [1; 2]%Z [4; 5]%Z = (-3)%Z /\
  vadd Z.add [1; 2; 3; 4; 5]%Z [10; 20; 30; 40; 50]%Z = [11; 22; 33; 44; 55]%Z /\ inner 0%Z Z.add Z.mul [1; 2; 3; 4]%Z [4; 3; 2; 1]%Z = 20%Z.
Proof. repeat split. Qed.
Example C86_nonvacuous : vltb Z.eqb Z.ltb [1; 2; 9]%Z [1; 3; 0]%Z = true /\ vltb Z.eqb Z.ltb [1; 2; 9]%Z [1; 2; 9]%Z = false /\ vwrite (TNum true 32) [1; -20]%Z = str "1 -20" /\
  vread (TNum true 32) 2 {| left := str "1 -20,"; atend := false; bad := false |} = Ok ([1; -20]%Z, {| left := str ","; atend := false; bad := false |}) /\
  vread (TNum true 32) 2 {| left := str "1 x"; atend := false; bad := false |} = Ok ([1; 0]%Z, {| left := []; atend := false; bad := true |}) /\
  vread (TNum true 32) 2 {| left := str "17"; atend := false; bad := false |} = UB.
Proof. repeat split; vm_compute; reflexivity. Qed.
(** A number that does not fit is stored as the nearest that does, and the stream fails. *)
Theorem C86_overflow : forall sgn b x y, (0 < b)%Z -> ~ (lo (TNum sgn b) <= y <= hi (TNum sgn b))%Z -> (lo (TNum sgn b) <= x <= hi (TNum sgn b))%Z -> (sgn = true \/ 0 <= y \/ 2 ^ b <= - y)%Z ->
  exists i, vread (TNum sgn b) 2 {| left := show_int x ++ [32%Z] ++ show_int y; atend := false; bad := false |} =
  Ok ([x; if (sgn && (y <? 0)%Z)%bool then lo (TNum sgn b) else hi (TNum sgn b)], i) /\ bad i = true.
Proof. exact vread_overflow. Qed.

Print Assumptions C85_components.
Print Assumptions C85_module.
Print Assumptions C85_inner.
Print Assumptions C85_outer2.
Print Assumptions C85_outer3.
Print Assumptions C85_division.
Print Assumptions C85_normalize_partial.
Print Assumptions C85_integers_refuted.
Print Assumptions C86_order.
Print Assumptions C86_index.
Print Assumptions C86_index_refuted.
Print Assumptions C86_arrays.
Print Assumptions C86_text.
Print Assumptions C86_short_refuted.
Print Assumptions C86_overflow.
