(** Proofs about vectors. *)
From Verif Require Import Common CommonLemmas NumText_Model Cast_Spec Cast_Model NumText_Proof Cast_Proof Vector_Spec Vector_Model.
From Coq Require Import Ring_theory Field_theory Ring Field.
Local Open Scope nat_scope.

Section any.
Context {T : Type} (d : T).
Lemma both_len (f : T -> T -> T) : forall a b, length a = length b -> length (both f a b) = length a.
Proof. induction a as [|x a IH]; intros [|y b] H; try discriminate; [reflexivity|]. cbn in *. rewrite IH; lia. Qed.
Lemma both_nth (f : T -> T -> T) : forall a b, length a = length b -> forall i, i < length a -> nth i (both f a b) d = f (nth i a d) (nth i b d).
Proof. induction a as [|x a IH]; intros [|y b] H i Hi; try discriminate; [cbn in Hi; lia|]. cbn in *. destruct i as [|i]; [reflexivity|]. apply IH; lia. Qed.
Lemma map_comp (f : T -> T) a : components d (length a) (map f a) (fun i => f (nth i a d)).
Proof. split; [apply map_length|]. intros i Hi. rewrite (nth_indep (map f a) d (f d)) by now rewrite map_length. apply map_nth. Qed.
Lemma comp_eq n (a b : list T) : length a = n -> length b = n -> (forall i, i < n -> nth i a d = nth i b d) -> a = b.
Proof. intros La Lb H. apply nth_ext with d d; [congruence|]. intros i Hi. apply H. lia. Qed.
End any.

Section ring.
Context {T : Type} (tO tI : T) (tadd tmul tsub : T -> T -> T) (topp : T -> T) (Tth : ring_theory tO tI tadd tmul tsub topp eq).
Add Ring Tring : Tth.
Declare Scope t_scope.
Infix "+" := tadd : t_scope. Infix "*" := tmul : t_scope. Infix "-" := tsub : t_scope. Notation "0" := tO : t_scope. Notation "1" := tI : t_scope.
Delimit Scope t_scope with t.
Notation vadd := (vadd tadd). Notation vsub := (vsub tsub). Notation vneg := (vneg topp). Notation vscale := (vscale tmul). Notation inner := (inner tO tadd tmul).
Notation total := (total tO tadd).
Lemma total_shift n f : total (S n) f = (f O + total n (fun i => f (S i)))%t.
Proof. induction n as [|n IH]; [cbn; ring|]. change (total (S (S n)) f) with (total (S n) f + f (S n))%t. rewrite IH. cbn [Vector_Spec.total]. ring. Qed.
Lemma total_ext n f g : (forall i, i < n -> f i = g i) -> total n f = total n g.
Proof. induction n as [|n IH]; intros H; [reflexivity|]. cbn. rewrite IH, H by (intros; try apply H; lia). reflexivity. Qed.
Lemma fold_total : forall ps p, fold_left tadd ps p = (p + total (length ps) (fun i => nth i ps 0%t))%t.
Proof.
  induction ps as [|q ps IH]; intros p; [cbn; ring|]. cbn [fold_left length]. rewrite IH, total_shift. cbn [nth]. ring.
Qed.
Lemma inner_total a b : length a = length b -> inner a b = total (length a) (fun i => nth i a 0%t * nth i b 0%t)%t.
Proof.
  intros L. unfold Vector_Model.inner. pose proof (both_len tmul a b L) as Lp. pose proof (both_nth 0%t tmul a b L) as Np.
  destruct (both tmul a b) as [|p ps] eqn:E; [destruct a; [reflexivity|discriminate]|]. cbn [length] in Lp. rewrite <- Lp, fold_total, total_shift.
  rewrite <- Lp in Np. rewrite <- (Np O) by lia. cbn [nth]. f_equal. apply total_ext. intros i Hi. now rewrite <- (Np (S i)) by lia.
Qed.
Lemma inner_nil b : inner [] b = 0%t. Proof. reflexivity. Qed.
Lemma inner_cons x a y b : length a = length b -> inner (x :: a) (y :: b) = (x * y + inner a b)%t.
Proof. intros L. rewrite !inner_total by (cbn; congruence). cbn [length]. rewrite total_shift. reflexivity. Qed.
Ltac vec a b := revert b; induction a as [|x a IH]; intros [|y b] Lab; try discriminate; [reflexivity|].
Lemma add_comm a b : length a = length b -> vadd a b = vadd b a.
Proof. vec a b. cbn in *. f_equal; [ring|]. apply IH. lia. Qed.
Lemma add_assoc a b c : length a = length b -> length b = length c -> vadd a (vadd b c) = vadd (vadd a b) c.
Proof. revert b c. induction a as [|x a IH]; intros [|y b] [|z c] L1 L2; try discriminate; [reflexivity|]. cbn in *. f_equal; [ring|]. apply IH; lia. Qed.
Lemma add_zero a : vadd a (vzero tO (length a)) = a.
Proof. induction a as [|x a IH]; [reflexivity|]. cbn in *. f_equal; [ring|exact IH]. Qed.
Lemma add_neg a : vadd a (vneg a) = vzero tO (length a).
Proof. induction a as [|x a IH]; [reflexivity|]. cbn in *. f_equal; [ring|exact IH]. Qed.
Lemma sub_neg a b : length a = length b -> vsub a b = vadd a (vneg b).
Proof. vec a b. cbn in *. f_equal; [ring|]. apply IH. lia. Qed.
Lemma scale_add m a b : length a = length b -> vscale m (vadd a b) = vadd (vscale m a) (vscale m b).
Proof. vec a b. cbn in *. f_equal; [ring|]. apply IH. lia. Qed.
Lemma scale_plus m n a : vscale (m + n)%t a = vadd (vscale m a) (vscale n a).
Proof. induction a as [|x a IH]; [reflexivity|]. cbn in *. f_equal; [ring|exact IH]. Qed.
Lemma scale_mul m n a : vscale (m * n)%t a = vscale m (vscale n a).
Proof. induction a as [|x a IH]; [reflexivity|]. cbn in *. f_equal; [ring|exact IH]. Qed.
Lemma scale_one a : vscale 1%t a = a.
Proof. induction a as [|x a IH]; [reflexivity|]. cbn in *. f_equal; [ring|exact IH]. Qed.
Lemma scale_len m a : length (vscale m a) = length a. Proof. apply map_length. Qed.
Lemma neg_len a : length (vneg a) = length a. Proof. apply map_length. Qed.
Lemma add_len a b : length a = length b -> length (vadd a b) = length a. Proof. apply both_len. Qed.
Lemma sub_len a b : length a = length b -> length (vsub a b) = length a. Proof. apply both_len. Qed.
Lemma inner_sym a b : length a = length b -> inner a b = inner b a.
Proof. vec a b. cbn in Lab. rewrite !inner_cons by lia. rewrite IH by lia. ring. Qed.
Lemma inner_add a b c : length a = length b -> length b = length c -> inner (vadd a b) c = (inner a c + inner b c)%t.
Proof.
  revert b c. induction a as [|x a IH]; intros [|y b] [|z c] L1 L2; try discriminate; [cbn; ring|]. cbn in L1, L2.
  change (vadd (x :: a) (y :: b)) with ((x + y)%t :: vadd a b). rewrite !inner_cons by (rewrite ?add_len; lia). rewrite IH by lia. ring.
Qed.
Lemma inner_scale m a b : length a = length b -> inner (vscale m a) b = (m * inner a b)%t.
Proof. revert b; induction a as [|x a IH]; intros [|y b] Lab; try discriminate; [cbn; ring|]. cbn in Lab. change (vscale m (x :: a)) with ((m * x)%t :: vscale m a). rewrite !inner_cons by (rewrite ?scale_len; lia). rewrite IH by lia. ring. Qed.
End ring.

Section outer.
Context {T : Type} (tO tI : T) (tadd tmul tsub : T -> T -> T) (topp : T -> T) (Tth : ring_theory tO tI tadd tmul tsub topp eq).
Add Ring Tring2 : Tth.
Lemma outer2_laws : forall a b c m, length a = 2 -> length b = 2 -> length c = 2 ->
  let out := outer2 tO tmul tsub in let inn := inner tO tadd tmul in
  out [tI; tO] [tO; tI] = tI /\ out a a = tO /\ out a b = topp (out b a) /\ out (vadd tadd a b) c = tadd (out a c) (out b c) /\ out (vscale tmul m a) b = tmul m (out a b) /\
  tadd (tmul (out a b) (out a b)) (tmul (inn a b) (inn a b)) = tmul (inn a a) (inn b b).
Proof.
  intros a b c m La Lb Lc.
  destruct a as [|ax [|ay [|? ?]]]; try discriminate. destruct b as [|bx [|by_ [|? ?]]]; try discriminate. destruct c as [|cx [|cy [|? ?]]]; try discriminate.
  cbn. repeat split; ring.
Qed.
Lemma outer3_laws : forall a b c m, length a = 3 -> length b = 3 -> length c = 3 ->
  let out := outer3 tmul tsub in let inn := inner tO tadd tmul in let add := vadd tadd in let sq x := tmul x x in
  out [tI; tO; tO] [tO; tI; tO] = [tO; tO; tI] /\ inn (out a b) a = tO /\ inn (out a b) b = tO /\ out a a = vzero tO 3 /\ out a b = vneg topp (out b a) /\
  out (add a b) c = add (out a c) (out b c) /\ out (vscale tmul m a) b = vscale tmul m (out a b) /\
  tadd (inn (out a b) (out a b)) (sq (inn a b)) = tmul (inn a a) (inn b b) /\
  inn (out a b) c = inn a (out b c) /\ out a (out b c) = vsub tsub (vscale tmul (inn a c) b) (vscale tmul (inn a b) c) /\
  add (out a (out b c)) (add (out b (out c a)) (out c (out a b))) = vzero tO 3.
Proof.
  intros a b c m La Lb Lc.
  destruct a as [|ax [|ay [|az [|? ?]]]]; try discriminate. destruct b as [|bx [|by_ [|bz [|? ?]]]]; try discriminate. destruct c as [|cx [|cy [|cz [|? ?]]]]; try discriminate.
  cbn. repeat split; repeat (f_equal; [ring|]); try ring; f_equal; ring.
Qed.
End outer.
Section over_field.
Context {F : Type} (fO fI : F) (fadd fmul fsub : F -> F -> F) (fopp : F -> F) (fdiv : F -> F -> F) (finv : F -> F) (Fth : field_theory fO fI fadd fmul fsub fopp fdiv finv eq).
Let Tth := F_R Fth.
Add Field Ffield : Fth.
Lemma division_laws : forall n a b m, length a = n -> length b = n ->
  (m <> fO -> vscale fmul m (vdiv fdiv a m) = a) /\
  (inner fO fadd fmul b b <> fO -> forall k, inner fO fadd fmul (vsub fsub a (vscale fmul k b)) b = fO <-> k = project fO fadd fmul fdiv a b).
Proof.
  intros n a b m La Lb. split.
  - intros Hm. unfold vscale, vdiv. rewrite map_map. rewrite <- (map_id a) at 2. apply map_ext. intros x. field. exact Hm.
  - intros Hb k. rewrite (sub_neg fO fI fadd fmul fsub fopp Tth) by (rewrite ?scale_len; congruence).
    replace (vneg fopp (vscale fmul k b)) with (vscale fmul (fopp k) b) by (unfold vneg, vscale; rewrite map_map; apply map_ext; intros; ring).
    rewrite (inner_add fO fI fadd fmul fsub fopp Tth) by (rewrite ?scale_len; congruence). rewrite (inner_scale fO fI fadd fmul fsub fopp Tth) by auto. unfold project.
    set (ab := inner fO fadd fmul a b). set (bb := inner fO fadd fmul b b) in *. split.
    + intros H. transitivity (fdiv (fadd ab (fsub (fmul k bb) ab)) bb); [field; exact Hb|]. replace (fsub (fmul k bb) ab) with fO; [f_equal; ring|].
      transitivity (fopp (fadd ab (fmul (fopp k) bb))); [rewrite H; ring|ring].
    + intros ->. field. exact Hb.
Qed.
Lemma normalize_partial_laws : forall sqrt a b,
  let r := sqrt (norm fO fadd fmul a) in fmul r r = norm fO fadd fmul a -> r <> fO ->
  norm fO fadd fmul (normalize fO fadd fmul fdiv sqrt a b) = fmul b b /\ vscale fmul r (normalize fO fadd fmul fdiv sqrt a b) = vscale fmul b a.
Proof.
  intros sqrt a b r Hr Hn. unfold normalize, vabs. fold r. split.
  - unfold norm in *. rewrite (inner_scale fO fI fadd fmul fsub fopp Tth) by now rewrite scale_len.
    rewrite (inner_sym fO fI fadd fmul fsub fopp Tth) by now rewrite scale_len. rewrite (inner_scale fO fI fadd fmul fsub fopp Tth) by reflexivity. rewrite <- Hr. field. exact Hn.
  - unfold vscale. rewrite map_map. apply map_ext. intros x. field. exact Hn.
Qed.
End over_field.

Section order.
Context {T : Type} (d : T) (lt : T -> T -> Prop) (teqb tltb : T -> T -> bool)
  (Heq : forall x y, teqb x y = true <-> x = y) (Hlt : forall x y, tltb x y = true <-> lt x y)
  (Irr : forall x, ~ lt x x) (Trans : forall x y z, lt x y -> lt y z -> lt x z) (Tot : forall x y, lt x y \/ x = y \/ lt y x).
Lemma veqb_spec : forall a b, length a = length b -> (veqb teqb a b = true <-> a = b).
Proof.
  induction a as [|x a IH]; intros [|y b] L; try discriminate; [cbn; tauto|]. cbn [veqb]. rewrite andb_true_iff, Heq, IH by (cbn in L; lia).
  split; [intros [-> ->]; reflexivity|]. intros E. injection E as -> ->. auto.
Qed.
Lemma vltb_cons x y a b : length a = length b -> (vltb teqb tltb (x :: a) (y :: b) = true <-> lt x y \/ (x = y /\ a <> [] /\ vltb teqb tltb a b = true)).
Proof.
  intros L. cbn [vltb]. destruct a as [|x' a].
  - rewrite Hlt. split; [auto|]. intros [H|(_ & H & _)]; congruence.
  - destruct (teqb x y) eqn:E; cbn [negb].
    + apply Heq in E as ->. split; [intros H; right; split; [reflexivity|split; [congruence|exact H]]|]. intros [H|(_ & _ & H)]; [elim (Irr _ H)|exact H].
    + rewrite Hlt. split; [auto|]. intros [H|(H & _ & _)]; [exact H|]. apply Heq in H. congruence.
Qed.
Lemma vltb_before : forall a b, length a = length b -> (vltb teqb tltb a b = true <-> before d lt (length a) a b).
Proof.
  induction a as [|x a IH]; intros [|y b] L; try discriminate.
  - cbn. split; [discriminate|]. intros (i & Hi & _). lia.
  - cbn in L. rewrite vltb_cons by lia. rewrite IH by lia. split.
    + intros [H|(-> & N & i & Hi & H & P)]; [exists 0; cbn; split; [lia|split; [exact H|intros j Hj; lia]]|]. exists (S i). cbn [length nth]. split; [lia|]. split; [exact H|].
      intros [|j] Hj; [reflexivity|]. apply P. lia.
    + intros ([|i] & Hi & H & P); cbn [nth length] in *; [now left|]. right. split; [exact (P 0 ltac:(lia))|]. split; [destruct a; [cbn in Hi; lia|congruence]|].
      exists i. split; [lia|]. split; [exact H|]. intros j Hj. exact (P (S j) ltac:(lia)).
Qed.
Lemma before_irr n a : ~ before d lt n a a.
Proof. intros (i & _ & H & _). exact (Irr _ H). Qed.
Lemma before_trans n a b c : before d lt n a b -> before d lt n b c -> before d lt n a c.
Proof.
  intros (i & Hi & H & P) (j & Hj & K & Q). destruct (Nat.lt_trichotomy i j) as [C|[->|C]].
  - exists i. split; [exact Hi|]. split; [rewrite <- (Q i C); exact H|]. intros k Hk. rewrite P, Q by lia. reflexivity.
  - exists j. split; [exact Hj|]. split; [eapply Trans; eassumption|]. intros k Hk. rewrite P, Q by lia. reflexivity.
  - exists j. split; [exact Hj|]. split; [rewrite (P j C); exact K|]. intros k Hk. rewrite P, Q by lia. reflexivity.
Qed.
Lemma before_total : forall a b, length a = length b -> before d lt (length a) a b \/ a = b \/ before d lt (length a) b a.
Proof.
  induction a as [|x a IH]; intros [|y b] L; try discriminate; [auto|]. cbn in L. destruct (Tot x y) as [H|[->|H]].
  - left. exists 0. cbn. split; [lia|]. split; [exact H|]. intros; lia.
  - assert (S1 : forall a b, before d lt (length a) a b -> before d lt (S (length a)) (y :: a) (y :: b)).
    { intros p q (i & Hi & H & P). exists (S i). split; [lia|]. split; [exact H|]. intros [|j] Hj; [reflexivity|]. apply P. lia. }
    destruct (IH b ltac:(lia)) as [H|[->|H]]; [left; now apply S1|auto|right; right]. cbn [length]. replace (length a) with (length b) in * by lia. now apply S1.
  - right. right. exists 0. cbn. split; [lia|]. split; [exact H|]. intros; lia.
Qed.
End order.

(** text *)
Local Open Scope Z_scope.
Definition after (rest : list Z) : istr := {| left := rest; atend := match rest with [] => true | _ => false end; bad := false |}.
Lemma show_head n : exists c s, show_int n = c :: s /\ isspace c = false.
Proof.
  unfold show_int. destruct (Z.ltb_spec n 0) as [H|H]; [exists 45, (dec_text (- n)); split; reflexivity|].
  pose proof (dec_text_nonempty n H) as N. pose proof (dec_text_digits n H) as D. destruct (dec_text n) as [|c s]; [congruence|]. exists c, s. split; [reflexivity|].
  pose proof (Forall_inv D) as Dc. cbn beta in Dc. unfold isdigit in Dc. unfold isspace. lia.
Qed.
Lemma get_num_show sgn b n rest : 0 < b -> lo (TNum sgn b) <= n <= hi (TNum sgn b) -> (match rest with [] => True | c :: _ => ~ digit c end) ->
  forall ws, Forall (fun c => isspace c = true) ws ->
  get_num (TNum sgn b) {| left := ws ++ show_int n ++ rest; atend := false; bad := false |} = (Some n, after rest).
Proof.
  intros Hb Hn Hr ws Hws. unfold get_num. cbn [atend bad orb left]. destruct (show_head n) as (c & s & E & Hc).
  replace (skip_ws (ws ++ show_int n ++ rest)) with (show_int n ++ rest).
  2: { induction ws as [|x ws IH]; [rewrite E; cbn; now rewrite Hc|]. cbn [app skip_ws]. rewrite (Forall_inv Hws). apply IH. now apply Forall_inv_tail in Hws. }
  pose proof (scan_leading _ _ _ _ (leading_show n rest Hr)) as SC.
  assert (X : extract (TNum sgn b) (show_int n ++ rest) = Some n).
  { destruct sgn; cbn [extract]; rewrite (scan_leading _ _ _ _ (leading_show n rest Hr)).
    - destruct (Z.ltb_spec n 0).
      + replace (- Z.abs n) with n by lia. now replace ((lo (TNum true b) <=? n) && (n <=? hi (TNum true b))) with true by lia.
      + replace (Z.abs n) with n by lia. now replace ((lo (TNum true b) <=? n) && (n <=? hi (TNum true b))) with true by lia.
    - cbn [lo] in Hn. destruct (Z.ltb_spec n 0); [lia|]. replace (Z.abs n) with n by lia. now replace (n <=? hi (TNum false b)) with true by lia. }
  rewrite E in *. cbn [app] in *. rewrite SC, X. reflexivity.
Qed.
Definition in_type (t : ty) (x : Z) : Prop := lo t <= x <= hi t.
Lemma get_nums_show sgn b : 0 < b -> forall a rest ws, a <> [] -> Forall (in_type (TNum sgn b)) a -> (match rest with [] => True | c :: _ => ~ digit c end) ->
  Forall (fun c => isspace c = true) ws ->
  get_nums (TNum sgn b) (length a) {| left := ws ++ vwrite (TNum sgn b) a ++ rest; atend := false; bad := false |} = (map Some a, after rest).
Proof.
  intros Hb. induction a as [|x a IH]; intros rest ws N F Hr Hws; [congruence|]. pose proof (Forall_inv F) as Fx. apply Forall_inv_tail in F.
  cbn [length get_nums vwrite insert]. destruct a as [|y a].
  - rewrite app_nil_r. rewrite get_num_show by assumption. reflexivity.
  - set (t := TNum sgn b) in *. rewrite <- app_assoc. cbn [app].
    rewrite (get_num_show sgn b x (32 :: vwrite t (y :: a) ++ rest)) by (try assumption; unfold digit; lia).
    unfold after at 1. specialize (IH rest [32] ltac:(congruence) F Hr). cbn [app] in IH. rewrite IH by (constructor; [reflexivity|constructor]). reflexivity.
Qed.
Lemma settled_some a : settled (map Some a) = Ok a.
Proof. induction a as [|x a IH]; [reflexivity|]. cbn. now rewrite IH. Qed.
Lemma get_num_dead t i : atend i || bad i = true -> fst (get_num t i) = None.
Proof. unfold get_num. now intros ->. Qed.
Lemma settled_none l : In None l -> settled l = UB.
Proof. induction l as [|[v|] l IH]; intros H; [destruct H| |reflexivity]. destruct H as [H|H]; [discriminate|]. cbn. now rewrite IH. Qed.
Lemma get_nums_plus t k m : forall i, get_nums t (k + m) i = (let (u, i) := get_nums t k i in let (v, i) := get_nums t m i in (u ++ v, i)).
Proof.
  induction k as [|k IH]; intros i; cbn [Nat.add get_nums]; [now destruct (get_nums t m i)|]. destruct (get_num t i) as [v j]. rewrite IH.
  destruct (get_nums t k j) as [vs j1]. now destruct (get_nums t m j1).
Qed.
Lemma skip_blank ws : Forall (fun c => isspace c = true) ws -> skip_ws ws = [].
Proof. induction 1 as [|c ws Hc _ IH]; [reflexivity|]. cbn. now rewrite Hc. Qed.
Lemma get_num_blank t ws e : Forall (fun c => isspace c = true) ws -> fst (get_num t {| left := ws; atend := e; bad := false |}) = None.
Proof. intros H. unfold get_num. cbn [atend bad left]. destruct e; [reflexivity|]. cbn [orb]. now rewrite skip_blank. Qed.
Lemma vread_short sgn b a n rest : 0 < b -> Forall (in_type (TNum sgn b)) a -> (length a < n)%nat -> Forall (fun c => isspace c = true) rest ->
  vread (TNum sgn b) n {| left := vwrite (TNum sgn b) a ++ rest; atend := false; bad := false |} = UB.
Proof.
  intros Hb F Hn Hr. unfold vread. replace n with (length a + S (n - length a - 1))%nat by lia. rewrite get_nums_plus.
  assert (G : exists u e, get_nums (TNum sgn b) (length a) {| left := vwrite (TNum sgn b) a ++ rest; atend := false; bad := false |} = (u, {| left := rest; atend := e; bad := false |})).
  { destruct a as [|x a]; [exists [], false; reflexivity|]. exists (map Some (x :: a)), (match rest with [] => true | _ => false end).
    apply (get_nums_show sgn b Hb (x :: a) rest []); [congruence|assumption| |constructor]. destruct rest as [|c r]; [exact I|]. apply Forall_inv in Hr. unfold isspace in Hr. unfold digit. lia. }
  destruct G as (u & e & ->). cbn [get_nums]. pose proof (get_num_blank (TNum sgn b) rest e Hr) as B. destruct (get_num _ _) as [v j]. cbn in B. subst v.
  destruct (get_nums (TNum sgn b) _ j) as [vs j']. rewrite settled_none; [reflexivity|]. apply in_or_app. right. now left.
Qed.
Lemma vread_overflow sgn b x y : 0 < b -> ~ (lo (TNum sgn b) <= y <= hi (TNum sgn b)) -> lo (TNum sgn b) <= x <= hi (TNum sgn b) -> (sgn = true \/ 0 <= y \/ 2 ^ b <= - y) ->
  exists i, vread (TNum sgn b) 2 {| left := show_int x ++ [32] ++ show_int y; atend := false; bad := false |} =
  Ok ([x; if (sgn && (y <? 0))%bool then lo (TNum sgn b) else hi (TNum sgn b)], i) /\ bad i = true.
Proof.
  intros Hb Hy Hx Hs. unfold vread. cbn [get_nums]. pose proof (get_num_show sgn b x ([32] ++ show_int y) Hb Hx ltac:(cbn; unfold digit; lia) [] ltac:(constructor)) as E.
  cbn [app] in E |- *. rewrite E. unfold after, get_num. cbn [atend bad orb left skip_ws]. change (isspace 32) with true. cbv iota.
  destruct (show_head y) as (c & s & Ey & Hc). pose proof (leading_show y [] I) as LS. rewrite app_nil_r in LS. pose proof (scan_leading _ _ _ _ LS) as SC.
  assert (P : 0 < 2 ^ (b - 1)) by (apply Z.pow_pos_nonneg; lia). assert (Q : 0 < 2 ^ b) by (apply Z.pow_pos_nonneg; lia).
  assert (X : extract (TNum sgn b) (show_int y) = None).
  { destruct sgn; cbn [extract]; rewrite SC; cbn [lo hi] in *.
    - destruct (Z.ltb_spec y 0).
      + replace (- Z.abs y) with y by lia. now replace ((- 2 ^ (b - 1) <=? y) && (y <=? 2 ^ (b - 1) - 1)) with false by lia.
      + replace (Z.abs y) with y by lia. now replace ((- 2 ^ (b - 1) <=? y) && (y <=? 2 ^ (b - 1) - 1)) with false by lia.
    - now replace (Z.abs y <=? 2 ^ b - 1) with false by (destruct Hs as [Hs|Hs]; [discriminate|]; lia). }
  replace (skip_ws (show_int y)) with (show_int y) by (rewrite Ey; cbn [skip_ws]; now rewrite Hc). rewrite Ey in SC, X |- *. rewrite SC, X. cbn [settled obind]. match goal with |- context [Ok (_, ?j)] => exists j end. split; [|reflexivity].
  do 3 f_equal. f_equal. destruct sgn; cbn [lo andb]; [replace (- 2 ^ (b - 1) <? 0) with true by lia; now rewrite andb_true_r|]. change (0 <? 0) with false. now rewrite andb_false_r.
Qed.
