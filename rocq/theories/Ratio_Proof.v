(** Rational arithmetic. *)
From Coq Require Import QArith Znumtheory.
From Verif Require Import Common CommonLemmas NumText_Model NumText_Proof Ratio_Spec Ratio_Model.
Local Open Scope Z_scope.

Section T.
Context (fits : Z -> bool).
Context (L : Z).
Definition unbounded : Prop := forall z, Z.abs z <= L -> fits z = true.
(** Either v or an overflow of a number up to L. *)
Definition res {A} (o : outcome A) (v : A) : Prop := o = Ok v \/ (o = UB /\ ~ unbounded).

Lemma res_bind {A B} (o : outcome A) v (k : A -> outcome B) w : res o v -> res (k v) w -> res (obind o k) w.
Proof. intros [-> | [-> H]] Hk; [exact Hk|right; auto]. Qed.
Lemma res_ok {A} (v : A) : res (Ok v) v.
Proof. now left. Qed.
Lemma res_chk z : Z.abs z <= L -> res (chk fits z) z.
Proof. intros Hz. unfold chk. destruct (fits z) eqn:E; [now left|right]. split; [reflexivity|]. intros H. rewrite H in E; [discriminate|exact Hz]. Qed.
Lemma res_div a b k : b <> 0 -> Z.abs a <= L -> a = k * b -> res (div fits a b) k.
Proof.
  intros Hb Ha ->. unfold div. rewrite (proj2 (Z.eqb_neq b 0) Hb), Z.quot_mul by exact Hb. apply res_chk. nia.
Qed.
Lemma res_rem a b : 0 <= a <= L -> 0 < b -> res (rem fits a b) (Z.rem a b).
Proof.
  intros Ha Hb. unfold rem. replace (b =? 0) with false by lia. rewrite Z.quot_div_nonneg, Z.rem_mod_nonneg by lia.
  assert (H0 : 0 <= a / b <= a) by (split; [apply Z.div_pos; lia|apply Z.div_le_upper_bound; nia]).
  pose proof (Z.mod_le a b ltac:(lia) Hb). pose proof (Z.mod_pos_bound a b Hb).
  destruct (fits (a / b)) eqn:E; [apply res_chk; lia|right].
  split; [reflexivity|]. intros HU. rewrite HU in E; [discriminate|lia].
Qed.

Context (B : Z) (HL : 2 * B * B <= L).
Definition within (r : Z * Z) : Prop := Z.abs (fst r) <= B /\ Z.abs (snd r) <= B.
Ltac BND := first [lia | nia].
Lemma gcd_rem a b : 0 <= a -> 0 < b -> Z.gcd (Z.rem a b) b = Z.gcd a b /\ 0 <= Z.rem a b < b.
Proof.
  intros Ha Hb. rewrite Z.rem_mod_nonneg by lia. split; [|apply Z.mod_pos_bound; lia].
  rewrite Z.gcd_mod by lia. apply Z.gcd_comm.
Qed.
Lemma gcd_loop_res : forall f a b, 0 <= a <= L -> 0 < b <= L -> (Z.to_nat b < f)%nat -> res (gcd_loop fits f a b) (Z.gcd a b).
Proof.
  induction f as [|f IH]; intros a b Ha Hb Hf; [lia|]. cbn [gcd_loop].
  destruct (gcd_rem a b) as [E1 H1]; [lia..|]. eapply res_bind; [apply res_rem; lia|].
  destruct (Z.eqb_spec (Z.rem a b) 0) as [E|E].
  - rewrite <- E1, E, Z.gcd_0_l, Z.abs_eq by lia. apply res_ok.
  - assert (Ha' : 0 < Z.rem a b) by lia.
    destruct (gcd_rem b (Z.rem a b) ltac:(lia) Ha') as [E2 H2]. eapply res_bind; [apply res_rem; lia|].
    destruct (Z.eqb_spec (Z.rem b (Z.rem a b)) 0) as [E0|E0].
    + rewrite <- E1, Z.gcd_comm, <- E2, E0, Z.gcd_0_l, Z.abs_eq by lia. apply res_ok.
    + rewrite <- E1. replace (Z.gcd (Z.rem a b) b) with (Z.gcd (Z.rem a b) (Z.rem b (Z.rem a b))).
      * apply IH; lia.
      * rewrite (Z.gcd_comm (Z.rem a b) b), <- E2. apply Z.gcd_comm.
Qed.
Lemma gcd_res a b : b <> 0 -> Z.abs a <= L -> Z.abs b <= L -> res (gcd fits a b) (Z.gcd a b).
Proof.
  intros Hb La Lb. unfold gcd. eapply res_bind; [apply res_chk; lia|]. eapply res_bind; [apply res_chk; lia|].
  rewrite <- (Z.gcd_abs_l a), <- (Z.gcd_abs_r _ b). apply gcd_loop_res; lia.
Qed.
Lemma gcd_parts a b : b <> 0 -> exists x y, let g := Z.gcd a b in 0 < g /\ a = x * g /\ b = y * g /\ Z.gcd x y = 1.
Proof.
  intros Hb. destruct (Z.gcd_divide_l a b) as [x Hx]. destruct (Z.gcd_divide_r a b) as [y Hy].
  assert (Hg : 0 < Z.gcd a b).
  { pose proof (Z.gcd_nonneg a b). assert (Z.gcd a b <> 0); [|lia]. intros E. apply Z.gcd_eq_0_r in E. lia. }
  exists x, y. cbv zeta. split; [exact Hg|]. split; [exact Hx|]. split; [exact Hy|].
  assert (E : Z.gcd a b = Z.gcd a b * Z.gcd x y).
  { rewrite Hx at 1. rewrite Hy at 2. rewrite (Z.mul_comm x), (Z.mul_comm y), Z.gcd_mul_mono_l_nonneg by lia. reflexivity. }
  nia.
Qed.

(** The lowest terms of n/d. *)
Definition is_lowest (n d : Z) (r : Z * Z) : Prop := lowest r /\ fst r * d = n * snd r.
Lemma reduce_res n d : 0 < d -> Z.abs n <= L -> Z.abs d <= L -> exists r, res (reduce fits (n, d)) r /\ is_lowest n d r.
Proof.
  intros Hd Ln Ld. destruct (gcd_parts n d ltac:(lia)) as (x & y & Hg & Hx & Hy & Hc).
  assert (Hy0 : 0 < y) by nia. assert (Hgd : Z.gcd n d <= d) by nia. exists (x, y). split.
  - unfold reduce. cbn [fst snd]. eapply res_bind; [apply gcd_res; BND|]. rewrite (proj2 (Z.ltb_lt 0 d) Hd).
    eapply res_bind; [apply res_chk; BND|]. rewrite Z.mul_1_r.
    eapply res_bind; [apply (res_div _ _ x); [lia|BND|exact Hx]|]. eapply res_bind; [apply (res_div _ _ y); [lia|BND|exact Hy]|]. apply res_ok.
  - split; [split; cbn [fst snd]; [nia|exact Hc]|]. cbn [fst snd]. set (g := Z.gcd n d) in *. clearbody g. subst n d. ring.
Qed.
Lemma make_res n d : d <> 0 -> Z.abs n <= L -> Z.abs d <= L -> exists r, res (make fits n d) r /\ is_lowest n d r.
Proof.
  intros Hd Ln Ld. unfold make. destruct (Z.ltb_spec d 0) as [H|H].
  - destruct (reduce_res (n * -1) (d * -1) ltac:(lia) ltac:(lia) ltac:(lia)) as (r & Hr & Hl & Hv). exists r. split.
    + apply (res_bind _ (n * -1, d * -1)); [|exact Hr]. eapply res_bind; [apply res_chk; BND|]. eapply res_bind; [apply res_chk; BND|]. apply res_ok.
    + split; [exact Hl|]. nia.
  - destruct (reduce_res n d ltac:(lia) Ln Ld) as (r & Hr & Hl). exists r. split; [|exact Hl]. exact Hr.
Qed.

Lemma plus_res a b : lowest a -> lowest b -> within a -> within b ->
  exists r, res (plus fits a b) r /\ is_lowest (fst a * snd b + fst b * snd a) (snd a * snd b) r.
Proof.
  intros [Ha _] [Hb _] [La1 La2] [Lb1 Lb2]. destruct a as [p q], b as [r s]. cbn [fst snd] in *.
  destruct (gcd_parts q s ltac:(lia)) as (q' & s' & Hg & Hq & Hs & _). set (g := Z.gcd q s) in *.
  assert (Hs' : 0 < s') by nia. assert (Hd : 0 < q * s') by nia.
  destruct (reduce_res (p * s' + r * q') (q * s') Hd ltac:(BND) ltac:(BND)) as (t & Ht & Hl & Hv). exists t. split.
  - unfold plus. cbn [fst snd]. eapply res_bind; [apply gcd_res; BND|]. fold g.
    eapply res_bind; [apply (res_div _ _ s'); [lia|BND|exact Hs]|]. eapply res_bind; [apply res_chk; BND|].
    eapply res_bind; [apply (res_div _ _ q'); [lia|BND|exact Hq]|]. eapply res_bind; [apply res_chk; BND|].
    eapply res_bind; [apply res_chk; BND|]. eapply res_bind; [apply (res_div _ _ s'); [lia|BND|exact Hs]|].
    eapply res_bind; [apply res_chk; BND|]. exact Ht.
  - split; [exact Hl|]. destruct t as [n d]. cbn [fst snd] in *. clearbody g. rewrite Hs. replace (n * (q * (s' * g))) with (n * (q * s') * g) by ring.
    rewrite Hv, Hq. ring.
Qed.
Lemma minus_res a b : lowest a -> lowest b -> within a -> within b ->
  exists r, res (minus fits a b) r /\ is_lowest (fst a * snd b - fst b * snd a) (snd a * snd b) r.
Proof.
  intros [Ha _] [Hb _] [La1 La2] [Lb1 Lb2]. destruct a as [p q], b as [r s]. cbn [fst snd] in *.
  destruct (gcd_parts q s ltac:(lia)) as (q' & s' & Hg & Hq & Hs & _). set (g := Z.gcd q s) in *.
  assert (Hs' : 0 < s') by nia. assert (Hd : 0 < q * s') by nia.
  destruct (reduce_res (p * s' - r * q') (q * s') Hd ltac:(BND) ltac:(BND)) as (t & Ht & Hl & Hv). exists t. split.
  - unfold minus. cbn [fst snd]. eapply res_bind; [apply gcd_res; BND|]. fold g.
    eapply res_bind; [apply (res_div _ _ s'); [lia|BND|exact Hs]|]. eapply res_bind; [apply res_chk; BND|].
    eapply res_bind; [apply (res_div _ _ q'); [lia|BND|exact Hq]|]. eapply res_bind; [apply res_chk; BND|].
    eapply res_bind; [apply res_chk; BND|]. eapply res_bind; [apply (res_div _ _ s'); [lia|BND|exact Hs]|].
    eapply res_bind; [apply res_chk; BND|]. exact Ht.
  - split; [exact Hl|]. destruct t as [n d]. cbn [fst snd] in *. clearbody g. rewrite Hs. replace (n * (q * (s' * g))) with (n * (q * s') * g) by ring.
    rewrite Hv, Hq. ring.
Qed.

Lemma rp x y : rel_prime x y <-> Z.gcd x y = 1.
Proof. symmetry. apply Zgcd_1_rel_prime. Qed.
Lemma coprime4 p q r s : Z.gcd p q = 1 -> Z.gcd p s = 1 -> Z.gcd r q = 1 -> Z.gcd r s = 1 -> Z.gcd (p * r) (q * s) = 1.
Proof.
  rewrite <- !rp. intros H1 H2 H3 H4. apply rel_prime_mult; apply rel_prime_sym; apply rel_prime_mult; now apply rel_prime_sym.
Qed.
Lemma coprime_factors p q x y : Z.gcd p q = 1 -> (x | p) -> (y | q) -> Z.gcd x y = 1.
Proof.
  rewrite <- !rp. intros H Hx Hy. apply (rel_prime_div _ _ _ (rel_prime_sym _ _ (rel_prime_div _ _ _ H Hx))) in Hy.
  now apply rel_prime_sym.
Qed.
Lemma factor x g : (x | x * g).
Proof. exists g. ring. Qed.

Lemma times_res a b : lowest a -> lowest b -> within a -> within b -> exists r, res (times fits a b) r /\ is_lowest (fst a * fst b) (snd a * snd b) r.
Proof.
  intros [Ha Ca] [Hb Cb] [La1 La2] [Lb1 Lb2]. destruct a as [p q], b as [r s]. cbn [fst snd] in *.
  destruct (gcd_parts p s ltac:(lia)) as (p' & s' & Hg1 & Hp & Hs & C1). set (g1 := Z.gcd p s) in *.
  destruct (gcd_parts r q ltac:(lia)) as (r' & q' & Hg2 & Hr & Hq & C2). set (g2 := Z.gcd r q) in *.
  exists (p' * r', q' * s'). split.
  - unfold times. cbn [fst snd]. eapply res_bind; [apply gcd_res; BND|]. fold g1. eapply res_bind; [apply gcd_res; BND|]. fold g2.
    eapply res_bind; [apply (res_div _ _ p'); [lia|BND|exact Hp]|]. eapply res_bind; [apply (res_div _ _ r'); [lia|BND|exact Hr]|].
    eapply res_bind; [apply res_chk; BND|]. eapply res_bind; [apply (res_div _ _ q'); [lia|BND|exact Hq]|].
    eapply res_bind; [apply (res_div _ _ s'); [lia|BND|exact Hs]|]. eapply res_bind; [apply res_chk; BND|]. apply res_ok.
  - assert (0 < q') by nia. assert (0 < s') by nia. split; [split; cbn [fst snd]; [nia|]|].
    + apply coprime4; [| exact C1 | exact C2 |].
      * apply (coprime_factors p q); [exact Ca|rewrite Hp; apply factor|rewrite Hq; apply factor].
      * apply (coprime_factors r s); [exact Cb|rewrite Hr; apply factor|rewrite Hs; apply factor].
    + cbn [fst snd]. clearbody g1 g2. subst p q r s. ring.
Qed.
Lemma over_res a b : lowest a -> lowest b -> within a -> within b -> fst b <> 0 ->
  exists r, res (over fits a b) r /\ is_lowest (fst a * snd b) (snd a * fst b) r.
Proof.
  intros [Ha Ca] [Hb Cb] [La1 La2] [Lb1 Lb2] Hb0. destruct a as [p q], b as [r s]. cbn [fst snd] in *.
  destruct (gcd_parts p r ltac:(lia)) as (p' & r' & Hg1 & Hp & Hr & C1). set (g1 := Z.gcd p r) in *.
  destruct (gcd_parts q s ltac:(lia)) as (q' & s' & Hg2 & Hq & Hs & C2). set (g2 := Z.gcd q s) in *.
  assert (Hq' : 0 < q') by nia. assert (Hs' : 0 < s') by nia. assert (Hr' : r' <> 0) by (intros ->; lia).
  assert (C : Z.gcd (p' * s') (q' * r') = 1).
  { apply coprime4; [| exact C1 | rewrite Z.gcd_comm; exact C2 |].
    - apply (coprime_factors p q); [exact Ca|rewrite Hp; apply factor|rewrite Hq; apply factor].
    - apply (coprime_factors s r); [rewrite Z.gcd_comm; exact Cb|rewrite Hs; apply factor|rewrite Hr; apply factor]. }
  exists (if q' * r' <? 0 then (p' * s' * -1, q' * r' * -1) else (p' * s', q' * r')). split.
  - unfold over. cbn [fst snd]. eapply res_bind; [apply gcd_res; BND|]. fold g1. eapply res_bind; [apply gcd_res; BND|]. fold g2.
    eapply res_bind; [apply (res_div _ _ p'); [lia|BND|exact Hp]|]. eapply res_bind; [apply (res_div _ _ s'); [lia|BND|exact Hs]|].
    eapply res_bind; [apply res_chk; BND|]. eapply res_bind; [apply (res_div _ _ q'); [lia|BND|exact Hq]|].
    eapply res_bind; [apply (res_div _ _ r'); [lia|BND|exact Hr]|]. eapply res_bind; [apply res_chk; BND|].
    destruct (q' * r' <? 0); [|apply res_ok].
    eapply res_bind; [apply res_chk; BND|]. eapply res_bind; [apply res_chk; BND|]. apply res_ok.
  - destruct (Z.ltb_spec (q' * r') 0) as [H|H].
    + split; [split; cbn [fst snd]; [lia|]|].
      * replace (p' * s' * -1) with (- (p' * s')) by ring. replace (q' * r' * -1) with (- (q' * r')) by ring.
        now rewrite Z.gcd_opp_l, Z.gcd_opp_r.
      * cbn [fst snd]. clearbody g1 g2. subst p q r s. ring.
    + split; [split; cbn [fst snd]; [nia|exact C]|]. cbn [fst snd]. clearbody g1 g2. subst p q r s. ring.
Qed.
End T.

(** ** The rationals *)
Lemma is_lowest_Q n d r : 0 < d -> is_lowest n d r -> (toQ r == Qmake n (Z.to_pos d))%Q.
Proof. intros Hd [[Hr _] Hv]. unfold Qeq, toQ. cbn [Qnum Qden]. rewrite !Z2Pos.id by lia. exact Hv. Qed.
Lemma is_lowest_frac n d r : d <> 0 -> is_lowest n d r -> (toQ r == frac n d)%Q.
Proof.
  intros Hd [[Hr _] Hv]. unfold frac.
  assert (E : (toQ r * inject_Z d == inject_Z n)%Q).
  { unfold Qeq, toQ, inject_Z, Qmult. cbn [Qnum Qden]. rewrite Pos.mul_1_r, Z2Pos.id by lia. lia. }
  rewrite <- E. symmetry. apply Qdiv_mult_l. unfold Qeq, inject_Z. cbn. lia.
Qed.
Lemma toQ_plus a b : 0 < snd a -> 0 < snd b -> (toQ a + toQ b == Qmake (fst a * snd b + fst b * snd a) (Z.to_pos (snd a * snd b)))%Q.
Proof.
  intros Ha Hb. unfold Qeq, toQ, Qplus. cbn [Qnum Qden]. rewrite Pos2Z.inj_mul, !Z2Pos.id by nia. reflexivity.
Qed.
Lemma toQ_minus a b : 0 < snd a -> 0 < snd b -> (toQ a - toQ b == Qmake (fst a * snd b - fst b * snd a) (Z.to_pos (snd a * snd b)))%Q.
Proof.
  intros Ha Hb. unfold Qeq, toQ, Qminus, Qopp, Qplus. cbn [Qnum Qden]. rewrite Pos2Z.inj_mul, !Z2Pos.id by nia. ring.
Qed.
Lemma toQ_mult a b : 0 < snd a -> 0 < snd b -> (toQ a * toQ b == Qmake (fst a * fst b) (Z.to_pos (snd a * snd b)))%Q.
Proof. intros Ha Hb. unfold Qeq, toQ, Qmult. cbn [Qnum Qden]. rewrite Pos2Z.inj_mul, !Z2Pos.id by nia. ring. Qed.
Lemma is_lowest_div a b r : 0 < snd a -> 0 < snd b -> fst b <> 0 -> is_lowest (fst a * snd b) (snd a * fst b) r ->
  (toQ r == toQ a / toQ b)%Q.
Proof.
  intros Ha Hb H0 [[Hr _] Hv].
  assert (E : (toQ r * toQ b == toQ a)%Q).
  { unfold Qeq, toQ, Qmult. cbn [Qnum Qden]. rewrite Pos2Z.inj_mul, !Z2Pos.id by nia. lia. }
  rewrite <- E. symmetry. apply Qdiv_mult_l. unfold Qeq, toQ. cbn [Qnum Qden]. lia.
Qed.
Lemma lowest_unique a b : lowest a -> lowest b -> fst a * snd b = fst b * snd a -> a = b.
Proof.
  intros [Ha Ca] [Hb Cb] E. destruct a as [p q], b as [r s]. cbn [fst snd] in *.
  assert (Hs : (s | q)).
  { apply (Gauss s r q); [exists p; lia|]. apply rp. now rewrite Z.gcd_comm. }
  assert (Hq : (q | s)).
  { apply (Gauss q p s); [exists r; lia|]. apply rp. now rewrite Z.gcd_comm. }
  assert (q = s) by (apply Z.divide_antisym_nonneg; lia || assumption). subst s. f_equal. nia.
Qed.

(** ** The printed text *)
Lemma decimal_fold l : fold_left (fun a c => 10 * a + (c - 48)) l 0 = dec_val l.
Proof.
  induction l as [|c l IH] using rev_ind; [reflexivity|]. rewrite fold_left_app, dec_val_snoc, IH. cbn [fold_left]. lia.
Qed.
Lemma show_numeral z : numeral (show_int z) z.
Proof.
  exists (dec_text (Z.abs z)). split; [unfold show_int; destruct (Z.ltb_spec z 0); f_equal; f_equal; lia|].
  split; [apply dec_text_nonempty; lia|]. split; [|split].
  - eapply Forall_impl; [|apply dec_text_digits; lia]. unfold isdigit. intros c H; cbv beta in *. lia.
  - destruct (Z.eq_dec z 0) as [->|N]; [reflexivity|]. destruct (dec_text_head (Z.abs z) ltac:(lia)) as (c & r & -> & H). cbn. lia.
  - rewrite decimal_fold. apply dec_text_val. lia.
Qed.
Lemma numeral_unique t a b : numeral t a -> numeral t b -> a = b.
Proof.
  intros (d & E & Hd & Fd & _ & Vd) (e & E2 & He & Fe & _ & Ve). destruct (Z.ltb_spec a 0), (Z.ltb_spec b 0); subst t.
  - injection E2 as <-. lia.
  - subst e. apply Forall_inv in Fe. lia.
  - rewrite E2 in Fd. apply Forall_inv in Fd. lia.
  - subst e. lia.
Qed.
Lemma numeral_slash t z : numeral t z -> ~ In 47 t.
Proof.
  intros (d & -> & _ & F & _). rewrite Forall_forall in F. destruct (z <? 0); [intros [E|E]; [discriminate|]|intros E]; apply F in E; lia.
Qed.
Lemma split_unique (c : Z) : forall a b x y, ~ In c a -> ~ In c x -> a ++ c :: b = x ++ c :: y -> a = x /\ b = y.
Proof.
  induction a as [|p a IH]; intros b [|q x] y Ha Hx E; cbn in *.
  - injection E as ->. auto.
  - injection E as <- _. now destruct Hx; left.
  - injection E as -> _. now destruct Ha; left.
  - injection E as -> E. destruct (IH b x y) as [-> ->]; auto.
Qed.
Lemma ratio_text_unique t a b : ratio_text t a -> ratio_text t b -> fst a = fst b /\ snd a = snd b.
Proof.
  intros (n & d & -> & Hn & Hd) (n2 & d2 & E & Hn2 & Hd2). apply split_unique in E as [<- <-]; [|eapply numeral_slash; eassumption..].
  split; eapply numeral_unique; eassumption.
Qed.
