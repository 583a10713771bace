(** The fast Fourier transform computes Fourier sums. *)
From Verif Require Import Common CommonLemmas Fft_Spec Fft_Model.
From Coq Require Import Ring_theory Ring.
Local Open Scope Z_scope.
Ltac Zify.zify_post_hook ::= Z.div_mod_to_equations.

(** * Reversing bits *)
Fixpoint rev (l x : nat) : nat := match l with O => O | S l => ((x mod 2) * 2 ^ l + rev l (x / 2))%nat end.
Lemma pow2_pos l : (0 < 2 ^ l)%nat.
Proof. induction l; cbn [Nat.pow]; lia. Qed.
Lemma rev_lt l : forall x, (rev l x < 2 ^ l)%nat.
Proof.
  induction l as [|l IH]; intros x; cbn [rev]; [cbn; lia|]. specialize (IH (x / 2)%nat). rewrite Nat.pow_succ_r'.
  assert (x mod 2 = 0 \/ x mod 2 = 1)%nat as [-> | ->] by lia; lia.
Qed.
Lemma rev_even l x : rev (S l) (2 * x) = rev l x.
Proof. cbn [rev]. replace (2 * x / 2)%nat with x by lia. replace (2 * x mod 2)%nat with 0%nat by lia. reflexivity. Qed.
Lemma rev_odd l x : rev (S l) (2 * x + 1) = (2 ^ l + rev l x)%nat.
Proof. cbn [rev]. replace ((2 * x + 1) / 2)%nat with x by lia. replace ((2 * x + 1) mod 2)%nat with 1%nat by lia. lia. Qed.
Lemma even_odd x : (exists y, x = 2 * y)%nat \/ (exists y, x = 2 * y + 1)%nat.
Proof. destruct (Nat.Even_or_Odd x) as [[y H]|[y H]]; [left|right]; now exists y. Qed.
Lemma rev_top l : forall b y, (y < 2 ^ l)%nat -> rev (S l) (b * 2 ^ l + y) = ((b mod 2) + 2 * rev l y)%nat.
Proof.
  induction l as [|l IH]; intros b y H.
  - cbn [Nat.pow] in *. assert (y = 0)%nat by lia. subst y. cbn [rev Nat.pow]. replace (b * 1 + 0)%nat with b by lia. lia.
  - rewrite Nat.pow_succ_r' in *. destruct (even_odd y) as [[z ->]|[z ->]].
    + replace (b * (2 * 2 ^ l) + 2 * z)%nat with (2 * (b * 2 ^ l + z))%nat by lia. rewrite !rev_even. apply IH. lia.
    + replace (b * (2 * 2 ^ l) + (2 * z + 1))%nat with (2 * (b * 2 ^ l + z) + 1)%nat by lia. rewrite !rev_odd. rewrite IH by lia. rewrite Nat.pow_succ_r'. lia.
Qed.
Lemma rev_rev l : forall x, (x < 2 ^ l)%nat -> rev l (rev l x) = x.
Proof.
  induction l as [|l IH]; intros x H; [cbn in *; lia|]. rewrite Nat.pow_succ_r' in H. change (rev (S l) x) with ((x mod 2) * 2 ^ l + rev l (x / 2))%nat. rewrite rev_top by apply rev_lt. rewrite IH by lia. lia.
Qed.
Lemma rev_high l : forall s x, (x < 2 ^ l)%nat -> rev (s + l) x = (rev l x * 2 ^ s)%nat.
Proof.
  induction l as [|l IH]; intros s x H.
  - cbn [Nat.pow] in H. assert (x = 0)%nat by lia. subst x. rewrite Nat.add_0_r. cbn [rev]. induction s as [|s IHs]; cbn [rev]; [reflexivity|].
    replace (0 / 2)%nat with 0%nat by reflexivity. rewrite IHs. reflexivity.
  - rewrite Nat.pow_succ_r' in H. rewrite Nat.add_succ_r. destruct (even_odd x) as [[z ->]|[z ->]].
    + rewrite !rev_even. apply IH. lia.
    + rewrite !rev_odd, IH by lia. rewrite Nat.pow_add_r. lia.
Qed.
Lemma rev_ones l : rev l (2 ^ l - 1) = (2 ^ l - 1)%nat.
Proof.
  induction l as [|l IH]; [reflexivity|]. pose proof (pow2_pos l). rewrite Nat.pow_succ_r'. replace (2 * 2 ^ l - 1)%nat with (2 * (2 ^ l - 1) + 1)%nat at 1 by lia.
  rewrite rev_odd, IH. lia.
Qed.

(** the counter that carries from the top *)
Lemma lxor_low p i : 0 <= p -> 0 <= i < 2 ^ p -> Z.lxor i (2 ^ p) = i + 2 ^ p.
Proof.
  intros Hp Hi. symmetry. apply Z.add_nocarry_lxor. apply Z.bits_inj'. intros n Hn. rewrite Z.land_spec, Z.bits_0, Z.pow2_bits_eqb by lia.
  destruct (Z.eqb_spec p n) as [<-|]; [|apply Bool.andb_false_r]. destruct (Z.eq_dec i 0) as [->|]; [now rewrite Z.bits_0|].
  rewrite Z.bits_above_log2; [reflexivity|lia|]. apply Z.log2_lt_pow2; lia.
Qed.
Lemma lxor_high p i : 0 <= p -> 2 ^ p <= i < 2 * 2 ^ p -> Z.lxor i (2 ^ p) = i - 2 ^ p.
Proof.
  intros Hp Hi. replace i with (Z.lxor (i - 2 ^ p) (2 ^ p)) at 1.
  - now rewrite Z.lxor_assoc, Z.lxor_nilpotent, Z.lxor_0_r.
  - rewrite lxor_low by lia. lia.
Qed.
Lemma bump_rev conv l : (forall z, 0 <= z < 2 ^ Z.of_nat l -> conv z = z) -> forall fuel x, (l < fuel)%nat ->
  bump conv fuel (Z.shiftr (2 ^ Z.of_nat l) 1) (Z.of_nat (rev l x)) = Ok (Z.of_nat (rev l (x + 1))).
Proof.
  induction l as [|l IH]; intros Hc fuel x F.
  - destruct fuel as [|fuel]; [lia|]. cbn. rewrite Hc by (cbn; lia). reflexivity.
  - assert (Hl : 2 ^ Z.of_nat (S l) = 2 * 2 ^ Z.of_nat l) by (rewrite Nat2Z.inj_succ, Z.pow_succ_r; lia).
    assert (E : Z.shiftr (2 ^ Z.of_nat (S l)) 1 = 2 ^ Z.of_nat l) by (rewrite Z.shiftr_div_pow2 by lia; rewrite Hl; change (2 ^ 1) with 2; lia).
    assert (Hn : forall y, 0 <= Z.of_nat (rev l y) < 2 ^ Z.of_nat l).
    { intros y. pose proof (rev_lt l y). replace (2 ^ Z.of_nat l) with (Z.of_nat (2 ^ l)) by (rewrite Nat2Z.inj_pow; reflexivity). lia. }
    assert (Hp : Z.of_nat (2 ^ l) = 2 ^ Z.of_nat l) by (rewrite Nat2Z.inj_pow; reflexivity).
    rewrite E. destruct fuel as [|fuel]; [lia|]. cbn [bump]. specialize (Hn (x / 2)%nat) as Hx. destruct (even_odd x) as [[y ->]|[y ->]].
    + rewrite rev_even, rev_odd. specialize (Hn y). rewrite lxor_low by lia. rewrite Hc by lia.
      destruct (Z.ltb_spec (Z.of_nat (rev l y) + 2 ^ Z.of_nat l) (2 ^ Z.of_nat l)); [lia|]. f_equal. lia.
    + replace (2 * y + 1 + 1)%nat with (2 * (y + 1))%nat by lia. rewrite rev_even, rev_odd. specialize (Hn y). rewrite lxor_high by lia. rewrite Hc by lia.
      replace (Z.of_nat (2 ^ l + rev l y) - 2 ^ Z.of_nat l) with (Z.of_nat (rev l y)) by lia.
      destruct (Z.ltb_spec (Z.of_nat (rev l y)) (2 ^ Z.of_nat l)); [|lia]. apply IH; [|lia]. intros z Hz. apply Hc. lia.
Qed.
Lemma is_pow2_spec s : is_pow2 s = true <-> exists l, s = 2 ^ Z.of_nat l.
Proof.
  unfold is_pow2. split.
  - destruct (Z.leb_spec s 0); [discriminate|]. rewrite Z.eqb_eq. intros H0. exists (Z.to_nat (Z.log2 s)). rewrite Z2Nat.id by apply Z.log2_nonneg.
    destruct (Z.log2_spec s ltac:(lia)) as [H1 H2]. destruct (Z.eq_dec s (2 ^ Z.log2 s)) as [|N]; [assumption|].
    assert (L : Z.log2 (s - 1) = Z.log2 s) by (apply Z.log2_unique; [apply Z.log2_nonneg|lia]).
    apply (f_equal (fun z => Z.testbit z (Z.log2 s))) in H0. rewrite Z.land_spec, Z.bits_0, Z.bit_log2 in H0 by lia. rewrite <- L in H0 at 1.
    rewrite Z.bit_log2 in H0; [discriminate|]. pose proof (Z.log2_nonneg s). pose proof (Z.pow_pos_nonneg 2 (Z.log2 s)). lia.
  - intros [l ->]. pose proof (Z.pow_pos_nonneg 2 (Z.of_nat l)). destruct (Z.leb_spec (2 ^ Z.of_nat l) 0); [lia|]. apply Z.eqb_eq.
    replace (2 ^ Z.of_nat l - 1) with (Z.ones (Z.of_nat l)) by (rewrite Z.ones_equiv; lia). rewrite Z.land_ones by lia. apply Z.mod_same. lia.
Qed.

(** * Arrays as functions of the index *)
Declare Scope R_scope.
Delimit Scope R_scope with R.
Section ring.
Context {R : Type} (rO rI : R) (radd rmul rsub : R -> R -> R) (ropp : R -> R) (Rth : ring_theory rO rI radd rmul rsub ropp eq).
Add Ring Rring : Rth.
Notation "0" := rO : R_scope. Notation "1" := rI : R_scope.
Notation "a + b" := (radd a b) : R_scope. Notation "a * b" := (rmul a b) : R_scope. Notation "a - b" := (rsub a b) : R_scope. Notation "- a" := (ropp a) : R_scope.
Notation pow := (power rI rmul). Notation sum := (sum rO radd).
Definition vals (n : nat) (a : list R) (f : nat -> R) : Prop := length a = n /\ forall i, (i < n)%nat -> nth_error a i = Some (f i).
Lemma vals_ext n a f g : vals n a f -> (forall x, (x < n)%nat -> f x = g x) -> vals n a g.
Proof. intros [L H] E. split; [exact L|]. intros i Hi. rewrite <- E by exact Hi. now apply H. Qed.
Lemma vals_get n a f i : vals n a f -> (i < n)%nat -> get a i = Ok (f i).
Proof. intros [_ H] Hi. unfold get. now rewrite H. Qed.
Lemma vals_put n a f i x : vals n a f -> (i < n)%nat -> exists a', put a i x = Ok a' /\ vals n a' (fun y => if Nat.eqb y i then x else f y).
Proof.
  intros [L H] Hi. unfold put. rewrite (proj2 (Nat.ltb_lt _ _)) by lia. eexists. split; [reflexivity|]. split.
  - rewrite app_length, firstn_length. cbn [length]. rewrite skipn_length. lia.
  - intros j Hj. destruct (Nat.eqb_spec j i) as [->|N].
    + rewrite nth_error_app2 by (rewrite firstn_length; lia). rewrite firstn_length, Nat.min_l, Nat.sub_diag by lia. reflexivity.
    + rewrite <- H by exact Hj. destruct (Nat.lt_ge_cases j i).
      * rewrite nth_error_app1 by (rewrite firstn_length; lia). rewrite <- (firstn_skipn i a) at 2. rewrite nth_error_app1 by (rewrite firstn_length; lia). reflexivity.
      * rewrite nth_error_app2 by (rewrite firstn_length; lia). rewrite firstn_length, Nat.min_l by lia. destruct (j - i)%nat as [|d] eqn:E; [lia|]. cbn [nth_error].
        rewrite <- (firstn_skipn (S i) a) at 2. rewrite nth_error_app2 by (rewrite firstn_length; lia). f_equal. rewrite firstn_length. lia.
Qed.
(** the shuffle *)
Lemma shuffle_vals l f : forall fuel j a, (1 <= j)%nat -> (j + 1 <= 2 ^ l \/ l = 0)%nat -> (2 * 2 ^ l - j + l + 2 <= fuel)%nat ->
  vals (2 ^ l) a (fun x => if (Nat.ltb x j || Nat.ltb (rev l x) j)%bool then f (rev l x) else f x) ->
  exists a', shuffle fuel (2 ^ l) (Z.of_nat (rev l (j - 1))) j a = Ok a' /\ vals (2 ^ l) a' (fun x => f (rev l x)).
Proof.
  induction fuel as [|fuel IH]; intros j a Hj Hl F V; [pose proof (pow2_pos l); lia|]. cbn [shuffle]. destruct (Nat.ltb_spec (j + 1) (2 ^ l)) as [G|G].
  - rewrite Nat2Z.inj_pow. change (Z.of_nat 2) with 2. rewrite bump_rev by (auto; lia). cbn [obind]. replace (j - 1 + 1)%nat with j by lia.
    pose proof (rev_lt l j) as Rj. pose proof (rev_rev l j ltac:(lia)) as RR.
    assert (Step : exists a1, (if Z.of_nat j <? Z.of_nat (rev l j) then let* x := get a j in let* y := get a (Z.to_nat (Z.of_nat (rev l j))) in
       let* a := put a j y in put a (Z.to_nat (Z.of_nat (rev l j))) x else Ok a) = Ok a1 /\
       vals (2 ^ l) a1 (fun x => if (Nat.ltb x (S j) || Nat.ltb (rev l x) (S j))%bool then f (rev l x) else f x)).
    { rewrite Nat2Z.id. destruct (Z.ltb_spec (Z.of_nat j) (Z.of_nat (rev l j))) as [C|C].
      - rewrite (vals_get _ _ _ j V) by lia. rewrite (vals_get _ _ _ (rev l j) V) by lia. cbn [obind]. rewrite RR.
        replace (Nat.ltb j j) with false by (symmetry; apply Nat.ltb_irrefl). rewrite !(proj2 (Nat.ltb_ge (rev l j) j)) by lia. cbn [orb].
        edestruct (vals_put (2 ^ l) a _ j (f (rev l j)) V) as (a1 & -> & V1); [lia|]. cbn [obind].
        edestruct (vals_put (2 ^ l) a1 _ (rev l j) (f j) V1) as (a2 & -> & V2); [lia|]. exists a2. split; [reflexivity|]. eapply vals_ext; [exact V2|].
        intros x Hx. cbv beta. destruct (Nat.eqb_spec x (rev l j)) as [->|N1].
        + rewrite RR. rewrite (proj2 (Nat.ltb_lt j (S j))) by lia. rewrite Bool.orb_true_r. reflexivity.
        + destruct (Nat.eqb_spec x j) as [->|N2]; [rewrite (proj2 (Nat.ltb_lt j (S j))) by lia; reflexivity|].
          assert (N3 : rev l x <> j) by (intros E; apply N1; rewrite <- E; symmetry; now apply rev_rev).
          replace (Nat.ltb x (S j)) with (Nat.ltb x j) by (destruct (Nat.ltb_spec x j), (Nat.ltb_spec x (S j)); lia || reflexivity).
          replace (Nat.ltb (rev l x) (S j)) with (Nat.ltb (rev l x) j) by (destruct (Nat.ltb_spec (rev l x) j), (Nat.ltb_spec (rev l x) (S j)); lia || reflexivity).
          reflexivity.
      - exists a. split; [reflexivity|]. eapply vals_ext; [exact V|]. intros x Hx. cbv beta.
        destruct (Nat.ltb_spec x j) as [C1|C1]; cbn [orb]; [rewrite (proj2 (Nat.ltb_lt x (S j))) by lia; reflexivity|].
        destruct (Nat.ltb_spec (rev l x) j) as [C2|C2]; [rewrite (proj2 (Nat.ltb_lt (rev l x) (S j))) by lia; now rewrite Bool.orb_true_r|].
        destruct (Nat.eq_dec x j) as [->|N2]; [assert (rev l j = j) by lia; rewrite (proj2 (Nat.ltb_lt j (S j))) by lia; cbn [orb]; congruence|].
        destruct (Nat.eq_dec (rev l x) j) as [E|N3].
        + assert (x = rev l j) by (rewrite <- E; symmetry; now apply rev_rev). lia.
        + rewrite !(proj2 (Nat.ltb_ge _ (S j))) by lia. reflexivity. }
    destruct Step as (a1 & -> & V1). cbn [obind]. specialize (IH (S j) a1). replace (S j - 1)%nat with j in IH by lia. apply IH; try lia. exact V1.
  - exists a. split; [reflexivity|]. eapply vals_ext; [exact V|]. intros x Hx. cbv beta. pose proof (rev_lt l x).
    destruct (Nat.ltb_spec x j) as [C1|C1]; cbn [orb]; [reflexivity|]. destruct (Nat.ltb_spec (rev l x) j) as [C2|C2]; [reflexivity|].
    f_equal. destruct l as [|l]; [cbn in *; lia|]. lia.
Qed.
(** the butterflies *)
Definition fly (f : nat -> R) (w : R) (mh i t x : nat) : R :=
  if (Nat.leb i x && Nat.ltb x (i + t))%bool then (f x + f (x + mh)%nat)%R
  else if (Nat.leb (i + mh) x && Nat.ltb x (i + mh + t))%bool then (w * (f (x - mh)%nat - f x))%R else f x.
Lemma butterflies_vals n f w mh i : (i + 2 * mh <= n)%nat -> forall fuel t a, (t <= mh)%nat -> (mh - t < fuel)%nat -> vals n a (fly f w mh i t) ->
  exists a', butterflies radd rmul rsub fuel w mh i (i + t) a = Ok a' /\ vals n a' (fly f w mh i mh).
Proof.
  intros Hn. induction fuel as [|fuel IH]; intros t a Ht F V; [lia|]. cbn [butterflies]. destruct (Nat.ltb_spec (i + t) (mh + i)) as [G|G].
  - rewrite (vals_get n a _ (i + t) V) by lia. rewrite (vals_get n a _ (i + t + mh) V) by lia. cbn [obind].
    assert (E1 : fly f w mh i t (i + t) = f (i + t)%nat).
    { unfold fly. rewrite (proj2 (Nat.ltb_ge (i + t) (i + t))) by lia. rewrite Bool.andb_false_r. rewrite (proj2 (Nat.leb_gt (i + mh) (i + t))) by lia. reflexivity. }
    assert (E2 : fly f w mh i t (i + t + mh) = f (i + t + mh)%nat).
    { unfold fly. rewrite (proj2 (Nat.ltb_ge (i + t + mh) (i + t))) by lia. rewrite (proj2 (Nat.ltb_ge (i + t + mh) (i + mh + t))) by lia. now rewrite !Bool.andb_false_r. }
    rewrite E1, E2. edestruct (vals_put n a _ (i + t) (f (i + t)%nat + f (i + t + mh)%nat)%R V) as (a1 & -> & V1); [lia|]. cbn [obind].
    edestruct (vals_put n a1 _ (i + t + mh) (w * (f (i + t)%nat - f (i + t + mh)%nat))%R V1) as (a2 & -> & V2); [lia|]. cbn [obind].
    replace (S (i + t)) with (i + S t)%nat by lia. apply IH; [lia|lia|]. eapply vals_ext; [exact V2|]. intros x Hx. cbv beta. unfold fly.
    destruct (Nat.eqb_spec x (i + t + mh)) as [->|N1]; [|destruct (Nat.eqb_spec x (i + t)) as [->|N2]].
    + rewrite (proj2 (Nat.ltb_ge (i + t + mh) (i + S t))) by lia. rewrite Bool.andb_false_r. rewrite (proj2 (Nat.leb_le (i + mh) (i + t + mh))) by lia.
      rewrite (proj2 (Nat.ltb_lt (i + t + mh) (i + mh + S t))) by lia. cbn [andb]. do 3 f_equal. lia.
    + rewrite (proj2 (Nat.leb_le i (i + t))) by lia. rewrite (proj2 (Nat.ltb_lt (i + t) (i + S t))) by lia. reflexivity.
    + replace (Nat.ltb x (i + S t)) with (Nat.ltb x (i + t)) by (destruct (Nat.ltb_spec x (i + t)), (Nat.ltb_spec x (i + S t)); lia || reflexivity).
      replace (Nat.ltb x (i + mh + S t)) with (Nat.ltb x (i + mh + t)) by (destruct (Nat.ltb_spec x (i + mh + t)), (Nat.ltb_spec x (i + mh + S t)); lia || reflexivity).
      reflexivity.
  - exists a. split; [reflexivity|]. replace mh with t at 2 by lia. exact V.
Qed.
Lemma int32_small z : 0 <= z < 2 ^ 31 -> int32 z = z.
Proof. intros H. unfold int32. change (2 ^ 32) with 4294967296. change (2 ^ 31) with 2147483648 in *. rewrite Z.mod_small; lia. Qed.
Context (root : Z -> R).
(** a stage: all blocks before block p are done *)
Definition stage (f : nat -> R) (b mh p x : nat) : R :=
  if Nat.ltb x (p * (2 * mh)) then
    if Nat.ltb (x mod (2 * mh)) mh then (f x + f (x + mh)%nat)%R else (root (Z.of_nat (rev b (x / (2 * mh)))) * (f (x - mh)%nat - f x))%R
  else f x.
Lemma stage_fly f b mh p x : (0 < mh)%nat ->
  fly (stage f b mh p) (root (Z.of_nat (rev b p))) mh (p * (2 * mh)) mh x = stage f b mh (S p) x.
Proof.
  intros Hm. unfold fly. set (i := (p * (2 * mh))%nat).
  assert (Old : forall y, (i <= y)%nat -> stage f b mh p y = f y) by (intros y Hy; unfold stage; rewrite (proj2 (Nat.ltb_ge _ _)) by (unfold i in Hy; lia); reflexivity).
  destruct (Nat.leb_spec i x) as [H1|H1]; cbn [andb].
  - destruct (Nat.ltb_spec x (i + mh)) as [H2|H2].
    + rewrite !Old by lia. unfold stage. rewrite (proj2 (Nat.ltb_lt x (S p * (2 * mh)))) by (unfold i in *; lia).
      assert (E : (x mod (2 * mh) = x - i)%nat). { symmetry. apply Nat.mod_unique with p; unfold i in *; lia. }
      rewrite E, (proj2 (Nat.ltb_lt (x - i) mh)) by lia. reflexivity.
    + destruct (Nat.leb_spec (i + mh) x) as [H3|H3]; [|lia]. destruct (Nat.ltb_spec x (i + mh + mh)) as [H4|H4]; cbn [andb].
      * rewrite !Old by lia. unfold stage. rewrite (proj2 (Nat.ltb_lt x (S p * (2 * mh)))) by (unfold i in *; lia).
        assert (E : (x mod (2 * mh) = x - i)%nat). { symmetry. apply Nat.mod_unique with p; unfold i in *; lia. }
        assert (E' : (x / (2 * mh) = p)%nat). { symmetry. apply Nat.div_unique with (x - i)%nat; unfold i in *; lia. }
        rewrite E, E', (proj2 (Nat.ltb_ge (x - i) mh)) by lia. reflexivity.
      * rewrite Old by lia. unfold stage. rewrite (proj2 (Nat.ltb_ge x (S p * (2 * mh)))) by (unfold i in *; lia). reflexivity.
  - rewrite (proj2 (Nat.leb_gt (i + mh) x)) by lia. cbn [andb]. unfold stage. rewrite !(proj2 (Nat.ltb_lt x _)) by (unfold i in *; lia). reflexivity.
Qed.
Lemma blocks_vals b mh c f : (0 < mh)%nat -> (mh * 2 * c = 2 ^ S b)%nat -> (b <= 31)%nat ->
  forall fuel p a, (p <= c)%nat -> (c - p + b + mh + 1 < fuel)%nat -> vals (2 ^ S b) a (stage f b mh p) ->
  exists a', blocks radd rmul rsub root fuel (2 ^ S b) (mh * 2) mh (Z.of_nat (rev b p)) (p * (2 * mh)) a = Ok a' /\ vals (2 ^ S b) a' (stage f b mh c).
Proof.
  intros Hm Hc Hb. induction fuel as [|fuel IH]; intros p a Hp F V; [lia|]. cbn [blocks]. destruct (Nat.ltb_spec (p * (2 * mh)) (2 ^ S b)) as [G|G].
  - assert (p < c)%nat by nia.
    assert (E : Z.shiftr (Z.of_nat (2 ^ S b)) 2 = Z.shiftr (2 ^ Z.of_nat b) 1).
    { rewrite Nat2Z.inj_pow, (Nat2Z.inj_succ b). change (Z.of_nat 2) with 2. rewrite Z.pow_succ_r by lia. rewrite !Z.shiftr_div_pow2 by lia. change (2 ^ 2) with 4. change (2 ^ 1) with 2. lia. }
    rewrite E. rewrite bump_rev; [|intros z Hz; apply int32_small; split; [lia|]; apply Z.lt_le_trans with (2 ^ Z.of_nat b); [lia|apply Z.pow_le_mono_r; lia]|lia].
    cbn [obind].
    destruct (butterflies_vals (2 ^ S b) (stage f b mh p) (root (Z.of_nat (rev b p))) mh (p * (2 * mh)) ltac:(nia) fuel 0 a ltac:(lia) ltac:(lia)) as (a1 & B & V1).
    { eapply vals_ext; [exact V|]. intros x _. unfold fly. rewrite Nat.add_0_r. 
      destruct (Nat.leb_spec (p * (2 * mh)) x), (Nat.ltb_spec x (p * (2 * mh))); try lia; cbn [andb];
      destruct (Nat.leb_spec (p * (2 * mh) + mh) x), (Nat.ltb_spec x (p * (2 * mh) + mh + 0)); try lia; reflexivity. }
    rewrite Nat.add_0_r in B. rewrite B. cbn [obind]. replace (p * (2 * mh) + mh * 2)%nat with ((p + 1) * (2 * mh))%nat by lia. apply IH; [lia|lia|].
    eapply vals_ext; [exact V1|]. intros x _. cbv beta. rewrite stage_fly by exact Hm. f_equal. lia.
  - exists a. split; [reflexivity|]. replace c with p by nia. exact V.
Qed.
(** * The sums *)
Lemma sum_ext n f g : (forall i, (i < n)%nat -> f i = g i) -> sum n f = sum n g.
Proof. intros H. induction n as [|n IH]; cbn [Fft_Spec.sum]; [reflexivity|]. rewrite IH by (intros; apply H; lia). now rewrite H by lia. Qed.
Lemma sum_add n f g : sum n (fun i => f i + g i)%R = (sum n f + sum n g)%R.
Proof. induction n as [|n IH]; cbn [Fft_Spec.sum]; [ring|]. rewrite IH. ring. Qed.
Lemma sum_scale n c f : sum n (fun i => c * f i)%R = (c * sum n f)%R.
Proof. induction n as [|n IH]; cbn [Fft_Spec.sum]; [ring|]. rewrite IH. ring. Qed.
Lemma sum_zero n : sum n (fun _ => 0)%R = 0%R.
Proof. induction n as [|n IH]; cbn [Fft_Spec.sum]; [ring|]. rewrite IH. ring. Qed.
Lemma sum_sub n f g : sum n (fun i => f i - g i)%R = (sum n f - sum n g)%R.
Proof. induction n as [|n IH]; cbn [Fft_Spec.sum]; [ring|]. rewrite IH. ring. Qed.
Lemma sum_pairs n f : sum (2 * n) f = sum n (fun i => f (2 * i)%nat + f (2 * i + 1)%nat)%R.
Proof.
  induction n as [|n IH]; [reflexivity|]. replace (2 * S n)%nat with (S (S (2 * n))) by lia. cbn [Fft_Spec.sum]. rewrite IH.
  replace (S (2 * n)) with (2 * n + 1)%nat by lia. ring.
Qed.
Lemma sum_swap n m f : sum n (fun i => sum m (fun j => f i j)) = sum m (fun j => sum n (fun i => f i j)).
Proof.
  induction n as [|n IH]; cbn [Fft_Spec.sum]; [now rewrite sum_zero|]. rewrite IH. rewrite <- sum_add. apply sum_ext. reflexivity.
Qed.
Lemma sum_single n f i : (i < n)%nat -> (forall j, (j < n)%nat -> j <> i -> f j = 0%R) -> sum n f = f i.
Proof.
  induction n as [|n IH]; intros Hi H; [lia|]. cbn [Fft_Spec.sum]. destruct (Nat.eq_dec i n) as [->|N].
  - rewrite (sum_ext n f (fun _ => 0%R)) by (intros; apply H; lia). rewrite sum_zero. ring.
  - rewrite IH by (intros; try apply H; lia). rewrite (H n) by lia. ring.
Qed.
Lemma pow_add w a b : pow w (a + b) = (pow w a * pow w b)%R.
Proof. induction a as [|a IH]; cbn [power Nat.add]; [ring|]. rewrite IH. ring. Qed.
Lemma pow_one n : pow rI n = rI.
Proof. induction n as [|n IH]; cbn [power]; [reflexivity|]. rewrite IH. ring. Qed.
Lemma pow_mul w a b : pow w (a * b) = pow (pow w a) b.
Proof. induction b as [|b IH]; [now rewrite Nat.mul_0_r|]. rewrite Nat.mul_succ_r, Nat.add_comm, pow_add, IH. reflexivity. Qed.

(** * What the array is after each stage *)
Context (w : R) (l : nat).
Hypothesis w_principal : principal rI rmul ropp w l.
Hypothesis w_root : forall z, 0 <= z -> root z = pow w (Z.to_nat z).
Lemma pow_n : pow w (2 ^ l) = rI.
Proof.
  destruct l as [|b]; cbn [principal] in w_principal; [cbn; rewrite w_principal; ring|]. rewrite Nat.pow_succ_r', Nat.mul_comm, pow_mul, w_principal. cbn [power]. ring.
Qed.
Variable X : nat -> R.
Definition part (s q t : nat) : R := sum (2 ^ s) (fun r => X (q + r * 2 ^ (l - s)) * pow w ((q + r * 2 ^ (l - s)) * t))%R.
Definition after (s x : nat) : R := part s (rev (l - s) (x / 2 ^ s)) (x mod 2 ^ s).
Lemma after_0 x : after 0 x = X (rev l x).
Proof.
  unfold after, part. cbn [Nat.pow Fft_Spec.sum]. rewrite Nat.sub_0_r, Nat.div_1_r, Nat.mod_1_r, Nat.mul_0_r, Nat.mul_0_l, Nat.add_0_r. cbn [power]. ring.
Qed.
Lemma after_all x : (x < 2 ^ l)%nat -> after l x = sum (2 ^ l) (fun j => X j * pow w (j * x))%R.
Proof.
  intros H. unfold after, part. rewrite Nat.sub_diag. cbn [rev Nat.pow]. rewrite Nat.mod_small by exact H. apply sum_ext. intros i _. now rewrite Nat.mul_1_r.
Qed.
Lemma part_split s q t : (s < l)%nat -> part (S s) q t = (part s q t + part s (q + 2 ^ (l - S s)) t)%R.
Proof.
  intros H. unfold part. rewrite Nat.pow_succ_r', sum_pairs, sum_add. replace (l - s)%nat with (S (l - S s)) by lia. rewrite Nat.pow_succ_r'. f_equal; apply sum_ext; intros i _.
  - replace (q + 2 * i * 2 ^ (l - S s))%nat with (q + i * (2 * 2 ^ (l - S s)))%nat by lia. reflexivity.
  - replace (q + (2 * i + 1) * 2 ^ (l - S s))%nat with (q + 2 ^ (l - S s) + i * (2 * 2 ^ (l - S s)))%nat by lia. reflexivity.
Qed.
Lemma part_shift s q t : (s < l)%nat -> part s q (t + 2 ^ s) = (pow w (q * 2 ^ s) * part s q t)%R.
Proof.
  intros H. unfold part. rewrite <- sum_scale. apply sum_ext. intros i _. rewrite Nat.mul_add_distr_l, pow_add. rewrite (Nat.mul_add_distr_r q (i * _) (2 ^ s)), pow_add.
  replace (i * 2 ^ (l - s) * 2 ^ s)%nat with (2 ^ l * i)%nat by (rewrite <- Nat.mul_assoc, <- Nat.pow_add_r; replace (l - s + s)%nat with l by lia; lia).
  rewrite (pow_mul w (2 ^ l) i), pow_n, pow_one. ring.
Qed.
Lemma half_turn s q : (s < l)%nat -> pow w ((q + 2 ^ (l - S s)) * 2 ^ s) = (- pow w (q * 2 ^ s))%R.
Proof.
  intros H. rewrite Nat.mul_add_distr_r, pow_add, <- Nat.pow_add_r. replace (l - S s + s)%nat with (l - 1)%nat by lia. destruct l as [|b]; [lia|]. cbn [principal] in w_principal.
  replace (S b - 1)%nat with b by lia. rewrite w_principal. ring.
Qed.
Lemma after_stage s x : (s < l)%nat -> (x < 2 ^ l)%nat -> stage (after s) (l - 1) (2 ^ s) (2 ^ (l - S s)) x = after (S s) x.
Proof.
  intros H Hx. unfold stage. pose proof (pow2_pos s) as Ps.
  assert (E : (2 ^ (l - S s) * (2 * 2 ^ s) = 2 ^ l)%nat). { rewrite <- Nat.pow_succ_r', <- Nat.pow_add_r. f_equal. lia. }
  rewrite E, (proj2 (Nat.ltb_lt x (2 ^ l))) by exact Hx. unfold after. rewrite Nat.pow_succ_r'. set (M := (2 ^ s)%nat) in *. set (P := (x / (2 * M))%nat). set (t := (x mod (2 * M))%nat).
  assert (Ex : (x = 2 * M * P + t)%nat) by (apply Nat.div_mod; lia). assert (Ht : (t < 2 * M)%nat) by (apply Nat.mod_upper_bound; lia).
  assert (HP : (P < 2 ^ (l - S s))%nat) by (apply Nat.div_lt_upper_bound; lia).
  replace (l - s)%nat with (S (l - S s)) by lia.
  destruct (Nat.ltb_spec t M) as [C|C].
  - assert (D1 : (x / M = 2 * P)%nat) by (symmetry; apply Nat.div_unique with t; lia). assert (D2 : ((x + M) / M = 2 * P + 1)%nat) by (symmetry; apply Nat.div_unique with t; lia).
    assert (D3 : (x mod M = t)%nat) by (symmetry; apply Nat.mod_unique with (2 * P)%nat; lia). assert (D4 : ((x + M) mod M = t)%nat) by (symmetry; apply Nat.mod_unique with (2 * P + 1)%nat; lia).
    rewrite D1, D2, D3, D4, rev_even, rev_odd. rewrite (Nat.add_comm (2 ^ (l - S s))). symmetry. now apply part_split.
  - assert (D1 : ((x - M) / M = 2 * P)%nat) by (symmetry; apply Nat.div_unique with (t - M)%nat; lia). assert (D2 : (x / M = 2 * P + 1)%nat) by (symmetry; apply Nat.div_unique with (t - M)%nat; lia).
    assert (D3 : ((x - M) mod M = t - M)%nat) by (symmetry; apply Nat.mod_unique with (2 * P)%nat; lia). assert (D4 : (x mod M = t - M)%nat) by (symmetry; apply Nat.mod_unique with (2 * P + 1)%nat; lia).
    rewrite D1, D2, D3, D4, rev_even, rev_odd. rewrite (Nat.add_comm (2 ^ (l - S s))). rewrite part_split by exact H.
    replace t with (t - M + M)%nat at 3 4 by lia. unfold M at 5 6. rewrite !part_shift by exact H. rewrite half_turn by exact H.
    rewrite w_root by lia. rewrite Nat2Z.id. replace (l - 1)%nat with (s + (l - S s))%nat by lia. rewrite rev_high by exact HP. unfold M. ring.
Qed.
Lemma stages_vals : (l <= 32)%nat -> forall fuel s a, (s <= l)%nat -> (2 * 2 ^ l + 2 * l - s + 2 <= fuel)%nat -> vals (2 ^ l) a (after s) ->
  exists a', stages radd rmul rsub root fuel (2 ^ l) (2 ^ s) a = Ok a' /\ vals (2 ^ l) a' (after l).
Proof.
  intros Hl. induction fuel as [|fuel IH]; intros s a Hs F V; [pose proof (pow2_pos l); lia|]. cbn [stages]. destruct (Nat.leb_spec (2 ^ s * 2) (2 ^ l)) as [G|G].
  - assert (s < l)%nat. { destruct (Nat.eq_dec s l) as [->|]; [pose proof (pow2_pos l); lia|lia]. }
    assert (Eb : l = S (l - 1)) by lia. pose proof (pow2_pos s).
    assert (E : (2 ^ s * 2 * 2 ^ (l - S s) = 2 ^ S (l - 1))%nat). { rewrite <- Eb, (Nat.mul_comm (2 ^ s)), <- Nat.pow_succ_r', <- Nat.pow_add_r. f_equal. lia. }
    assert (Pc := pow2_pos (l - S s)). rewrite <- Eb in E.
    assert (Bound : (2 ^ (l - S s) + 2 ^ s <= 2 ^ l)%nat) by nia.
    destruct (blocks_vals (l - 1) (2 ^ s) (2 ^ (l - S s)) (after s) ltac:(lia) ltac:(now rewrite <- Eb) ltac:(lia) fuel 0 a ltac:(lia) ltac:(lia)) as (a1 & B & V1).
    { rewrite <- Eb. eapply vals_ext; [exact V|]. reflexivity. }
    rewrite <- Eb in B, V1. rewrite Nat.mul_0_l in B. replace (rev (l - 1) 0) with 0%nat in B.
    + change (Z.of_nat 0) with 0 in B. rewrite B. cbn [obind]. replace (2 ^ s * 2)%nat with (2 ^ S s)%nat by (rewrite Nat.pow_succ_r'; lia). apply IH; [lia|lia|].
      eapply vals_ext; [exact V1|]. intros x Hx. now apply after_stage.
    + symmetry. rewrite <- (Nat.add_0_r (l - 1)). rewrite rev_high by (cbn; lia). reflexivity.
  - exists a. split; [reflexivity|]. assert (s = l) as ->; [|exact V]. destruct (Nat.eq_dec s l) as [|N]; [assumption|].
    assert (2 ^ S s <= 2 ^ l)%nat by (apply Nat.pow_le_mono_r; lia). rewrite Nat.pow_succ_r' in *. lia.
Qed.
End ring.

(** * Orthogonality *)
Section inverse.
Context {R : Type} (rO rI : R) (radd rmul rsub : R -> R -> R) (ropp : R -> R) (Rth : ring_theory rO rI radd rmul rsub ropp eq).
Add Ring Rring2 : Rth.
Notation "0" := rO : R_scope. Notation "1" := rI : R_scope.
Notation "a + b" := (radd a b) : R_scope. Notation "a * b" := (rmul a b) : R_scope. Notation "a - b" := (rsub a b) : R_scope. Notation "- a" := (ropp a) : R_scope.
Notation pow := (power rI rmul). Notation sum := (sum rO radd).
Lemma pow_mul_base v w n : pow (v * w)%R n = (pow v n * pow w n)%R.
Proof. induction n as [|n IH]; cbn [power]; [ring|]. rewrite IH. ring. Qed.
Lemma sum_app n m f : sum (n + m) f = (sum n f + sum m (fun i => f (n + i)%nat))%R.
Proof.
  induction m as [|m IH]; [rewrite Nat.add_0_r; cbn [Fft_Spec.sum]; ring|]. rewrite Nat.add_succ_r. cbn [Fft_Spec.sum]. rewrite IH. ring.
Qed.
(** powers of z cancel if some h of them make a half turn *)
Lemma cancel z h c : pow z h = (- rI)%R -> sum (2 * h * c) (fun k => pow z k) = rO.
Proof.
  intros H. induction c as [|c IH]; [now rewrite Nat.mul_0_r|]. rewrite Nat.mul_succ_r, sum_app, IH. set (B := (2 * h * c)%nat). replace (2 * h)%nat with (h + h)%nat by lia. rewrite sum_app.
  rewrite (sum_ext rO radd h (fun i => pow z (B + (h + i))) (fun i => (- rI) * pow z (B + i))%R).
  - rewrite (sum_scale rO rI radd rmul rsub ropp Rth). ring.
  - intros i _. rewrite !(pow_add rO rI radd rmul rsub ropp Rth). rewrite H. ring.
Qed.
Lemma odd_part d : (0 < d)%nat -> exists s o, (d = 2 ^ s * (2 * o + 1))%nat.
Proof.
  induction d as [d IH] using (well_founded_induction lt_wf). intros H. destruct (even_odd d) as [[y ->]|[y ->]].
  - destruct (IH y ltac:(lia) ltac:(lia)) as (s & o & ->). exists (S s), o. rewrite Nat.pow_succ_r'. lia.
  - exists 0%nat, y. cbn [Nat.pow]. lia.
Qed.
Context (w : R) (l : nat).
Hypothesis w_principal : principal rI rmul ropp w l.
Lemma pow_odd o : pow (- rI)%R (2 * o + 1) = (- rI)%R.
Proof. induction o as [|o IH]; [cbn [Nat.mul Nat.add power]; ring|]. replace (2 * S o + 1)%nat with (S (S (2 * o + 1))) by lia. cbn [power]. rewrite IH. ring. Qed.
Lemma no_resonance d : (0 < d < 2 ^ l)%nat -> sum (2 ^ l) (fun k => pow (pow w d) k) = rO.
Proof.
  intros Hd. destruct (odd_part d ltac:(lia)) as (s & o & E). assert (Hs : (s < l)%nat).
  { apply (Nat.pow_lt_mono_r_iff 2); [lia|]. apply Nat.le_lt_trans with d; [rewrite E; nia|lia]. }
  destruct l as [|b]; [lia|]. cbn [principal] in w_principal.
  replace (2 ^ S b)%nat with (2 * 2 ^ (b - s) * 2 ^ s)%nat by (rewrite <- Nat.pow_succ_r', <- Nat.pow_add_r; f_equal; lia). apply cancel.
  rewrite <- (pow_mul rO rI radd rmul rsub ropp Rth). replace (d * 2 ^ (b - s))%nat with (2 ^ b * (2 * o + 1))%nat.
  - now rewrite (pow_mul rO rI radd rmul rsub ropp Rth), w_principal, pow_odd.
  - rewrite E. replace b with (s + (b - s))%nat at 1 by lia. rewrite Nat.pow_add_r. lia.
Qed.
Context (v : R).
Hypothesis v_inverse : (w * v = rI)%R.
Lemma v_principal : principal rI rmul ropp v l.
Proof.
  destruct l as [|b]; cbn [principal] in *; [rewrite w_principal in v_inverse; rewrite <- v_inverse; ring|].
  assert (E : (pow w (2 ^ b) * pow v (2 ^ b) = rI)%R) by (rewrite <- pow_mul_base, v_inverse; apply (pow_one rO rI radd rmul rsub ropp Rth)).
  rewrite w_principal in E. transitivity (- (- rI * pow v (2 ^ b)))%R; [ring|]. rewrite E. reflexivity.
Qed.
(** the coefficients of the transform back *)
Lemma kernel i j : (i < 2 ^ l)%nat -> (j < 2 ^ l)%nat -> i <> j -> sum (2 ^ l) (fun k => pow w (j * k) * pow v (k * i))%R = rO.
Proof.
  intros Hi Hj N. set (d := if Nat.ltb i j then (j - i)%nat else (2 ^ l + j - i)%nat).
  assert (Hd : (0 < d < 2 ^ l)%nat) by (unfold d; destruct (Nat.ltb_spec i j); lia).
  transitivity (sum (2 ^ l) (fun k => pow (pow w d) k)); [|now apply no_resonance]. apply sum_ext. intros k _. rewrite (Nat.mul_comm k i). rewrite !(pow_mul rO rI radd rmul rsub ropp Rth). rewrite <- pow_mul_base. f_equal.
  assert (Inv : (pow w i * pow v i = rI)%R) by (rewrite <- pow_mul_base, v_inverse; apply (pow_one rO rI radd rmul rsub ropp Rth)).
  assert (E : pow w (d + i) = pow w j).
  { unfold d. destruct (Nat.ltb_spec i j) as [C|C]; [f_equal; lia|]. replace (2 ^ l + j - i + i)%nat with (2 ^ l + j)%nat by lia.
    rewrite (pow_add rO rI radd rmul rsub ropp Rth). rewrite (pow_n rO rI radd rmul rsub ropp Rth w l w_principal). ring. }
  rewrite <- E, (pow_add rO rI radd rmul rsub ropp Rth). transitivity (pow w d * (pow w i * pow v i))%R; [ring|]. rewrite Inv. ring.
Qed.
Lemma kernel_same i : sum (2 ^ l) (fun k => pow w (i * k) * pow v (k * i))%R = sum (2 ^ l) (fun _ => rI).
Proof.
  apply sum_ext. intros k _. rewrite (Nat.mul_comm k i), <- pow_mul_base, v_inverse. apply (pow_one rO rI radd rmul rsub ropp Rth).
Qed.
Lemma dft_back x y : length x = (2 ^ l)%nat -> length y = (2 ^ l)%nat -> (forall k, (k < 2 ^ l)%nat -> nth k y rO = dft rO rI radd rmul w x k) ->
  forall i, (i < 2 ^ l)%nat -> dft rO rI radd rmul v y i = (sum (2 ^ l) (fun _ => rI) * nth i x rO)%R.
Proof.
  intros Lx Ly H i Hi. unfold dft. rewrite Ly.
  rewrite (sum_ext rO radd (2 ^ l) _ (fun k => sum (2 ^ l) (fun j => nth j x rO * (pow w (j * k) * pow v (k * i))))%R).
  - rewrite (sum_swap rO rI radd rmul rsub ropp Rth). rewrite (sum_ext rO radd (2 ^ l) _ (fun j => nth j x rO * sum (2 ^ l) (fun k => pow w (j * k) * pow v (k * i)))%R)
      by (intros j _; now rewrite (sum_scale rO rI radd rmul rsub ropp Rth)).
    rewrite (sum_single rO rI radd rmul rsub ropp Rth (2 ^ l) _ i Hi); [rewrite kernel_same; ring|].
    intros j Hj N. rewrite kernel by (auto; congruence). ring.
  - intros k Hk. rewrite H by exact Hk. unfold dft. rewrite Lx. transitivity (pow v (k * i) * sum (2 ^ l) (fun j => nth j x rO * pow w (j * k)))%R; [ring|].
    rewrite <- (sum_scale rO rI radd rmul rsub ropp Rth). apply sum_ext. intros j _. ring.
Qed.
End inverse.

(** * Complex numbers over a commutative ring, with the product as in fft.h:71-72 *)
Section complex.
Context {K : Type} (kO kI : K) (kadd kmul ksub : K -> K -> K) (kopp : K -> K) (Kth : ring_theory kO kI kadd kmul ksub kopp eq).
Add Ring Kring : Kth.
Definition cmul (w x : K * K) : K * K :=
  (ksub (kmul (fst w) (fst x)) (kmul (snd w) (snd x)), kadd (kmul (fst w) (snd x)) (kmul (snd w) (fst x))).
Definition cadd (a b : K * K) : K * K := (kadd (fst a) (fst b), kadd (snd a) (snd b)).
Definition csub (a b : K * K) : K * K := (ksub (fst a) (fst b), ksub (snd a) (snd b)).
Definition copp (a : K * K) : K * K := (kopp (fst a), kopp (snd a)).
Lemma complex_ring : ring_theory (kO, kO) (kI, kO) cadd cmul csub copp eq.
Proof. constructor; intros; destruct x; try destruct y; try destruct z; unfold cadd, cmul, csub, copp; cbn [fst snd]; f_equal; ring. Qed.
End complex.

(** * int irev is too small for more than 2^32 elements *)
Lemma lxor_bound a b : 0 <= a < 2 ^ 31 -> 0 <= b < 2 ^ 31 -> 0 <= Z.lxor a b < 2 ^ 31.
Proof.
  intros Ha Hb. assert (P : 0 <= Z.lxor a b) by (apply Z.lxor_nonneg; lia). split; [exact P|]. destruct (Z.eq_dec (Z.lxor a b) 0) as [->|N]; [lia|].
  apply Z.log2_lt_pow2; [lia|]. pose proof (Z.log2_lxor a b ltac:(lia) ltac:(lia)).
  assert (Z.log2 a < 31) by (destruct (Z.eq_dec a 0) as [->|]; [reflexivity|apply Z.log2_lt_pow2; lia]).
  assert (Z.log2 b < 31) by (destruct (Z.eq_dec b 0) as [->|]; [reflexivity|apply Z.log2_lt_pow2; lia]). lia.
Qed.
Lemma bump_stuck fuel : forall k i, 0 <= k < 2 ^ 31 -> - 2 ^ 31 <= i < 0 -> bump int32 fuel k i = Fuel.
Proof.
  induction fuel as [|fuel IH]; intros k i Hk Hi; [reflexivity|]. cbn [bump].
  assert (E : Z.lxor i k = Z.lnot (Z.lxor (Z.lnot i) k)) by (rewrite Z.lnot_lxor_l, Z.lnot_involutive; reflexivity).
  pose proof (lxor_bound (Z.lnot i) k ltac:(unfold Z.lnot; lia) Hk) as B.
  assert (G : - 2 ^ 31 <= Z.lxor i k < 0) by (rewrite E; unfold Z.lnot in *; lia).
  assert (I : int32 (Z.lxor i k) = Z.lxor i k) by (unfold int32; rewrite Z.mod_small; lia).
  rewrite I. destruct (Z.ltb_spec (Z.lxor i k) k); [|lia]. apply IH; [|lia]. rewrite Z.shiftr_div_pow2 by lia. change (2 ^ 1) with 2. lia.
Qed.
Lemma bump_huge p : forall fuel, bump int32 fuel (2 ^ (31 + Z.of_nat p)) 0 = Fuel.
Proof.
  induction p as [|p IH]; intros fuel; (destruct fuel as [|fuel]; [reflexivity|]); cbn [bump]; rewrite Z.lxor_0_l.
  - change (31 + Z.of_nat 0) with 31. change (int32 (2 ^ 31)) with (- 2 ^ 31). change (- 2 ^ 31 <? 2 ^ 31) with true. cbn [andb]. apply bump_stuck; [cbn; lia|lia].
  - replace (int32 (2 ^ (31 + Z.of_nat (S p)))) with 0.
    + replace (0 <? 2 ^ (31 + Z.of_nat (S p))) with true by (symmetry; apply Z.ltb_lt; apply Z.pow_pos_nonneg; lia).
      replace (Z.shiftr (2 ^ (31 + Z.of_nat (S p))) 1) with (2 ^ (31 + Z.of_nat p)); [apply IH|]. rewrite Z.shiftr_div_pow2 by lia. change (2 ^ 1) with 2.
      replace (31 + Z.of_nat (S p)) with (Z.succ (31 + Z.of_nat p)) by lia. rewrite Z.pow_succ_r by lia. symmetry. rewrite Z.mul_comm. apply Z.div_mul. lia.
    + unfold int32. replace (31 + Z.of_nat (S p)) with (Z.of_nat p + 32) by lia. rewrite Z.pow_add_r by lia. rewrite Z.add_comm, Z.mod_add by lia. reflexivity.
Qed.
