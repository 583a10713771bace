From Verif Require Import Common CommonLemmas Fenwick_Model Fenwick_Spec.
Local Open Scope Z_scope.

Definition lo (k : Z) : Z := Z.land k (k + 1).
Definition up (k : Z) : Z := Z.lor k (k + 1).

Lemma land_double a b : Z.land (2 * a) (2 * b) = 2 * Z.land a b.
Proof.
  apply Z.bits_inj'. intros n Hn. rewrite Z.land_spec.
  destruct (Z.eq_dec n 0) as [->|].
  - rewrite !Z.testbit_even_0. reflexivity.
  - replace n with (Z.succ (n - 1)) by lia. rewrite !Z.testbit_even_succ by lia. symmetry. apply Z.land_spec.
Qed.
Lemma land_odd_even a b : Z.land (2 * a + 1) (2 * b) = 2 * Z.land a b.
Proof.
  apply Z.bits_inj'. intros n Hn. rewrite Z.land_spec.
  destruct (Z.eq_dec n 0) as [->|].
  - rewrite !Z.testbit_even_0. apply andb_false_r.
  - replace n with (Z.succ (n - 1)) by lia. rewrite !Z.testbit_even_succ, Z.testbit_odd_succ by lia. symmetry. apply Z.land_spec.
Qed.
Lemma lor_odd_even a b : Z.lor (2 * a + 1) (2 * b) = 2 * Z.lor a b + 1.
Proof.
  apply Z.bits_inj'. intros n Hn. rewrite Z.lor_spec.
  destruct (Z.eq_dec n 0) as [->|].
  - rewrite !Z.testbit_odd_0. reflexivity.
  - replace n with (Z.succ (n - 1)) by lia. rewrite !Z.testbit_odd_succ, Z.testbit_even_succ by lia. symmetry. apply Z.lor_spec.
Qed.

(** Every [k >= 0] is [a * 2^(t+1) + 2^t - 1]. *)
Lemma decomp k : 0 <= k -> exists a t, 0 <= a /\ 0 <= t /\ k + 1 = (2 * a + 1) * 2 ^ t /\
  lo k + 1 = k + 1 - 2 ^ t + 1 /\ up k + 1 = k + 1 + 2 ^ t.
Proof.
  intros Hk. remember (Z.to_nat k) as n eqn:En. revert k Hk En.
  induction n as [n IH] using lt_wf_ind. intros k Hk En. unfold lo, up.
  destruct (Z.Even_or_Odd k) as [[m Hm]|[m Hm]]; subst k.
  - exists m, 0. change (2 ^ 0) with 1. repeat split; try lia.
    + rewrite Z.land_comm, land_odd_even, Z.land_diag. lia.
    + rewrite Z.lor_comm, lor_odd_even, Z.lor_diag. lia.
  - destruct (IH (Z.to_nat m) ltac:(lia) m ltac:(lia) eq_refl) as (a & t & Ha & Ht & E1 & E2 & E3). unfold lo, up in *.
    exists a, (t + 1). replace (2 * m + 1 + 1) with (2 * (m + 1)) by lia.
    rewrite land_odd_even, lor_odd_even. rewrite Z.pow_add_r by lia. change (2 ^ 1) with 2.
    repeat split; lia.
Qed.

Lemma lo_range k : 0 <= k -> 0 <= lo k <= k.
Proof.
  intros Hk. destruct (decomp k Hk) as (a & t & Ha & Ht & E1 & E2 & E3).
  assert (0 < 2 ^ t) by (apply Z.pow_pos_nonneg; lia). nia.
Qed.

Lemma up_gt k : 0 <= k -> k < up k.
Proof.
  intros Hk. destruct (decomp k Hk) as (a & t & Ha & Ht & E1 & E2 & E3).
  assert (0 < 2 ^ t) by (apply Z.pow_pos_nonneg; lia). lia.
Qed.

Lemma up_covers k i : 0 <= k -> k < i -> (lo i <= k <-> up k <= i /\ lo i <= up k).
Proof.
  intros Hk Hi.
  destruct (decomp k Hk) as (a & t & Ha & Ht & E1 & E2 & E3).
  destruct (decomp i ltac:(lia)) as (b & s & Hb & Hs & F1 & F2 & F3).
  assert (Pt : 0 < 2 ^ t) by (apply Z.pow_pos_nonneg; lia).
  assert (Ps : 0 < 2 ^ s) by (apply Z.pow_pos_nonneg; lia).
  set (T := 2 ^ t) in *. set (S := 2 ^ s) in *.
  split.
  - intros H. destruct (Z_lt_le_dec t s) as [Hts|Hts].
    + assert (ES : exists q, S = 2 * q * T /\ 0 < q).
      { exists (2 ^ (s - t - 1)). unfold S, T. split; [|apply Z.pow_pos_nonneg; lia].
        change 2 with (2 ^ 1) at 2. rewrite <- !Z.pow_add_r by lia. f_equal. lia. }
      destruct ES as (q & ES & Hq). split; [|pose proof (up_gt k Hk); lia].
      assert (X : (2 * a + 1) * T < (2 * b + 1) * (2 * q) * T) by nia.
      apply Zmult_lt_reg_r in X; [|lia]. nia.
    + assert (ET : exists q, T = q * S /\ 0 < q).
      { exists (2 ^ (t - s)). unfold S, T. split; [|apply Z.pow_pos_nonneg; lia].
        rewrite <- !Z.pow_add_r by lia. f_equal. lia. }
      destruct ET as (q & ET & Hq). exfalso.
      assert (X : (2 * a + 1) * q * S < (2 * b + 1) * S) by nia.
      assert (Y : 2 * b * S < (2 * a + 1) * q * S) by nia.
      apply Zmult_lt_reg_r in X; [|lia]. apply Zmult_lt_reg_r in Y; [|lia]. lia.
  - intros [H1 H2].
    destruct (Z_le_gt_dec (lo i) k) as [|HG]; [assumption|exfalso].
    destruct (Z_lt_le_dec s t) as [Hst|Hst].
    + assert (ET : exists q, T = 2 * q * S /\ 0 < q).
      { exists (2 ^ (t - s - 1)). unfold S, T. split; [|apply Z.pow_pos_nonneg; lia].
        change 2 with (2 ^ 1) at 2. rewrite <- !Z.pow_add_r by lia. f_equal. lia. }
      destruct ET as (q & ET & Hq).
      assert (X : 2 * b * S < (2 * a + 2) * (2 * q) * S) by nia.
      assert (Y : (2 * a + 2) * (2 * q) * S <= (2 * b + 1) * S) by nia.
      apply Zmult_lt_reg_r in X; [|lia]. apply Zmult_le_reg_r in Y; [|lia]. nia.
    + assert (ES : exists q, S = q * T /\ 0 < q).
      { exists (2 ^ (s - t)). unfold S, T. split; [|apply Z.pow_pos_nonneg; lia].
        rewrite <- !Z.pow_add_r by lia. f_equal. lia. }
      destruct ES as (q & ES & Hq).
      assert (X : (2 * a + 1) * T <= 2 * b * q * T) by nia.
      assert (Y : 2 * b * q * T < (2 * a + 2) * T) by nia.
      apply Zmult_le_reg_r in X; [|lia]. apply Zmult_lt_reg_r in Y; [|lia]. nia.
Qed.

Lemma added_app a b l h : added (a ++ b) l h = added a l h + added b l h.
Proof. induction a as [|[k n] a IH]; cbn [app added]; [lia|rewrite IH; lia]. Qed.

Lemma added_split ops l m h : l <= m + 1 -> m <= h -> added ops l h = added ops l m + added ops (m + 1) h.
Proof.
  intros H1 H2. induction ops as [|[k n] ops IH]; cbn [added]; [reflexivity|]. rewrite IH.
  destruct (l <=? k) eqn:A, (k <=? h) eqn:B, (k <=? m) eqn:C, (m + 1 <=? k) eqn:D; cbn; lia.
Qed.

Lemma added_empty ops l h : h < l -> added ops l h = 0.
Proof.
  intros H. induction ops as [|[k n] ops IH]; cbn [added]; [reflexivity|]. rewrite IH.
  destruct (l <=? k) eqn:A, (k <=? h) eqn:B; cbn; lia.
Qed.

(** The tree invariant, with [extra] the increment still to be applied to the
    cells covering position [c] that are at least [c]. *)
Definition inv (ops : list (Z * Z)) (v : list Z) : Prop :=
  forall i x, nth_error v i = Some x -> x = added ops (lo (Z.of_nat i)) (Z.of_nat i).

Lemma upd_length v i x : length (upd v i x) = length v.
Proof. revert i. induction v as [|y v IH]; intros [|i]; cbn; auto. Qed.

Lemma upd_nth v i x j : nth_error (upd v i x) j = if (i =? j)%nat then option_map (fun _ => x) (nth_error v j) else nth_error v j.
Proof.
  revert i j. induction v as [|y v IH]; intros [|i] [|j]; cbn; auto; try (now destruct (i =? j)%nat); apply IH.
Qed.

Lemma vget_ok v i : 0 <= i < Z.of_nat (length v) -> exists x, vget v i = Ok x /\ nth_error v (Z.to_nat i) = Some x.
Proof.
  intros H. unfold vget. replace (i <? 0) with false by lia.
  destruct (nth_error v (Z.to_nat i)) as [x|] eqn:E; [eauto|].
  apply nth_error_None in E. lia.
Qed.

(** [part c ops k n v]: cells at or after [c] covering [k] still miss [n]. *)
Lemma increase_loop_spec fuel : forall v k n, 0 <= k -> Z.of_nat (length v) <= k + Z.of_nat fuel ->
  exists v', increase_loop fuel v k n = Ok v' /\ length v' = length v /\
    forall i x', nth_error v' i = Some x' -> exists x, nth_error v i = Some x /\
      x' = x + (if (k <=? Z.of_nat i) && (lo (Z.of_nat i) <=? k) then n else 0).
Proof.
  induction fuel as [|f IH]; intros v k n Hk Hf.
  - cbn [increase_loop]. replace (k <? Z.of_nat (length v)) with false by lia.
    exists v. split; [reflexivity|]. split; [reflexivity|]. intros i x Hx. exists x. split; [assumption|].
    assert (i < length v)%nat by (apply nth_error_Some; congruence).
    replace (k <=? Z.of_nat i) with false by lia. cbn. lia.
  - cbn [increase_loop]. destruct (k <? Z.of_nat (length v)) eqn:Ek.
    + destruct (vget_ok v k ltac:(lia)) as (x & -> & Hx). cbn [obind].
      pose proof (up_gt k Hk) as Hu. fold (up k).
      destruct (IH (upd v (Z.to_nat k) (x + n)) (up k) n ltac:(lia)) as (v' & E1 & E2 & E3).
      { rewrite upd_length. lia. }
      rewrite upd_length in E2. exists v'. split; [exact E1|]. split; [exact E2|].
      intros i x' Hx'. destruct (E3 i x' Hx') as (y & Hy & ->). rewrite upd_nth in Hy.
      destruct (Z.to_nat k =? i)%nat eqn:Ei.
      * apply Nat.eqb_eq in Ei. subst i. rewrite Hx in Hy. cbn in Hy. injection Hy as <-.
        exists x. split; [assumption|]. rewrite Z2Nat.id by lia.
        pose proof (lo_range k Hk). replace (up k <=? k) with false by lia.
        replace (k <=? k) with true by lia. replace (lo k <=? k) with true by lia. cbn. lia.
      * exists y. split; [assumption|]. f_equal.
        apply Nat.eqb_neq in Ei.
        destruct (Z_lt_le_dec k (Z.of_nat i)) as [Hlt|Hge].
        -- pose proof (up_covers k (Z.of_nat i) Hk Hlt) as C.
           destruct (k <=? Z.of_nat i) eqn:A1; [|lia].
           destruct (lo (Z.of_nat i) <=? k) eqn:A2, (up k <=? Z.of_nat i) eqn:A3, (lo (Z.of_nat i) <=? up k) eqn:A4; cbn; try reflexivity; lia.
        -- replace (up k <=? Z.of_nat i) with false by lia. replace (k <=? Z.of_nat i) with false by lia. reflexivity.
    + exists v. split; [reflexivity|]. split; [reflexivity|]. intros i x Hx. exists x. split; [assumption|].
      assert (i < length v)%nat by (apply nth_error_Some; congruence).
      replace (k <=? Z.of_nat i) with false by lia. cbn. lia.
Qed.

Lemma increase_inv ops v k n : 0 <= k -> inv ops v ->
  exists v', increase v k n = Ok v' /\ length v' = length v /\ inv (ops ++ [(k, n)]) v'.
Proof.
  intros Hk Hi. destruct (increase_loop_spec (length v) v k n Hk ltac:(lia)) as (v' & E1 & E2 & E3).
  exists v'. split; [exact E1|]. split; [exact E2|].
  intros i x' Hx'. destruct (E3 i x' Hx') as (x & Hx & ->). rewrite added_app. cbn [added].
  rewrite (Hi i x Hx). f_equal. rewrite andb_comm. lia.
Qed.

Lemma increases_inv ops : forall done v, Forall (fun p => 0 <= fst p) ops -> inv done v ->
  exists v', increases ops v = Ok v' /\ length v' = length v /\ inv (done ++ ops) v'.
Proof.
  induction ops as [|[k n] ops IH]; intros done v Hall Hi.
  - exists v. rewrite app_nil_r. auto.
  - inversion Hall as [|? ? H1 H2]; subst. cbn [fst] in H1.
    destruct (increase_inv done v k n H1 Hi) as (v1 & E1 & L1 & I1).
    destruct (IH _ v1 H2 I1) as (v2 & E2 & L2 & I2).
    exists v2. cbn [increases]. rewrite E1. cbn [obind]. split; [exact E2|]. split; [lia|].
    now rewrite <- app_assoc in I2.
Qed.

Lemma query_inv ops v : inv ops v -> forall a, -1 <= a < Z.of_nat (length v) -> query v a = Ok (added ops 0 a).
Proof.
  intros Hi. unfold query.
  assert (G : forall fuel a, -1 <= a < Z.of_nat (length v) -> (Z.to_nat (a + 1) <= fuel)%nat -> query_loop fuel v a = Ok (added ops 0 a)).
  { induction fuel as [|f IH]; intros a Ha Hf.
    - replace a with (-1) by lia. cbn. now rewrite added_empty by lia.
    - cbn [query_loop]. destruct (0 <=? a) eqn:E; [|now rewrite added_empty by lia].
      destruct (vget_ok v a ltac:(lia)) as (x & -> & Hx). cbn [obind]. fold (lo a).
      pose proof (lo_range a ltac:(lia)) as L.
      rewrite IH by lia. cbn [obind]. f_equal. apply Hi in Hx. rewrite Z2Nat.id in Hx by lia.
      rewrite (added_split ops 0 (lo a - 1) a) by lia. replace (lo a - 1 + 1) with (lo a) by lia. lia. }
  intros a Ha. apply G; lia.
Qed.

Lemma inv_init n : inv [] (fenwick_init n).
Proof.
  intros i x Hx. unfold fenwick_init in Hx. apply nth_error_In in Hx. apply repeat_spec in Hx. subst. reflexivity.
Qed.

Theorem fenwick_correct n ops : Forall (fun p => 0 <= fst p) ops ->
  exists v, increases ops (fenwick_init n) = Ok v /\
    (forall a, -1 <= a < Z.of_nat n -> query v a = Ok (added ops 0 a)) /\
    (forall a b, 0 <= a <= b + 1 -> b < Z.of_nat n -> query2 v a b = Ok (added ops a b)).
Proof.
  intros Hall. destruct (increases_inv ops [] (fenwick_init n) Hall (inv_init n)) as (v & E & L & I).
  cbn [app] in I. unfold fenwick_init in L. rewrite repeat_length in L.
  exists v. split; [exact E|]. split.
  - intros a Ha. apply query_inv; [assumption|lia].
  - intros a b Ha Hb. unfold query2. rewrite (query_inv ops v I b), (query_inv ops v I (a - 1)) by lia. cbn [obind].
    f_equal. rewrite (added_split ops 0 (a - 1) b) by lia. replace (a - 1 + 1) with a by lia. lia.
Qed.
