(** Proofs about threads. *)
From Verif Require Import Common CommonLemmas Thread_Spec Thread_Model.
From Coq Require Import QArith Qround.
Local Open Scope Z_scope.

Lemma upd_nth l i t j : (i < length l)%nat -> nth_error (upd l i t) j = if Nat.eqb j i then Some t else nth_error l j.
Proof.
  unfold upd. revert l j. induction i as [|i IH]; intros [|z c] j Hy; cbn [length] in Hy; try lia; destruct j as [|j]; try reflexivity.
  cbn [firstn app skipn nth_error]. change (Nat.eqb (S j) (S i)) with (Nat.eqb j i). rewrite <- IH by lia. reflexivity.
Qed.
Lemma nth_len {A} (l : list A) i x : nth_error l i = Some x -> (i < length l)%nat. Proof. intros H. apply nth_error_Some. congruence. Qed.
Lemma drop_ok t : forall l, NoDup l -> In t l -> exists l', drop t l = Some l' /\ NoDup l' /\ forall x, In x l' <-> In x l /\ x <> t.
Proof.
  induction l as [|y l IH]; intros N H; [destruct H|]. inversion N as [|? ? Ny N']; subst. cbn. destruct (Nat.eqb_spec t y) as [->|D].
  - exists l. split; [reflexivity|]. split; [exact N'|]. intros x. split; [intros Hx; split; [now right|intros ->; tauto]|]. intros [[->|Hx] Hn]; [congruence|exact Hx].
  - destruct H as [->|H]; [congruence|]. destruct (IH N' H) as (l' & -> & Nl & Hl). exists (y :: l'). split; [reflexivity|]. split.
    + constructor; [|exact Nl]. rewrite Hl. tauto.
    + intros x. cbn. rewrite Hl. split; [intros [->|[Hx Hn]]; [split; [now left|congruence]|tauto]|]. tauto.
Qed.

Definition good (t : thr) : Prop := calls t = (if ended t then 1%nat else 0%nat) /\ (f t = Joined -> ended t = true).
Record inv (w : world) : Prop := {
  i_good : forall t th, nth_error (pool w) t = Some th -> good th;
  i_nodup : NoDup (copies w);
  i_copies : forall t, In t (copies w) <-> exists th, nth_error (pool w) t = Some th /\ ended th = false;
  i_cur : forall o, obj w = Some o -> running o = true -> exists th, nth_error (pool w) (tid o) = Some th /\ f th = Joinable
}.
Definition owned (w : world) : Prop := forall t th, nth_error (pool w) t = Some th -> f th = Joinable -> exists o, obj w = Some o /\ running o = true /\ tid o = t.
(** pthread_join answers 0 only when the thread has ended *)
Definition fair (e : ev) (w : world) : Prop :=
  match e with Join r => r = 0 -> forall o th, obj w = Some o -> nth_error (pool w) (tid o) = Some th -> ended th = true | _ => True end.
(** pthread_detach of a joinable thread answers 0 *)
Definition detaches (e : ev) : Prop := match e with Destroy r => r = 0 | _ => True end.

Lemma made_inv c : inv (made c).
Proof.
  constructor; cbn.
  - intros t th H. now destruct t.
  - constructor.
  - intros t. split; [tauto|]. intros (th & H & _). now destruct t.
  - intros o H. injection H as <-. discriminate.
Qed.
Lemma made_owned c : owned (made c). Proof. intros t th H. now destruct t. Qed.
Lemma set_fate w i th fa o' : inv w -> nth_error (pool w) i = Some th -> (fa = Joined -> ended th = true) -> (forall o, o' = Some o -> running o = false) ->
  inv {| obj := o'; pool := upd (pool w) i {| f := fa; ended := ended th; calls := calls th |}; copies := copies w |}.
Proof.
  intros I E J R. pose proof (nth_len _ _ _ E) as L. constructor; cbn [obj pool copies].
  - intros t th' H. rewrite upd_nth in H by exact L. destruct (Nat.eqb_spec t i) as [->|N]; [injection H as <-; split; cbn; [apply (i_good w I i th E)|exact J]|now apply (i_good w I t)].
  - apply (i_nodup w I).
  - intros t. rewrite (i_copies w I). split; intros (th' & H & D); rewrite upd_nth in * by exact L; destruct (Nat.eqb_spec t i) as [->|N].
    + rewrite E in H. injection H as <-. eexists. split; [reflexivity|exact D].
    + exists th'. auto.
    + injection H as <-. exists th. auto.
    + exists th'. auto.
  - intros o H Hr. rewrite (R o H) in Hr. discriminate.
Qed.
Lemma detach_inv o r w : inv w -> obj w = Some o -> exists w', detach o r w = Ok w' /\ inv w' /\ (owned w -> owned w') /\
  ((running o = true -> r = 0) -> exists o', obj w' = Some o' /\ running o' = false).
Proof.
  intros I E. unfold detach. destruct (running o) eqn:Er; cbn [negb].
  - destruct (i_cur w I o E Er) as (th & Ht & Hf). rewrite Ht, Hf. destruct (Z.eqb_spec r 0) as [R0|R0]; cbn [negb].
    + eexists. split; [reflexivity|]. split; [apply set_fate; auto; [discriminate|]; intros o0 H; injection H as <-; reflexivity|]. split.
      * intros O t th' H J. unfold with_pool in *. cbn [pool obj] in *. rewrite upd_nth in H by (eapply nth_len; exact Ht). destruct (Nat.eqb_spec t (tid o)) as [->|N]; [injection H as <-; discriminate|].
        destruct (O t th' H J) as (o1 & E1 & _ & T1). rewrite E in E1. injection E1 as <-. congruence.
      * intros _. eexists. split; [reflexivity|reflexivity].
    + exists w. split; [reflexivity|]. split; [exact I|]. split; [auto|]. intros H. now elim (R0 (H eq_refl)).
  - exists w. split; [reflexivity|]. split; [exact I|]. split; [auto|]. intros _. eauto.
Qed.
Lemma step_ok e w : inv w -> fair e w -> forall r, step e w = Some r -> exists b w', r = Ok (b, w') /\ inv w' /\ (owned w -> detaches e -> owned w').
Proof.
  intros I F r. destruct e as [a|a|a|a|t]; cbn [step].
  - destruct (obj w) as [o|] eqn:E; [|discriminate]. intros H. injection H as <-. unfold start. destruct (callable o) eqn:Ec; cbn [negb]; [|eexists _, _; split; [reflexivity|auto]].
    destruct (running o) eqn:Er; [eexists _, _; split; [reflexivity|auto]|]. destruct (Z.eqb_spec a 0) as [A|A]; cbn [negb obind].
    + eexists _, _. split; [reflexivity|]. split.
      * constructor; cbn [obj pool copies].
        -- intros t th H. destruct (Nat.ltb_spec t (length (pool w))) as [C|C]; [rewrite nth_error_app1 in H by exact C; now apply (i_good w I t)|].
           rewrite nth_error_app2 in H by exact C. destruct (t - length (pool w))%nat as [|m]; cbn in H; [injection H as <-; split; [reflexivity|discriminate]|destruct m; discriminate].
        -- constructor; [|apply (i_nodup w I)]. rewrite (i_copies w I). intros (th & H & _). apply nth_len in H. lia.
        -- intros t. split.
           ++ intros [<-|H]; [rewrite nth_error_app2, Nat.sub_diag by lia; eexists; split; reflexivity|]. apply (i_copies w I) in H as (th & H & D). exists th. split; [|exact D].
              rewrite nth_error_app1 by (eapply nth_len; exact H). exact H.
           ++ intros (th & H & D). destruct (Nat.ltb_spec t (length (pool w))) as [C|C]; [rewrite nth_error_app1 in H by exact C; right; apply (i_copies w I); eauto|].
              rewrite nth_error_app2 in H by exact C. destruct (t - length (pool w))%nat as [|m] eqn:Em; [left; lia|destruct m; discriminate].
        -- intros o' H _. injection H as <-. cbn [tid]. rewrite nth_error_app2, Nat.sub_diag by lia. eexists. split; reflexivity.
      * intros O _ t th H J. cbn [pool obj] in *. destruct (Nat.ltb_spec t (length (pool w))) as [C|C].
        -- rewrite nth_error_app1 in H by exact C. destruct (O t th H J) as (o1 & E1 & R1 & _). rewrite E in E1. injection E1 as <-. congruence.
        -- rewrite nth_error_app2 in H by exact C. destruct (t - length (pool w))%nat as [|m] eqn:Em; [|destruct m; discriminate]. eexists. split; [reflexivity|]. split; [reflexivity|]. cbn. lia.
    + eexists _, _. split; [reflexivity|]. split.
      * constructor; cbn [obj pool copies]; [apply (i_good w I)|apply (i_nodup w I)|apply (i_copies w I)|]. intros o' H R. injection H as <-. discriminate.
      * intros O _ t th H J. destruct (O t th H J) as (o1 & E1 & R1 & _). rewrite E in E1. injection E1 as <-. congruence.
  - destruct (obj w) as [o|] eqn:E; [|discriminate]. intros H. injection H as <-. unfold join. destruct (running o) eqn:Er; cbn [negb]; [|eexists _, _; split; [reflexivity|auto]].
    destruct (i_cur w I o E Er) as (th & Ht & Hf). rewrite Ht, Hf. destruct (Z.eqb_spec a 0) as [A|A]; cbn [negb obind].
    + eexists _, _. split; [reflexivity|]. split.
      * apply set_fate; auto; [|intros o0 H; injection H as <-; reflexivity]. intros _. exact (F A o th E Ht).
      * intros O _ t th' H J. unfold with_pool in *. cbn [pool obj] in *. rewrite upd_nth in H by (eapply nth_len; exact Ht). destruct (Nat.eqb_spec t (tid o)) as [->|N]; [injection H as <-; discriminate|].
        destruct (O t th' H J) as (o1 & E1 & _ & T1). rewrite E in E1. injection E1 as <-. congruence.
    + eexists _, _. split; [reflexivity|auto].
  - destruct (obj w) as [o|] eqn:E; [|discriminate]. intros H. injection H as <-. destruct (detach_inv o a w I E) as (w' & -> & I' & O' & _). cbn [obind]. eexists _, _. split; [reflexivity|auto].
  - destruct (obj w) as [o|] eqn:E; [|discriminate]. intros H. injection H as <-. unfold destroy. destruct (detach_inv o a w I E) as (w' & D & I' & O' & S').
    assert (X : (if running o then detach o a w else Ok w) = Ok w') by (destruct (running o) eqn:Er; [exact D|]; unfold detach in D; rewrite Er in D; exact D).
    rewrite X. cbn [obind]. eexists _, _. split; [reflexivity|]. split.
    + constructor; cbn [obj pool copies]; [apply (i_good w' I')|apply (i_nodup w' I')|apply (i_copies w' I')|]. discriminate.
    + intros O Hd t th H J. cbn [pool] in H. destruct (O' O t th H J) as (o1 & E1 & R1 & _). destruct (S' (fun _ => Hd)) as (o2 & E2 & R2). rewrite E2 in E1. injection E1 as <-. congruence.
  - destruct (nth_error (pool w) t) as [th|] eqn:Et; [|discriminate]. destruct (ended th) eqn:Ed; [discriminate|]. intros H. injection H as <-. unfold start_routine. rewrite Et.
    destruct (drop_ok t (copies w) (i_nodup w I)) as (l & -> & Nl & Hl); [apply (i_copies w I); eauto|]. cbn [obind]. pose proof (nth_len _ _ _ Et) as L. eexists _, _. split; [reflexivity|]. split.
    + constructor; cbn [obj pool copies].
      * intros t' th' H. rewrite upd_nth in H by exact L. destruct (Nat.eqb_spec t' t) as [->|N]; [|now apply (i_good w I t')]. injection H as <-. destruct (i_good w I t th Et) as [G1 G2]. rewrite Ed in G1.
        split; cbn; [now rewrite G1|reflexivity].
      * exact Nl.
      * intros t'. rewrite Hl, (i_copies w I). rewrite upd_nth by exact L. destruct (Nat.eqb_spec t' t) as [->|N].
        -- split; [tauto|]. intros (th' & H & D). injection H as <-. discriminate.
        -- tauto.
      * intros o H R. destruct (i_cur w I o H R) as (th' & Ht & Hf). rewrite upd_nth by exact L. destruct (Nat.eqb_spec (tid o) t) as [Eq|N]; [|eauto]. rewrite Eq, Et in Ht. injection Ht as <-. eexists. split; [reflexivity|exact Hf].
    + intros O _ t' th' H J. cbn [pool obj] in *. rewrite upd_nth in H by exact L. destruct (Nat.eqb_spec t' t) as [->|N]; [injection H as <-; exact (O t th Et J)|exact (O t' th' H J)].
Qed.
(** all executions *)
Inductive reach (c : bool) : list ev -> world -> Prop :=
| reach_0 : reach c [] (made c)
| reach_S l w e b w' : reach c l w -> fair e w -> step e w = Some (Ok (b, w')) -> reach c (l ++ [e]) w'.
Lemma reach_inv c l w : reach c l w -> inv w.
Proof.
  induction 1 as [|l w e b w' _ I F S]; [apply made_inv|]. destruct (step_ok e w I F _ S) as (b1 & w1 & E & I' & _). injection E as <- <-. exact I'.
Qed.
Lemma reach_owned c l w : reach c l w -> Forall detaches l -> owned w.
Proof.
  induction 1 as [|l w e b w' R IH F S]; intros D; [apply made_owned|]. apply Forall_app in D as [D1 D2]. destruct (step_ok e w (reach_inv _ _ _ R) F _ S) as (b1 & w1 & E & _ & O). injection E as <- <-.
  apply O; [now apply IH|now apply Forall_inv in D2].
Qed.

(** sleeping *)
Local Open Scope Q_scope.
Lemma rep_int n : (- 2 ^ 53 < n < 2 ^ 53)%Z -> representable (inject_Z n).
Proof. intros H. exists n, 1074%Z. split; [exact H|]. split; [lia|]. now rewrite inject_Z_mult. Qed.
Lemma rnd_eq rnd x y : rounding rnd -> x == y -> rnd x == rnd y.
Proof. intros [M _] E. apply Qle_antisym; apply M; rewrite E; apply Qle_refl. Qed.
Lemma floor_unique x n : inject_Z n <= x -> x < inject_Z (n + 1) -> Qfloor x = n.
Proof.
  intros H1 H2. pose proof (Qfloor_le x) as L. pose proof (Qlt_floor x) as U.
  assert (A : (n < Qfloor x + 1)%Z) by (rewrite Zlt_Qlt; eapply Qle_lt_trans; eassumption).
  assert (B : (Qfloor x < n + 1)%Z) by (rewrite Zlt_Qlt; eapply Qle_lt_trans; eassumption). lia.
Qed.
Lemma rep_parts x : representable x -> 0 <= x -> representable (inject_Z (Qfloor x)) /\ representable (x - inject_Z (Qfloor x)).
Proof.
  intros (m & e & Hm & He & E) H0. set (S := (2 ^ 1074)%Z) in *. assert (HS : (0 < S)%Z) by (apply Z.pow_pos_nonneg; lia).
  assert (QS : 0 < inject_Z S) by (change 0 with (inject_Z 0); now rewrite <- Zlt_Qlt).
  assert (P : (0 < 2 ^ e)%Z) by (apply Z.pow_pos_nonneg; lia).
  assert (M0 : (0 <= m)%Z).
  { assert (X : 0 <= x * inject_Z S) by (apply Qmult_le_0_compat; [exact H0|now apply Qlt_le_weak]). rewrite E in X. change 0 with (inject_Z 0) in X. rewrite <- Zle_Qle in X. nia. }
  destruct (Z.le_gt_cases 1074 e) as [C|C].
  - set (n := (m * 2 ^ (e - 1074))%Z). assert (X : x == inject_Z n).
    { apply Qmult_inj_r with (inject_Z S); [intros Z0; rewrite Z0 in QS; now apply Qlt_irrefl in QS|]. rewrite E, <- inject_Z_mult. apply inject_Z_injective. unfold n, S. rewrite <- Z.mul_assoc, <- Z.pow_add_r by lia.
      do 2 f_equal. lia. }
    assert (F : Qfloor x = n) by (rewrite (Qfloor_comp _ _ X); apply Qfloor_Z). rewrite F. split.
    + exists m, e. split; [exact Hm|]. split; [exact He|]. fold S. now rewrite <- X.
    + exists 0%Z, 0%Z. split; [lia|]. split; [lia|]. rewrite X. change (inject_Z (0 * 2 ^ 0)) with 0. ring.
  - set (D := (2 ^ (1074 - e))%Z). assert (HD : (0 < D)%Z) by (apply Z.pow_pos_nonneg; lia). assert (SD : S = (D * 2 ^ e)%Z) by (unfold S, D; rewrite <- Z.pow_add_r by lia; f_equal; lia).
    assert (X : x * inject_Z D == inject_Z m).
    { apply Qmult_inj_r with (inject_Z (2 ^ e)); [intros K0; change 0 with (inject_Z 0) in K0; apply (proj1 (inject_Z_injective _ _)) in K0; lia|]. rewrite <- Qmult_assoc, <- !inject_Z_mult, <- SD. exact E. }
    assert (QD : 0 < inject_Z D) by (change 0 with (inject_Z 0); now rewrite <- Zlt_Qlt).
    pose proof (Z.div_mod m D ltac:(lia)) as DM. pose proof (Z.mod_pos_bound m D HD) as MB.
    assert (F : Qfloor x = (m / D)%Z).
    { apply floor_unique.
      - apply Qmult_lt_0_le_reg_r with (inject_Z D); [exact QD|]. rewrite X, <- inject_Z_mult, <- Zle_Qle. lia.
      - rewrite <- (Qmult_lt_r _ _ _ QD), X, <- inject_Z_mult, <- Zlt_Qlt. lia. }
    rewrite F. assert (Mb : (0 <= m / D <= m)%Z) by (split; [apply Z.div_pos; lia|apply Z.div_le_upper_bound; nia]). split; [apply rep_int; lia|].
    exists (m mod D)%Z, e. split; [pose proof (Z.mod_le m D M0 HD); lia|]. split; [exact He|]. fold S. rewrite SD, !inject_Z_mult.
    transitivity ((x * inject_Z D - inject_Z (m / D) * inject_Z D) * inject_Z (2 ^ e)); [ring|]. rewrite X. rewrite <- inject_Z_mult. apply Qmult_comp; [|reflexivity].
    unfold Qminus. rewrite <- inject_Z_opp, <- inject_Z_plus. apply inject_Z_injective. lia.
Qed.
Lemma trunc_pos x : 0 <= x -> trunc x = Qfloor x.
Proof. intros H. unfold trunc. rewrite (proj2 (Qle_bool_iff 0 x) H). reflexivity. Qed.
Lemma floor_pos x : 0 <= x -> (0 <= Qfloor x)%Z.
Proof. intros H. change 0%Z with (Qfloor 0). now apply Qfloor_resp_le. Qed.
Lemma to_int64_comp x y : x == y -> to_int64 x = to_int64 y.
Proof. intros E. unfold to_int64, trunc. rewrite (Qfloor_comp _ _ E), (Qceiling_comp _ _ E). replace (Qle_bool 0 x) with (Qle_bool 0 y); [reflexivity|]. now rewrite E. Qed.
Definition billion : Q := 1000000000.
Lemma sleep_pos rnd q : rounding rnd -> representable q -> 0 <= q -> q < inject_Z (2 ^ 63) ->
  exists n, sleep_request rnd (Fin q) = Ok (Qfloor q, n) /\ (0 <= n <= 999999999)%Z /\
  (inject_Z (n - 1) <= (q - inject_Z (Qfloor q)) * billion)%Q /\ ((q - inject_Z (Qfloor q)) * billion <= inject_Z (n + 1))%Q.
Proof.
  intros R Rq H0 H63. unfold sleep_request. set (d := max0 (Fin q)). assert (Ed : exists q', d = Fin q' /\ q' == q).
  { unfold d, max0. destruct (Qle_bool q 0) eqn:E; [|exists q; split; reflexivity]. exists 0. split; [reflexivity|]. apply Qle_bool_iff in E. now apply Qle_antisym. }
  clearbody d. destruct Ed as (q' & -> & Eq). pose proof (floor_pos q H0) as F0.
  assert (F63 : (Qfloor q < 2 ^ 63)%Z) by (rewrite Zlt_Qlt; eapply Qle_lt_trans; [apply Qfloor_le|exact H63]).
  rewrite (to_int64_comp _ _ Eq). unfold to_int64 at 1. rewrite trunc_pos by exact H0. replace ((- 2 ^ 63 <=? Qfloor q)%Z && (Qfloor q <? 2 ^ 63)%Z) with true by lia. cbn [obind].
  rewrite Z.max_r by exact F0. destruct (rep_parts q Rq H0) as [RF RR]. set (F := Qfloor q) in *.
  assert (E1 : rnd (rnd (q' - rnd (inject_Z F)) * 1000000000) == rnd ((q - inject_Z F) * billion)).
  { apply rnd_eq; [exact R|]. apply Qmult_comp; [|reflexivity]. transitivity (rnd (q - inject_Z F)); [|now apply (proj2 R)]. apply rnd_eq; [exact R|]. rewrite Eq, (proj2 R _ RF). reflexivity. }
  rewrite (to_int64_comp _ _ E1). set (y := (q - inject_Z F) * billion).
  assert (Y0 : 0 <= q - inject_Z F) by (unfold Qminus; apply -> Qle_minus_iff; apply Qfloor_le).
  assert (Y1 : q - inject_Z F < 1).
  { pose proof (Qlt_floor q) as U. fold F in U. rewrite inject_Z_plus in U. rewrite <- (Qplus_lt_l _ _ (inject_Z F)). ring_simplify. exact U. }
  set (N := Qfloor y). assert (NL : inject_Z N <= y) by apply Qfloor_le. assert (NU : y < inject_Z (N + 1)) by apply Qlt_floor.
  assert (yp : 0 <= y) by (apply Qmult_le_0_compat; [exact Y0|discriminate]). assert (N0 : (0 <= N)%Z) by now apply floor_pos.
  assert (yb : y < inject_Z 1000000000) by (unfold y; change (inject_Z 1000000000) with (1 * billion); apply (Qmult_lt_r _ _ billion); [reflexivity|exact Y1]).
  assert (NB : (N < 1000000000)%Z) by (rewrite Zlt_Qlt; eapply Qle_lt_trans; eassumption).
  assert (L : inject_Z N <= rnd y) by (rewrite <- (proj2 R (inject_Z N)) by (apply rep_int; lia); now apply (proj1 R)).
  assert (U : rnd y <= inject_Z (N + 1)) by (rewrite <- (proj2 R (inject_Z (N + 1))) by (apply rep_int; lia); apply (proj1 R); now apply Qlt_le_weak).
  assert (P : 0 <= rnd y) by (eapply Qle_trans; [|exact L]; change 0 with (inject_Z 0); now rewrite <- Zle_Qle).
  assert (FL : (N <= Qfloor (rnd y) <= N + 1)%Z).
  { split; [rewrite <- (Qfloor_Z N) at 1; now apply Qfloor_resp_le|]. rewrite <- (Qfloor_Z (N + 1)). now apply Qfloor_resp_le. }
  unfold to_int64. rewrite trunc_pos by exact P. replace ((- 2 ^ 63 <=? Qfloor (rnd y))%Z && (Qfloor (rnd y) <? 2 ^ 63)%Z) with true by lia. cbn [obind].
  eexists. split; [reflexivity|]. split; [lia|]. split.
  - eapply Qle_trans; [|exact NL]. rewrite <- Zle_Qle. lia.
  - eapply Qle_trans; [apply Qlt_le_weak; exact NU|]. rewrite <- Zle_Qle. lia.
Qed.
Lemma sleep_neg rnd d : rounding rnd -> match d with Fin q => q <= 0 | Inf neg => neg = true | NaN => True end -> sleep_request rnd d = Ok (0, 0)%Z.
Proof.
  intros R H. unfold sleep_request. replace (max0 d) with (Fin 0).
  - change (to_int64 0) with (Ok 0%Z). cbn [obind]. change (Z.max 0 0) with 0%Z.
    assert (Z0 : rnd (inject_Z 0) == 0) by (apply (proj2 R); apply rep_int; lia).
    assert (E : rnd (rnd (0 - rnd (inject_Z 0)) * 1000000000) == 0).
    { transitivity (rnd (inject_Z 0)); [|exact Z0]. apply rnd_eq; [exact R|]. transitivity (0 * 1000000000); [|reflexivity]. apply Qmult_comp; [|reflexivity].
      transitivity (rnd (inject_Z 0)); [|exact Z0]. apply rnd_eq; [exact R|]. rewrite Z0. reflexivity. }
    rewrite (to_int64_comp _ _ E). reflexivity.
  - destruct d as [q|neg|]; cbn; [now rewrite (proj2 (Qle_bool_iff q 0) H)|now rewrite H|reflexivity].
Qed.
