From Verif Require Import Common Thread_Spec Thread_Model Thread_Proof Timeout_Spec Timeout_Model.
From Coq Require Import QArith Qround Lqa.
Local Open Scope Q_scope.

Lemma QinjLe a b : (a <= b)%Z -> inject_Z a <= inject_Z b.
Proof. intros H. now rewrite <- Zle_Qle. Qed.
Lemma QinjLt a b : (a < b)%Z -> inject_Z a < inject_Z b.
Proof. intros H. now rewrite <- Zlt_Qlt. Qed.
(** Numbers that have few enough digits *)
Lemma rep_grid m k : (- 2 ^ 53 < m < 2 ^ 53)%Z -> (0 <= k <= 1074)%Z -> representable (inject_Z m / inject_Z (2 ^ k)).
Proof.
  intros H Hk. exists m, (1074 - k)%Z. split; [exact H|]. split; [lia|].
  assert (P : ~ inject_Z (2 ^ k) == 0).
  { intros X. change 0 with (inject_Z 0) in X. apply (proj1 (inject_Z_injective _ _)) in X. assert (0 < 2 ^ k)%Z by (apply Z.pow_pos_nonneg; lia). lia. }
  replace (2 ^ 1074)%Z with (2 ^ k * 2 ^ (1074 - k))%Z by (rewrite <- Z.pow_add_r by lia; f_equal; lia). rewrite !inject_Z_mult.
  generalize dependent (inject_Z (2 ^ k)). generalize (inject_Z (2 ^ (1074 - k))) (inject_Z m). intros a b c P. field. exact P.
Qed.
(** Rounding errs by one step of such a grid at most *)
Lemma rnd_grid rnd k x : rounding rnd -> (0 <= k <= 1074)%Z -> 0 <= x -> x * inject_Z (2 ^ k) < inject_Z (2 ^ 53 - 1) ->
  x - / inject_Z (2 ^ k) <= rnd x <= x + / inject_Z (2 ^ k) /\ 0 <= rnd x.
Proof.
  intros R Hk H0 Hx. assert (Pk : (0 < 2 ^ k)%Z) by (apply Z.pow_pos_nonneg; lia). set (D := (2 ^ k)%Z) in *.
  assert (QD : 0 < inject_Z D) by (change 0 with (inject_Z 0); now apply QinjLt).
  set (N := Qfloor (x * inject_Z D)). assert (NL : inject_Z N <= x * inject_Z D) by apply Qfloor_le. assert (NU : x * inject_Z D < inject_Z (N + 1)) by apply Qlt_floor.
  assert (N0 : (0 <= N)%Z) by (apply floor_pos, Qmult_le_0_compat; [exact H0|now apply Qlt_le_weak]).
  assert (N1 : (N < 2 ^ 53 - 1)%Z) by (rewrite Zlt_Qlt; eapply Qle_lt_trans; eassumption).
  assert (A : rnd (inject_Z N / inject_Z D) == inject_Z N / inject_Z D) by (apply (proj2 R), rep_grid; lia).
  assert (B : rnd (inject_Z (N + 1) / inject_Z D) == inject_Z (N + 1) / inject_Z D) by (apply (proj2 R), rep_grid; lia).
  assert (E : inject_Z (N + 1) / inject_Z D == inject_Z N / inject_Z D + / inject_Z D).
  { rewrite inject_Z_plus. change (inject_Z 1) with 1. field. intros X. rewrite X in QD. now apply Qlt_irrefl in QD. }
  assert (L1 : inject_Z N / inject_Z D <= x) by (apply Qle_shift_div_r; assumption).
  assert (L2 : x <= inject_Z (N + 1) / inject_Z D) by (apply Qle_shift_div_l; [exact QD|now apply Qlt_le_weak]).
  pose proof (proj1 R _ _ L1) as M1. pose proof (proj1 R _ _ L2) as M2. rewrite A in M1. rewrite B in M2. rewrite E in *.
  assert (Z0 : 0 <= inject_Z N / inject_Z D) by (apply Qle_shift_div_l; [exact QD|]; ring_simplify; change 0 with (inject_Z 0); now apply QinjLe).
  split; [split; lra|lra].
Qed.
Lemma rnd_le1 rnd x : rounding rnd -> x <= 1 -> rnd x <= 1.
Proof. intros R H. rewrite <- (proj2 R 1) by (apply (rep_int 1); lia). now apply (proj1 R). Qed.
Lemma rnd_0 rnd : rounding rnd -> rnd 0 == 0.
Proof. intros R. apply (proj2 R), (rep_int 0). lia. Qed.
Lemma rnd_pos rnd x : rounding rnd -> 0 <= x -> 0 <= rnd x.
Proof. intros R H. rewrite <- (rnd_0 rnd R) at 1. now apply (proj1 R). Qed.

(** The product with the unit: what becomes of it as an integer *)
Lemma scaled rnd z U : rounding rnd -> 0 <= z -> z <= 1 -> (0 < U <= 1000000000)%Z ->
  0 <= rnd (z * inject_Z U) /\ (0 <= Qfloor (rnd (z * inject_Z U)%Q) <= U)%Z /\
  inject_Z (Qfloor (rnd (z * inject_Z U)%Q) - 1) <= z * inject_Z U <= inject_Z (Qfloor (rnd (z * inject_Z U)%Q) + 1).
Proof.
  intros R H0 H1 HU. set (y := z * inject_Z U). assert (QU : 0 <= inject_Z U) by (change 0 with (inject_Z 0); apply QinjLe; lia).
  assert (Y0 : 0 <= y) by now apply Qmult_le_0_compat. assert (Y1 : y <= inject_Z U) by (unfold y; nra).
  set (N := Qfloor y). assert (NL : inject_Z N <= y) by apply Qfloor_le. assert (NU : y < inject_Z (N + 1)) by apply Qlt_floor.
  assert (N0 : (0 <= N)%Z) by now apply floor_pos. assert (N1 : (N <= U)%Z) by (rewrite Zle_Qle; eapply Qle_trans; eassumption).
  assert (L : inject_Z N <= rnd y) by (rewrite <- (proj2 R (inject_Z N)) by (apply rep_int; lia); now apply (proj1 R)).
  assert (V : rnd y <= inject_Z (N + 1)) by (rewrite <- (proj2 R (inject_Z (N + 1))) by (apply rep_int; lia); apply (proj1 R); now apply Qlt_le_weak).
  assert (W : rnd y <= inject_Z U) by (rewrite <- (proj2 R (inject_Z U)) by (apply rep_int; lia); now apply (proj1 R)).
  assert (P : 0 <= rnd y) by now apply rnd_pos.
  assert (F1 : (N <= Qfloor (rnd y))%Z) by (rewrite <- (Qfloor_Z N); now apply Qfloor_resp_le).
  assert (F2 : (Qfloor (rnd y) <= N + 1)%Z) by (rewrite <- (Qfloor_Z (N + 1)); now apply Qfloor_resp_le).
  assert (F3 : (Qfloor (rnd y) <= U)%Z) by (rewrite <- (Qfloor_Z U); now apply Qfloor_resp_le).
  split; [exact P|]. split; [lia|]. split.
  - eapply Qle_trans; [|exact NL]. apply QinjLe. lia.
  - eapply Qle_trans; [apply Qlt_le_weak; exact NU|]. apply QinjLe. lia.
Qed.
Lemma to_int32_comp x y : x == y -> to_int32 x = to_int32 y.
Proof. intros E. unfold to_int32, trunc. rewrite (Qfloor_comp _ _ E), (Qceiling_comp _ _ E). replace (Qle_bool 0 x) with (Qle_bool 0 y); [reflexivity|]. now rewrite E. Qed.
Lemma frac_bounds q : 0 <= q - inject_Z (Qfloor q) < 1.
Proof. pose proof (Qfloor_le q). pose proof (Qlt_floor q) as U. rewrite inject_Z_plus in U. change (inject_Z 1) with 1 in U. lra. Qed.

(** From the parts to the whole *)
Lemma to_whole U s n z : (0 < U)%Z -> inject_Z (n - 1) <= z * inject_Z U <= inject_Z (n + 1) ->
  inject_Z s + z - (1 # Z.to_pos U) <= inject_Z s + (n # Z.to_pos U) <= inject_Z s + z + (1 # Z.to_pos U).
Proof.
  intros HU H. assert (E : forall a, (a # Z.to_pos U) == inject_Z a / inject_Z U).
  { intros a. rewrite Qmake_Qdiv. rewrite Z2Pos.id by exact HU. reflexivity. }
  rewrite !E. assert (QU : 0 < inject_Z U) by (change 0 with (inject_Z 0); now apply QinjLt).
  unfold Z.sub in H. rewrite !inject_Z_plus in H. change (inject_Z (Z.opp 1)) with (- (1)) in H. change (inject_Z 1) with 1 in *.
  assert (A : z == z * inject_Z U / inject_Z U) by (field; intros X; rewrite X in QU; now apply Qlt_irrefl in QU).
  assert (B : 1 / inject_Z U == / inject_Z U) by (unfold Qdiv; ring). assert (IP : 0 < / inject_Z U) by now apply Qinv_lt_0_compat.
  unfold Qdiv in *. set (i := / inject_Z U) in *. assert (H1 : (inject_Z n - 1) * i <= z * inject_Z U * i) by (apply Qmult_le_compat_r; lra).
  assert (H2 : z * inject_Z U * i <= (inject_Z n + 1) * i) by (apply Qmult_le_compat_r; lra). split; lra.
Qed.
Lemma timeval_pos rnd q : rounding rnd -> representable q -> 0 <= q -> q < inject_Z (2 ^ 31) ->
  exists t, timeval rnd q = Ok t /\ well_formed 1000000 t /\ stands_for 1000000 t q (1 # 1000000).
Proof.
  intros R Rq H0 H31. unfold timeval. pose proof (floor_pos q H0) as F0.
  assert (F31 : (Qfloor q < 2 ^ 31)%Z) by (rewrite Zlt_Qlt; eapply Qle_lt_trans; [apply Qfloor_le|exact H31]).
  unfold to_int32 at 1. rewrite trunc_pos by exact H0. replace ((- 2 ^ 31 <=? Qfloor q)%Z && (Qfloor q <? 2 ^ 31)%Z) with true by lia. cbn [obind].
  rewrite Z.max_r by exact F0. destruct (rep_parts q Rq H0) as [RF RR]. set (F := Qfloor q) in *.
  assert (E1 : rnd (rnd (q - rnd (inject_Z F)) * 1000000) == rnd ((q - inject_Z F) * inject_Z 1000000)).
  { apply rnd_eq; [exact R|]. apply Qmult_comp; [|reflexivity]. transitivity (rnd (q - inject_Z F)); [|now apply (proj2 R)]. apply rnd_eq; [exact R|]. rewrite (proj2 R _ RF). reflexivity. }
  rewrite (to_int32_comp _ _ E1). pose proof (frac_bounds q) as [Y0 Y1]. fold F in Y0, Y1.
  destruct (scaled rnd (q - inject_Z F) 1000000 R Y0 (Qlt_le_weak _ _ Y1) ltac:(lia)) as (P & FB & L). set (n := Qfloor (rnd ((q - inject_Z F) * inject_Z 1000000))) in *.
  unfold to_int32. rewrite trunc_pos by exact P. fold n. replace ((- 2 ^ 31 <=? n)%Z && (n <? 2 ^ 31)%Z) with true by lia. cbn [obind].
  eexists. split; [reflexivity|]. split; [cbn [fst snd]; unfold well_formed; cbn [fst snd]; lia|].
  unfold stands_for. cbn [fst snd]. rewrite Z.max_r by lia.
  assert (L' : inject_Z (Z.min 999999 n - 1) <= (q - inject_Z F) * inject_Z 1000000 <= inject_Z (Z.min 999999 n + 1)).
  { split; [eapply Qle_trans; [|apply L]; apply QinjLe; lia|]. destruct (Z.le_gt_cases n 999999) as [C|C]; [rewrite Z.min_r by lia; apply L|].
    rewrite Z.min_l by lia. change (inject_Z (999999 + 1)) with (1 * inject_Z 1000000). apply Qmult_le_compat_r; [lra|discriminate]. }
  apply (to_whole 1000000 F) in L'; [|lia]. change (Z.to_pos 1000000) with 1000000%positive in *. split; lra.
Qed.
Lemma to_timespec_pos rnd q : rounding rnd -> 0 <= q -> q < inject_Z (2 ^ 52) ->
  exists t, to_timespec rnd q = Ok t /\ well_formed 1000000000 t /\ stands_for 1000000000 t q ((1 # 1000000000) + / inject_Z (2 ^ 52)).
Proof.
  intros R H0 H52. unfold to_timespec. pose proof (floor_pos q H0) as F0.
  assert (F52 : (Qfloor q < 2 ^ 52)%Z) by (rewrite Zlt_Qlt; eapply Qle_lt_trans; [apply Qfloor_le|exact H52]).
  unfold to_int64 at 1. rewrite trunc_pos by exact H0. replace ((- 2 ^ 63 <=? Qfloor q)%Z && (Qfloor q <? 2 ^ 63)%Z) with true by lia. cbn [obind].
  rewrite Z.max_r by exact F0. set (F := Qfloor q) in *. pose proof (frac_bounds q) as [Y0 Y1]. fold F in Y0, Y1.
  assert (RF : rnd (inject_Z F) == inject_Z F) by (apply (proj2 R), rep_int; lia).
  set (z := rnd (q - inject_Z F)).
  assert (Ez : rnd (q - rnd (inject_Z F)) == z) by (apply rnd_eq; [exact R|]; rewrite RF; reflexivity).
  assert (Z0 : 0 <= z) by now apply rnd_pos. assert (Z1 : z <= 1) by (apply rnd_le1; [exact R|now apply Qlt_le_weak]).
  destruct (rnd_grid rnd 52 (q - inject_Z F) R) as [G _]; [lia|exact Y0| |].
  { apply Qlt_trans with (inject_Z (2 ^ 52)); [|reflexivity]. rewrite <- (Qmult_1_l (inject_Z (2 ^ 52))) at 2. apply Qmult_lt_r; [reflexivity|exact Y1]. }
  fold z in G.
  assert (E1 : rnd (rnd (q - rnd (inject_Z F)) * 1000000000) == rnd (z * inject_Z 1000000000)) by (apply rnd_eq; [exact R|]; rewrite Ez; reflexivity).
  rewrite (to_int64_comp _ _ E1).
  destruct (scaled rnd z 1000000000 R Z0 Z1 ltac:(lia)) as (P & FB & L). set (n := Qfloor (rnd (z * inject_Z 1000000000))) in *.
  unfold to_int64. rewrite trunc_pos by exact P. fold n. replace ((- 2 ^ 63 <=? n)%Z && (n <? 2 ^ 63)%Z) with true by lia. cbn [obind].
  eexists. split; [reflexivity|]. split; [unfold well_formed; cbn [fst snd]; lia|].
  unfold stands_for. cbn [fst snd]. rewrite Z.max_r by lia.
  assert (L' : inject_Z (Z.min 999999999 n - 1) <= z * inject_Z 1000000000 <= inject_Z (Z.min 999999999 n + 1)).
  { split; [eapply Qle_trans; [|apply L]; apply QinjLe; lia|]. destruct (Z.le_gt_cases n 999999999) as [C|C]; [rewrite Z.min_r by lia; apply L|].
    rewrite Z.min_l by lia. change (inject_Z (999999999 + 1)) with (1 * inject_Z 1000000000). apply Qmult_le_compat_r; [lra|discriminate]. }
  apply (to_whole 1000000000 F) in L'; [|lia]. change (Z.to_pos 1000000000) with 1000000000%positive in *. set (e := / inject_Z (2 ^ 52)) in *. clearbody e. split; lra.
Qed.

(** The deadline: the clock plus the time *)
Lemma clock_close rnd s u : rounding rnd -> (0 <= s < 2 ^ 32 - 2)%Z -> (0 <= u < 1000000)%Z ->
  0 <= clock_double rnd s u /\
  inject_Z s + (u # 1000000) - (1 # 1000000) - (1 # 100000000) <= clock_double rnd s u <= inject_Z s + (u # 1000000) + (1 # 1000000) + (1 # 100000000).
Proof.
  intros R Hs Hu. unfold clock_double.
  assert (RS : rnd (inject_Z s) == inject_Z s) by (apply (proj2 R), rep_int; lia).
  destruct (rnd_grid rnd 72 (1 # 1000000) R ltac:(lia)) as [[C1 C2] C0]; [discriminate|reflexivity|]. set (c := rnd (1 # 1000000)) in *.
  assert (QU0 : 0 <= inject_Z u) by (change 0 with (inject_Z 0); apply QinjLe; lia).
  assert (QU1 : inject_Z u <= 999999) by (change 999999 with (inject_Z 999999); apply QinjLe; lia).
  assert (EU : (u # 1000000) == inject_Z u * (1 # 1000000)) by (unfold Qeq, inject_Z; cbn; lia).
  assert (I72 : / inject_Z (2 ^ 72) <= (1 # 1000000000000000000)) by discriminate.
  assert (P1 : inject_Z u * c <= inject_Z u * ((1 # 1000000) + (1 # 1000000000000000000))) by (apply Qmult_le_l_compat || (rewrite !(Qmult_comm (inject_Z u)); apply Qmult_le_compat_r; [lra|exact QU0])).
  assert (P2 : inject_Z u * ((1 # 1000000) - (1 # 1000000000000000000)) <= inject_Z u * c) by (rewrite !(Qmult_comm (inject_Z u)); apply Qmult_le_compat_r; [lra|exact QU0]).
  assert (P0 : 0 <= inject_Z u * c) by now apply Qmult_le_0_compat.
  destruct (rnd_grid rnd 50 (inject_Z u * c) R ltac:(lia) P0) as [[D1 D2] D0].
  { apply Qle_lt_trans with (2 * inject_Z (2 ^ 50)); [|reflexivity]. apply Qmult_le_compat_r; [lra|discriminate]. }
  assert (I50 : / inject_Z (2 ^ 50) <= (1 # 1000000000000000)) by discriminate. set (d := rnd (inject_Z u * c)) in *.
  assert (QS0 : 0 <= inject_Z s) by (change 0 with (inject_Z 0); apply QinjLe; lia).
  assert (QS1 : inject_Z s <= 4294967293) by (change 4294967293 with (inject_Z 4294967293); apply QinjLe; lia).
  assert (E : rnd (rnd (inject_Z s) + d) == rnd (inject_Z s + d)) by (apply rnd_eq; [exact R|]; rewrite RS; reflexivity).
  rewrite E. clear E. destruct (rnd_grid rnd 20 (inject_Z s + d) R ltac:(lia)) as [[F1 F2] F0].
  { lra. }
  { apply Qle_lt_trans with (4294967295 * inject_Z (2 ^ 20)); [|reflexivity]. apply Qmult_le_compat_r; [lra|discriminate]. }
  assert (I20 : / inject_Z (2 ^ 20) <= (1 # 1000000)) by discriminate.
  clearbody d c. rewrite EU. split; [exact F0|]. split; lra.
Qed.
Lemma deadline_close rnd s u q : rounding rnd -> (0 <= s <= 2 ^ 32 - 4)%Z -> (0 <= u < 1000000)%Z -> 1 <= inject_Z s + q -> inject_Z s + q <= inject_Z (2 ^ 32 - 4) ->
  exists t, deadline rnd s u (Fin q) = Ok t /\ well_formed 1000000000 t /\
    stands_for 1000000000 t (inject_Z s + (u # 1000000) + q) (3 # 1000000).
Proof.
  intros R Hs Hu Hq Hsum. unfold deadline.
  destruct (clock_close rnd s u R ltac:(lia) Hu) as [K0 [K1 K2]]. set (k := clock_double rnd s u) in *. clearbody k.
  assert (U1 : 0 <= (u # 1000000)) by (unfold Qle; cbn; lia). assert (U2 : (u # 1000000) <= 1) by (unfold Qle; cbn; lia).
  assert (QS : inject_Z (2 ^ 32 - 4) == 4294967292) by reflexivity. rewrite QS in Hsum.
  destruct (rnd_grid rnd 20 (k + q) R ltac:(lia)) as [[F1 F2] F0].
  { lra. }
  { apply Qle_lt_trans with (4294967295 * inject_Z (2 ^ 20)); [|reflexivity]. apply Qmult_le_compat_r; [lra|discriminate]. }
  assert (I20 : / inject_Z (2 ^ 20) <= (96 # 100000000)) by discriminate.
  assert (I52 : / inject_Z (2 ^ 52) <= (1 # 1000000000000)) by discriminate.
  destruct (to_timespec_pos rnd (rnd (k + q)) R F0) as (t & E & W & S).
  { apply Qle_lt_trans with 4294967297; [lra|reflexivity]. }
  exists t. split; [exact E|]. split; [exact W|]. unfold stands_for in *. change (Z.to_pos 1000000000) with 1000000000%positive in *.
  set (x := (snd t # 1000000000)) in *. clearbody x. split; lra.
Qed.

(** The bad cases *)
Lemma less0_neg q : less0 (Fin q) = true <-> q < 0.
Proof.
  unfold less0. destruct (Qle_bool 0 q) eqn:E; cbn [negb]; split; intros H; try discriminate.
  - apply Qle_bool_iff in E. lra.
  - destruct (Qlt_le_dec q 0) as [L|L]; [exact L|]. apply Qle_bool_iff in L. congruence.
  - reflexivity.
Qed.
Lemma timeval_long rnd q : inject_Z (2 ^ 31) <= q -> timeval rnd q = UB.
Proof.
  intros H. unfold timeval, to_int32 at 1. rewrite trunc_pos by (eapply Qle_trans; [|exact H]; discriminate).
  assert (2 ^ 31 <= Qfloor q)%Z by (rewrite <- (Qfloor_Z (2 ^ 31)); now apply Qfloor_resp_le).
  replace ((- 2 ^ 31 <=? Qfloor q)%Z && (Qfloor q <? 2 ^ 31)%Z) with false by lia. reflexivity.
Qed.
Lemma rnd_m1 rnd x m : rounding rnd -> (- 2 ^ 53 < m < 2 ^ 53)%Z -> x <= inject_Z m -> rnd x <= inject_Z m.
Proof. intros R Hm H. rewrite <- (proj2 R (inject_Z m)) by (apply rep_int; lia). now apply (proj1 R). Qed.
Lemma rnd_m2 rnd x m : rounding rnd -> (- 2 ^ 53 < m < 2 ^ 53)%Z -> inject_Z m <= x -> inject_Z m <= rnd x.
Proof. intros R Hm H. rewrite <- (proj2 R (inject_Z m)) by (apply rep_int; lia). now apply (proj1 R). Qed.
Lemma trunc_neg q : q <= 0 -> (trunc q = Qceiling q /\ trunc q <= 0)%Z.
Proof.
  intros H. assert (C : (Qceiling q <= 0)%Z) by (rewrite <- (Qceiling_Z 0); now apply Qceiling_resp_le).
  unfold trunc. destruct (Qle_bool 0 q) eqn:E; [|now split]. apply Qle_bool_iff in E. assert (X : q == inject_Z 0) by (change (inject_Z 0) with 0; lra).
  rewrite (Qfloor_comp _ _ X), (Qceiling_comp _ _ X), Qfloor_Z, Qceiling_Z. now split.
Qed.
Lemma timeval_neg rnd q : rounding rnd -> representable q -> - (2147) <= q -> q < 0 -> timeval rnd q = Ok (0, 0)%Z.
Proof.
  intros R Rq L H. unfold timeval. destruct (trunc_neg q (Qlt_le_weak _ _ H)) as [T T0].
  assert (TL : (- 2147 <= trunc q)%Z) by (rewrite T, <- (Qceiling_Z (- 2147)); now apply Qceiling_resp_le).
  unfold to_int32 at 1. replace ((- 2 ^ 31 <=? trunc q)%Z && (trunc q <? 2 ^ 31)%Z) with true by lia. cbn [obind].
  rewrite Z.max_l by exact T0.
  assert (Ez : rnd (q - rnd (inject_Z 0)) == q).
  { transitivity (rnd q); [|now apply (proj2 R)]. apply rnd_eq; [exact R|]. change (inject_Z 0) with 0. rewrite (rnd_0 _ R). ring. }
  assert (E1 : rnd (rnd (q - rnd (inject_Z 0)) * 1000000) == rnd (q * 1000000)) by (apply rnd_eq; [exact R|]; rewrite Ez; reflexivity).
  rewrite (to_int32_comp _ _ E1). set (y := rnd (q * 1000000)).
  assert (Y1 : y <= inject_Z 0) by (apply rnd_m1; [exact R|lia|change (inject_Z 0) with 0; lra]).
  assert (Y2 : inject_Z (- 2147000000) <= y) by (apply rnd_m2; [exact R|lia|change (inject_Z (- 2147000000)) with (- (2147000000)); lra]).
  destruct (trunc_neg y Y1) as [V V0]. assert (VL : (- 2147000000 <= trunc y)%Z) by (rewrite V, <- (Qceiling_Z (- 2147000000)); now apply Qceiling_resp_le).
  unfold to_int32. replace ((- 2 ^ 31 <=? trunc y)%Z && (trunc y <? 2 ^ 31)%Z) with true by lia. cbn [obind]. do 2 f_equal. lia.
Qed.
Lemma timeval_very_neg rnd q : rounding rnd -> representable q -> q <= - (2148) -> timeval rnd q = UB.
Proof.
  intros R Rq L. unfold timeval. assert (H : q <= 0) by lra. destruct (trunc_neg q H) as [T T0].
  unfold to_int32 at 1. destruct ((- 2 ^ 31 <=? trunc q)%Z && (trunc q <? 2 ^ 31)%Z); [|reflexivity]. cbn [obind].
  rewrite Z.max_l by exact T0.
  assert (Ez : rnd (q - rnd (inject_Z 0)) == q).
  { transitivity (rnd q); [|now apply (proj2 R)]. apply rnd_eq; [exact R|]. change (inject_Z 0) with 0. rewrite (rnd_0 _ R). ring. }
  assert (E1 : rnd (rnd (q - rnd (inject_Z 0)) * 1000000) == rnd (q * 1000000)) by (apply rnd_eq; [exact R|]; rewrite Ez; reflexivity).
  rewrite (to_int32_comp _ _ E1). set (y := rnd (q * 1000000)).
  assert (Y1 : y <= inject_Z (- 2148000000)) by (apply rnd_m1; [exact R|lia|change (inject_Z (- 2148000000)) with (- (2148000000)); lra]).
  destruct (trunc_neg y) as [V V0]; [eapply Qle_trans; [exact Y1|discriminate]|].
  assert (VL : (trunc y <= - 2148000000)%Z) by (rewrite V, <- (Qceiling_Z (- 2148000000)); now apply Qceiling_resp_le).
  unfold to_int32. replace ((- 2 ^ 31 <=? trunc y)%Z && (trunc y <? 2 ^ 31)%Z) with false by lia. reflexivity.
Qed.
Lemma timeval_tiny rnd q : rounding rnd -> 0 <= q -> q <= 1 / inject_Z (2 ^ 20) -> timeval rnd q = Ok (0, 0)%Z.
Proof.
  intros R H L. unfold timeval.
  assert (Q1 : q < 1) by (eapply Qle_lt_trans; [exact L|reflexivity]).
  assert (F : Qfloor q = 0%Z).
  { pose proof (floor_pos q H). assert (Qfloor q < 1)%Z by (rewrite Zlt_Qlt; eapply Qle_lt_trans; [apply Qfloor_le|exact Q1]). lia. }
  unfold to_int32 at 1. rewrite trunc_pos by exact H. rewrite F. change ((- 2 ^ 31 <=? 0)%Z && (0 <? 2 ^ 31)%Z) with true. cbn [obind].
  change (Z.max 0 0) with 0%Z.
  set (z := rnd (q - rnd (inject_Z 0))).
  assert (Z1 : z <= 1 / inject_Z (2 ^ 20)).
  { rewrite <- (proj2 R (1 / inject_Z (2 ^ 20))) by (apply (rep_grid 1 20); lia). apply (proj1 R). change (inject_Z 0) with 0. rewrite (rnd_0 _ R). lra. }
  assert (Z0 : 0 <= z) by (apply rnd_pos; [exact R|]; change (inject_Z 0) with 0; rewrite (rnd_0 _ R); lra).
  set (y := rnd (z * 1000000)). assert (Y0 : 0 <= y) by (apply rnd_pos; [exact R|lra]).
  assert (Y1 : y < 1).
  { apply Qle_lt_trans with (inject_Z 15625 / inject_Z (2 ^ 14)); [|reflexivity].
    rewrite <- (proj2 R (inject_Z 15625 / inject_Z (2 ^ 14))) by (apply rep_grid; lia). apply (proj1 R).
    apply Qle_trans with (1 / inject_Z (2 ^ 20) * 1000000); [apply Qmult_le_compat_r; [exact Z1|discriminate]|discriminate]. }
  assert (Fy : Qfloor y = 0%Z).
  { pose proof (floor_pos y Y0). assert (Qfloor y < 1)%Z by (rewrite Zlt_Qlt; eapply Qle_lt_trans; [apply Qfloor_le|exact Y1]). lia. }
  unfold to_int32. rewrite trunc_pos by exact Y0. rewrite Fy. reflexivity.
Qed.
Lemma deadline_long rnd s u q : rounding rnd -> (0 <= s <= 2 ^ 32 - 4)%Z -> (0 <= u < 1000000)%Z -> inject_Z (2 ^ 63) <= q -> deadline rnd s u (Fin q) = UB.
Proof.
  intros R Hs Hu H. unfold deadline. destruct (clock_close rnd s u R ltac:(lia) Hu) as [K _]. set (k := clock_double rnd s u) in *. clearbody k.
  assert (X : inject_Z (2 ^ 63) <= rnd (k + q)).
  { rewrite <- (proj2 R (inject_Z (2 ^ 63))); [apply (proj1 R); lra|]. exists 1%Z, (1074 + 63)%Z. split; [lia|]. split; [lia|]. now vm_compute. }
  set (x := rnd (k + q)) in *. clearbody x. unfold to_timespec, to_int64 at 1. rewrite trunc_pos by (eapply Qle_trans; [|exact X]; discriminate).
  assert (2 ^ 63 <= Qfloor x)%Z by (rewrite <- (Qfloor_Z (2 ^ 63)); now apply Qfloor_resp_le).
  replace ((- 2 ^ 63 <=? Qfloor x)%Z && (Qfloor x <? 2 ^ 63)%Z) with false by lia. reflexivity.
Qed.
