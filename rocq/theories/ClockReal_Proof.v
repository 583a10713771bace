(** Proofs about clock times as doubles. *)
From Verif Require Import Common CommonLemmas Double_Model Double_Spec Double_Proof LexFloat_Model LexFloat_Proof RandReal_Spec RandReal_Model RandReal_Proof.
From Verif Require Import Clock_Spec Clock_Model Clock_Proof ClockReal_Spec ClockReal_Model.
Local Open Scope Z_scope.

(** Multiples of a power of two are doubles. *)
Lemma grid n k : 0 <= n <= 2 ^ 53 -> 0 <= k <= 2044 -> exists d, is_double d /\ mag d = n * 2 ^ k.
Proof.
  intros Hn Hk. destruct (Z.eq_dec n 0) as [ -> | N0 ]; [ exists (mkD false 0 (-1074)); split; [ apply zero_double | reflexivity ] | ].
  destruct (Z.eq_dec n (2 ^ 53)) as [ -> | N1 ].
  { exists (mkD false (2 ^ 52) (k + 1 - 1074)). split; [ unfold is_double; cbn [dman dexp]; lia | ]. unfold mag. cbn [dman dexp]. replace (k + 1 - 1074 + 1074) with (Z.succ k) by lia. rewrite Z.pow_succ_r by lia. change (2 ^ 53) with (2 * 2 ^ 52). ring. }
  destruct (Z.log2_spec n ltac:(lia)) as [ L1 L2 ]. set (l := Z.log2 n) in *.
  assert (Hl : 0 <= l <= 52). { split; [ apply Z.log2_nonneg | ]. destruct (Z.le_gt_cases l 52) as [ K | K ]; [ exact K | exfalso ]. pose proof (Z.pow_le_mono_r 2 53 l ltac:(lia) ltac:(lia)). lia. }
  set (s := Z.min (52 - l) k). assert (Hs : 0 <= s <= 52 - l) by lia. rewrite Z.pow_succ_r in L2 by lia.
  assert (P0 : 0 < 2 ^ s) by (apply Z.pow_pos_nonneg; lia).
  assert (P : 2 ^ s <= 2 ^ (52 - l)) by (apply Z.pow_le_mono_r; lia).
  assert (P1 : 2 ^ 52 = 2 ^ l * 2 ^ (52 - l)) by (rewrite <- Z.pow_add_r by lia; f_equal; lia).
  assert (P2 : 0 < 2 ^ l) by (apply Z.pow_pos_nonneg; lia).
  exists (mkD false (n * 2 ^ s) (k - s - 1074)). split.
  - unfold is_double. cbn [dman dexp]. split; [ | split; [ lia | ] ].
    + change (2 ^ 53) with (2 * 2 ^ 52). rewrite P1. nia.
    + destruct (Z.eq_dec s k); [ right; lia | left ]. assert (s = 52 - l) as -> by lia. rewrite P1. nia.
  - unfold mag. cbn [dman dexp]. rewrite <- Z.mul_assoc, <- Z.pow_add_r by lia. do 2 f_equal. lia.
Qed.
(** In [0, 2^53 * 2^k] there is a double within 2^(k-1). *)
Lemma near_grid x k : 1 <= k <= 2044 -> 0 <= x <= 2 ^ 53 * 2 ^ k -> exists d, is_double d /\ 2 * Z.abs (mag d - x) <= 2 ^ k.
Proof.
  intros Hk Hx. set (g := 2 ^ k) in *. assert (G : 0 < g) by (apply Z.pow_pos_nonneg; lia). pose proof (Z.div_mod x g ltac:(lia)) as E. pose proof (Z.mod_pos_bound x g G) as B.
  set (n := x / g) in *. set (r := x mod g) in *. assert (0 <= n <= 2 ^ 53) by nia.
  destruct (Z.le_gt_cases (2 * r) g) as [ K | K ].
  - destruct (grid n k ltac:(lia) ltac:(lia)) as (d & Hd & M). exists d. split; [ exact Hd | ]. fold g in M. lia.
  - assert (n < 2 ^ 53) by nia. destruct (grid (n + 1) k ltac:(lia) ltac:(lia)) as (d & Hd & M). exists d. split; [ exact Hd | ]. fold g in M. lia.
Qed.
(** Nearest doubles of fractions over H, h > 0 *)
Lemma near_value neg p q d x : 0 < q -> nearest neg p q d -> is_double x -> Z.abs (p * H - q * mag d) <= Z.abs (p * H - q * mag x).
Proof. intros _ (_ & _ & _ & N & _) Hx. exact (N x Hx). Qed.

(** Integers *)
Lemma of_int_spec n : Z.abs n < 2 ^ 64 -> exists d, of_int n = Fin d /\ is_double d /\ dneg d = (n <? 0) /\
  (forall x, is_double x -> Z.abs (mag d - Z.abs n * H) <= Z.abs (mag x - Z.abs n * H)).
Proof.
  intros Hn. unfold of_int. destruct (round_spec (n <? 0) (Z.abs n) 1 ltac:(lia) ltac:(lia)) as (d & -> & N).
  { apply (Z.lt_trans _ (2 ^ 64)); [ exact Hn | apply Z.ltb_lt; vm_compute; reflexivity ]. }
  exists d. split; [ reflexivity | ]. pose proof N as (Hd & Sd & _). split; [ exact Hd | ]. split; [ exact Sd | ].
  intros x Hx. pose proof (near_value _ _ 1 _ x ltac:(lia) N Hx) as A. revert A. generalize (Z.abs n * H). intros h A. lia.
Qed.
Lemma of_int_exact n : Z.abs n <= 2 ^ 53 -> exists d, of_int n = Fin d /\ is_double d /\ value d = n * H /\ dneg d = (n <? 0).
Proof.
  intros Hn. destruct (of_int_spec n ltac:(lia)) as (d & E & Hd & Sd & N). exists d. split; [ exact E | ]. split; [ exact Hd | ]. split; [ | exact Sd ].
  destruct (grid (Z.abs n) 1074 ltac:(lia) ltac:(lia)) as (x & Hx & M). fold H in M. specialize (N x Hx). rewrite M in N. unfold value. rewrite Sd.
  pose proof H_pos as HP. revert N HP. generalize H. intros h N HP. destruct (Z.ltb_spec n 0); nia.
Qed.

(** The microseconds *)
Definition micro_d : double := mkD false 4722366482869645 (-72).
Lemma micro_is : micro = Fin micro_d.
Proof. vm_compute. reflexivity. Qed.
Lemma micro_double : is_double micro_d.
Proof. unfold is_double, micro_d. cbn [dman dexp]. lia. Qed.
Definition W : Z := 2 ^ 1001.
Lemma micro_near : 2 * Z.abs (1000000 * mag micro_d - H) <= 1000000 * (2 * W).
Proof. apply Z.leb_le. vm_compute. reflexivity. Qed.
Lemma H_W : H = 2 ^ 73 * W. Proof. reflexivity. Qed.
Lemma W_pos : 0 < W. Proof. reflexivity. Qed.
(** u microseconds: a double within 2^-41 + 2^-42 seconds for every int32_t *)
Lemma usec_spec u : - 2 ^ 31 <= u < 2 ^ 31 -> exists p, mul (of_int u) micro = Fin p /\ is_double p /\ dneg p = (u <? 0) /\ (forall x, is_double x -> Z.abs (mag p - Z.abs u * mag micro_d) <= Z.abs (mag x - Z.abs u * mag micro_d)).
Proof.
  intros Hu. destruct (of_int_exact u ltac:(lia)) as (a & -> & Ha & Va & Sa). rewrite micro_is. cbn [mul]. rewrite !units_value, Va.
  assert (Vm : value micro_d = mag micro_d) by reflexivity. rewrite Vm. rewrite Sa. change (dneg micro_d) with false. rewrite Bool.xorb_false_r.
  pose proof (mag_nonneg micro_d micro_double) as M0. pose proof H_pos as HP. fold H.
  assert (EA : Z.abs (u * H * mag micro_d) = Z.abs u * mag micro_d * H). { rewrite !Z.abs_mul, (Z.abs_eq H), (Z.abs_eq (mag micro_d)) by lia. ring. }
  rewrite EA. destruct (round_spec (u <? 0) (Z.abs u * mag micro_d * H) (H * H)) as (p & -> & N).
  - apply Z.mul_nonneg_nonneg; [ apply Z.mul_nonneg_nonneg; lia | lia ].
  - apply Z.mul_pos_pos; exact HP.
  - rewrite (Z.mul_comm (H * H)), Z.mul_assoc. apply Z.mul_lt_mono_pos_r; [ exact HP | ].
    apply (Z.le_lt_trans _ (2 ^ 31 * mag micro_d)); [ apply Z.mul_le_mono_nonneg_r; lia | ]. apply Z.ltb_lt. vm_compute. reflexivity.
  - exists p. split; [ reflexivity | ]. pose proof N as (Hp & Sp & _). split; [ exact Hp | ]. split; [ exact Sp | ]. intros x Hx.
    pose proof (near_value _ _ (H * H) _ x (Z.mul_pos_pos _ _ HP HP) N Hx) as A. clear - A HP. revert A HP. generalize (Z.abs u * mag micro_d). generalize H. intros h t A HP.
    replace (t * h * h - h * h * mag p) with (h * h * (t - mag p)) in A by ring. replace (t * h * h - h * h * mag x) with (h * h * (t - mag x)) in A by ring.
    rewrite !Z.abs_mul in A. assert (0 < Z.abs h * Z.abs h) by nia. nia.
Qed.
Lemma usec_near u p : - 2 ^ 31 <= u < 2 ^ 31 -> is_double p -> dneg p = (u <? 0) ->
  (forall x, is_double x -> Z.abs (mag p - Z.abs u * mag micro_d) <= Z.abs (mag x - Z.abs u * mag micro_d)) ->
  2 * Z.abs (1000000 * value p - u * H) <= 1000000 * (2 ^ 33 * W).
Proof.
  intros Hu Hp Sp N. pose proof micro_near as M. pose proof (mag_nonneg micro_d micro_double) as M0.
  assert (T : 0 <= Z.abs u * mag micro_d <= 2 ^ 53 * 2 ^ 1033).
  { split; [ apply Z.mul_nonneg_nonneg; lia | ]. apply (Z.le_trans _ (2 ^ 31 * mag micro_d)); [ apply Z.mul_le_mono_nonneg_r; lia | ]. apply Z.leb_le. vm_compute. reflexivity. }
  destruct (near_grid _ 1033 ltac:(lia) T) as (x & Hx & X). specialize (N x Hx). clear T M0. change (2 ^ 1033) with (2 ^ 32 * W) in X.
  pose proof W_pos as WP. assert (V : Z.abs (1000000 * value p - u * H) = Z.abs (1000000 * mag p - Z.abs u * H)).
  { unfold value. rewrite Sp. destruct (Z.ltb_spec u 0); [ rewrite <- Z.abs_opp | ]; f_equal; lia. }
  rewrite V. clear V Sp. revert M N X WP. generalize (mag p) (mag x) (mag micro_d) H W. intros mp mx m h w M N X WP.
  assert (A : 2 * Z.abs (Z.abs u * (1000000 * m - h)) <= 2 ^ 31 * (1000000 * (2 * w))). { rewrite Z.abs_mul, (Z.abs_eq (Z.abs u)) by lia. nia. }
  replace (Z.abs u * (1000000 * m - h)) with (1000000 * (Z.abs u * m) - Z.abs u * h) in A by ring. revert A N X. generalize (Z.abs u * m) (Z.abs u * h). intros. lia.
Qed.
(** ** The value *)
Lemma real_near c : valid c -> 0 <= instant c < 2 ^ 33 * million -> exists d, to_real c = Fin d /\ is_double d /\ 2 * error d (instant c) < H.
Proof.
  intros (Hs & Hu) Hi. unfold instant, million in Hi. destruct c as [ s u ]. cbn [fst snd] in *. unfold to_real, instant, error, million. cbn [fst snd].
  destruct (of_int_exact s ltac:(lia)) as (a & -> & Ha & Va & _). destruct (usec_spec u Hu) as (p & -> & Hp & Sp & Np). pose proof (usec_near u p Hu Hp Sp Np) as Ep. clear Np Sp.
  pose proof W_pos as WP. pose proof H_W as HW.
  assert (B : Z.abs (value a + value p) <= 2 ^ 33 * H).
  { rewrite Va. revert Ep HW. generalize H. intros h Ep HW. set (v := value p) in *. clearbody v. nia. }
  destruct (add_spec a p Ha Hp) as (d & E & Hd & N & S1 & S2). { apply (Z.le_lt_trans _ (2 ^ 33 * H)); [ exact B | apply Z.ltb_lt; vm_compute; reflexivity ]. }
  exists d. split; [ exact E | ]. split; [ exact Hd | ]. fold H.
  assert (B' : 0 <= Z.abs (value a + value p) <= 2 ^ 53 * 2 ^ 1054). { split; [ apply Z.abs_nonneg | exact B ]. }
  destruct (near_grid _ 1054 ltac:(lia) B') as (x & Hx & X). specialize (N x Hx). change (2 ^ 1054) with (2 ^ 53 * W) in X. clear B B' E.
  assert (V : Z.abs (value d - (value a + value p)) = Z.abs (mag d - Z.abs (value a + value p))).
  { unfold value at 1. destruct (Z.eq_dec (value a + value p) 0) as [ Z0 | Z0 ].
    - rewrite (S2 Z0), Z0. destruct (dneg d); reflexivity.
    - rewrite (S1 Z0). destruct (Z.ltb_spec (value a + value p) 0); lia. }
  rewrite Va in *. clear S1 S2 Va. rewrite HW in *. clear HW. set (v := value d) in *. set (q := value p) in *. set (w := W) in *. clearbody v q w.
  assert (E1 : 2 * Z.abs (v - (s * (2 ^ 73 * w) + q)) <= 2 ^ 53 * w) by lia. clear N X V.
  replace ((s * 1000000 + u) * (2 ^ 73 * w)) with (1000000 * (s * (2 ^ 73 * w)) + u * (2 ^ 73 * w)) by ring.
  revert E1 Ep. generalize (s * (2 ^ 73 * w)) (u * (2 ^ 73 * w)). intros A B E1 Ep. lia.
Qed.
Lemma near_only d t : 2 * error d t < H -> stands_for d t.
Proof.
  intros E. split; [ exact E | ]. intros t' N. unfold error, million in *. fold H in E |- *. pose proof H_pos as HP. revert E HP. generalize H (value d). intros h v E HP.
  assert (D : h <= Z.abs ((t' - t) * h)). { rewrite Z.abs_mul, (Z.abs_eq h) by lia. nia. }
  replace ((t' - t) * h) with (t' * h - t * h) in D by ring. revert D E. generalize (t * h) (t' * h). intros. lia.
Qed.
(** ** Comparisons *)
Lemma real_order a b da db : 2 * error da a < H -> 2 * error db b < H -> a < b -> value da < value db.
Proof.
  unfold error, million. fold H. pose proof H_pos as HP. revert HP. generalize H (value da) (value db). intros h x y HP Ea Eb L. nia.
Qed.
Lemma normal_valid c : normal c -> valid c.
Proof. unfold normal, valid, million. lia. Qed.
Lemma normal_early c : normal c -> fst c < 2 ^ 33 -> 0 <= instant c < 2 ^ 33 * million.
Proof. unfold normal, instant, million. lia. Qed.
Lemma compare_spec a b : normal a -> normal b -> fst a < 2 ^ 33 -> fst b < 2 ^ 33 ->
  feq (to_real a) (to_real b) = (instant a =? instant b) /\ fltb (to_real a) (to_real b) = (instant a <? instant b).
Proof.
  intros Na Nb La Lb. destruct (real_near a (normal_valid a Na) (normal_early a Na La)) as (da & Ea & Ha & Ra). destruct (real_near b (normal_valid b Nb) (normal_early b Nb Lb)) as (db & Eb & Hb & Rb).
  pose proof (real_order _ _ da db Ra Rb) as O1. pose proof (real_order _ _ db da Rb Ra) as O2.
  destruct (Z.lt_trichotomy (instant a) (instant b)) as [ L | [ E | L ] ].
  - specialize (O1 L). rewrite Ea, Eb. cbn [feq fltb]. rewrite !units_value. split; [ rewrite !(proj2 (Z.eqb_neq _ _)) by lia; reflexivity | rewrite !(proj2 (Z.ltb_lt _ _)) by lia; reflexivity ].
  - pose proof (normal_instant a b Na Nb E) as ->. rewrite Eb. cbn [feq fltb]. rewrite !Z.eqb_refl, !Z.ltb_irrefl. auto.
  - specialize (O2 L). rewrite Ea, Eb. cbn [feq fltb]. rewrite !units_value. split; [ rewrite !(proj2 (Z.eqb_neq _ _)) by lia; reflexivity | rewrite !(proj2 (Z.ltb_ge _ _)) by lia; reflexivity ].
Qed.
(** ** Later times *)
(** Rounding keeps the order. *)
Lemma near_mono x y d e : is_double d -> is_double e -> x < y ->
  (forall z, is_double z -> Z.abs (mag d - x) <= Z.abs (mag z - x)) -> (forall z, is_double z -> Z.abs (mag e - y) <= Z.abs (mag z - y)) -> mag d <= mag e.
Proof. intros Hd He L N1 N2. specialize (N1 e He). specialize (N2 d Hd). lia. Qed.
(** Doubles from 2^53 on are even integers. *)
Lemma large_even d : is_double d -> 2 ^ 53 * H <= mag d -> exists k, mag d = k * (2 * H).
Proof.
  intros (A & B & _) L. unfold mag in *. assert (E : 1 <= dexp d).
  { destruct (Z.le_gt_cases 1 (dexp d)) as [ K | K ]; [ exact K | exfalso ]. assert (P : 2 ^ (dexp d + 1074) <= H) by (apply Z.pow_le_mono_r; lia). pose proof H_pos as HP. pose proof (Z.pow_pos_nonneg 2 (dexp d + 1074) ltac:(lia) ltac:(lia)). revert L P HP. generalize H. intros h L P HP. nia. }
  exists (dman d * 2 ^ (dexp d - 1)). rewrite <- Z.mul_assoc. f_equal. change (2 * H) with (2 ^ 1075). rewrite <- Z.pow_add_r by lia. f_equal. lia.
Qed.
Lemma add_same a b a' b' d d' : value a + value b = value a' + value b' -> add (Fin a) (Fin b) = Fin d -> add (Fin a') (Fin b') = Fin d' -> value d = value d'.
Proof.
  intros E. cbn [add]. rewrite !units_value, <- E. destruct (Z.eqb_spec (value a + value b) 0) as [ _ | _ ].
  - intros E1 E2. injection E1 as <-. injection E2 as <-. unfold value, mag. cbn [dneg dman dexp]. destruct (dneg a && dneg b), (dneg a' && dneg b'); reflexivity.
  - intros E1 E2. rewrite E1 in E2. now injection E2 as <-.
Qed.
Record parts (c : clock) (a p d : double) : Prop := mkParts {
  pa : is_double a; pan : forall x, is_double x -> Z.abs (mag a - fst c * H) <= Z.abs (mag x - fst c * H); pae : of_int (fst c) = Fin a; pav : value a = mag a;
  pp : is_double p; ppn : forall x, is_double x -> Z.abs (mag p - snd c * mag micro_d) <= Z.abs (mag x - snd c * mag micro_d); ppv : value p = mag p; ppl : mag p < H;
  pd : is_double d; pdn : forall x, is_double x -> Z.abs (mag d - (mag a + mag p)) <= Z.abs (mag x - (mag a + mag p)); pde : add (Fin a) (Fin p) = Fin d; pdv : value d = mag d;
  pr : to_real c = Fin d }.
Lemma real_parts c : normal c -> exists a p d, parts c a p d.
Proof.
  intros (Hs & Hu). unfold million in Hu. destruct c as [ s u ]. cbn [fst snd] in *.
  destruct (of_int_spec s ltac:(lia)) as (a & Ea & Ha & Sa & Na). destruct (usec_spec u ltac:(lia)) as (p & Ep & Hp & Sp & Np). pose proof (usec_near u p ltac:(lia) Hp Sp Np) as Bp.
  rewrite (Z.abs_eq s) in Na by lia. rewrite (Z.abs_eq u) in Np by lia. rewrite (proj2 (Z.ltb_ge s 0)) in Sa by lia. rewrite (proj2 (Z.ltb_ge u 0)) in Sp by lia.
  assert (Va : value a = mag a) by (unfold value; rewrite Sa; reflexivity). assert (Vp : value p = mag p) by (unfold value; rewrite Sp; reflexivity).
  pose proof (mag_nonneg a Ha) as A0. pose proof (mag_nonneg p Hp) as P0. rewrite Vp in Bp.
  assert (PL : mag p < H). { pose proof W_pos as WP. rewrite H_W in *. set (w := W) in *. clearbody w. clear - Bp WP Hu. nia. }
  assert (AL : mag a <= 2 ^ 64 * H).
  { destruct (grid (2 ^ 53) 1085 ltac:(lia) ltac:(lia)) as (x & Hx & Mx). change (2 ^ 53 * 2 ^ 1085) with (2 ^ 64 * H) in Mx. specialize (Na x Hx). rewrite Mx in Na. pose proof H_pos as HP. revert Na HP. generalize H. intros h Na HP. clear - Na HP Hs. nia. }
  destruct (add_spec a p Ha Hp) as (d & E & Hd & N & S1 & S2).
  { rewrite Va, Vp, Z.abs_eq by lia. apply (Z.le_lt_trans _ (2 ^ 64 * H + H)); [ lia | apply Z.ltb_lt; vm_compute; reflexivity ]. }
  rewrite Va, Vp in *. rewrite (Z.abs_eq (mag a + mag p)) in N by lia.
  exists a, p, d. constructor; cbn [fst snd]; auto.
  - destruct (Z.eq_dec (mag a + mag p) 0) as [ Z0 | Z0 ].
    + unfold value. rewrite (S2 Z0). destruct (dneg d); reflexivity.
    + unfold value. rewrite (S1 Z0), (proj2 (Z.ltb_ge _ 0)) by lia. reflexivity.
  - unfold to_real. cbn [fst snd]. rewrite Ea, Ep. exact E.
Qed.
Lemma above_seconds c a p d : normal c -> parts c a p d -> mag a <= mag d.
Proof. intros _ P. pose proof (pdn _ _ _ _ P a (pa _ _ _ _ P)). pose proof (mag_nonneg _ (pp _ _ _ _ P)). lia. Qed.
Lemma seconds_above c a p d n k : normal c -> parts c a p d -> 0 <= n <= 2 ^ 53 -> 0 <= k <= 2044 -> n * 2 ^ k <= fst c * H -> n * 2 ^ k <= mag a.
Proof. intros _ P Hn Hk L. destruct (grid n k Hn Hk) as (x & Hx & Mx). pose proof (pan _ _ _ _ P x Hx) as N. rewrite Mx in N. revert L N. generalize (n * 2 ^ k) (fst c * H). intros. lia. Qed.
Lemma real_mono a b da db : normal a -> normal b -> instant a <= instant b -> to_real a = Fin da -> to_real b = Fin db -> value da <= value db.
Proof.
  intros Na Nb L Ea Eb. destruct (real_parts a Na) as (A & p & d & PA). destruct (real_parts b Nb) as (B & q & e & PB).
  assert (d = da) by (pose proof (pr _ _ _ _ PA); congruence). assert (e = db) by (pose proof (pr _ _ _ _ PB); congruence). subst d e.
  destruct (Z.eq_dec (instant a) (instant b)) as [ I | I ]. { pose proof (normal_instant a b Na Nb I) as ->. rewrite Ea in Eb. injection Eb as <-. lia. }
  rewrite (pdv _ _ _ _ PA), (pdv _ _ _ _ PB).
  assert (M : mag A + mag p <= mag B + mag q -> mag da <= mag db).
  { intros K. destruct (Z.eq_dec (mag A + mag p) (mag B + mag q)) as [ K2 | K2 ].
    - rewrite <- (pdv _ _ _ _ PA), <- (pdv _ _ _ _ PB). rewrite (add_same A p B q da db); [ lia | | apply PA | apply PB ]. rewrite (pav _ _ _ _ PA), (pav _ _ _ _ PB), (ppv _ _ _ _ PA), (ppv _ _ _ _ PB). exact K2.
    - apply (near_mono (mag A + mag p) (mag B + mag q)); [ apply PA | apply PB | lia | apply PA | apply PB ]. }
  destruct (Z.eq_dec (fst a) (fst b)) as [ F | F ].
  - apply M. assert (A = B) by (pose proof (pae _ _ _ _ PA); pose proof (pae _ _ _ _ PB); rewrite F in *; congruence). subst B.
    assert (snd a < snd b) by (unfold instant, million in *; lia). assert (M0 : 0 < mag micro_d) by reflexivity.
    pose proof (near_mono (snd a * mag micro_d) (snd b * mag micro_d) p q (pp _ _ _ _ PA) (pp _ _ _ _ PB) ltac:(apply Z.mul_lt_mono_pos_r; assumption) (ppn _ _ _ _ PA) (ppn _ _ _ _ PB)). lia.
  - assert (FL : fst a < fst b) by (unfold instant, normal, million in *; lia). pose proof H_pos as HP.
    pose proof (near_mono (fst a * H) (fst b * H) A B (pa _ _ _ _ PA) (pa _ _ _ _ PB) ltac:(apply Z.mul_lt_mono_pos_r; assumption) (pan _ _ _ _ PA) (pan _ _ _ _ PB)) as AB.
    destruct (Z.le_gt_cases (mag A + mag p) (mag B + mag q)) as [ K | K ]; [ now apply M | ].
    pose proof (mag_nonneg q (pp _ _ _ _ PB)) as Q0. pose proof (ppl _ _ _ _ PA) as PL. pose proof (above_seconds b B q db Nb PB) as UB. clear M.
    assert (KL : 2 ^ 53 <= fst a).
    { destruct (Z.le_gt_cases (2 ^ 53) (fst a)) as [ K1 | K1 ]; [ exact K1 | exfalso ]. destruct Na as [ Na _ ].
      destruct (grid (fst a) 1074 ltac:(lia) ltac:(lia)) as (x & Hx & Mx). pose proof (pan _ _ _ _ PA x Hx) as N1. fold H in Mx. rewrite Mx in N1.
      pose proof (seconds_above b B q db (fst a + 1) 1074 Nb PB ltac:(lia) ltac:(lia)) as N2. fold H in N2. specialize (N2 ltac:(apply Z.mul_le_mono_nonneg_r; lia)).
      revert N1 N2 PL HP. generalize H. intros h N1 N2 PL HP. lia. }
    pose proof (seconds_above a A p da (2 ^ 53) 1074 Na PA ltac:(lia) ltac:(lia)) as LA. fold H in LA. specialize (LA ltac:(apply Z.mul_le_mono_nonneg_r; lia)).
    destruct (large_even A (pa _ _ _ _ PA) LA) as (k & EA). destruct (large_even B (pa _ _ _ _ PB) ltac:(lia)) as (k' & EB).
    assert (mag A = mag B) as EAB. { clear - EA EB AB K Q0 PL HP. revert EA EB PL HP. generalize H. intros h EA EB PL HP. assert (k' = k) by nia. subst. lia. }
    destruct (Z.le_gt_cases (mag da) (mag A)) as [ K2 | K2 ]; [ lia | exfalso ].
    destruct (large_even da (pd _ _ _ _ PA) ltac:(lia)) as (j & EJ). pose proof (pdn _ _ _ _ PA A (pa _ _ _ _ PA)) as N. pose proof (mag_nonneg p (pp _ _ _ _ PA)) as P0.
    clear - EA EJ K2 N PL HP P0. revert EA EJ PL HP. generalize H. intros h EA EJ PL HP. assert (k < j) by nia. nia.
Qed.
Lemma real_back c d : normal c -> 2 ^ 63 <= fst c -> to_real c = Fin d -> 2 ^ 63 * H <= value d.
Proof.
  intros N L E. destruct (real_parts c N) as (a & p & e & P). assert (e = d) by (pose proof (pr _ _ _ _ P); congruence). subst e. rewrite (pdv _ _ _ _ P).
  pose proof (above_seconds c a p d N P) as U. pose proof (seconds_above c a p d (2 ^ 53) 1084 N P ltac:(lia) ltac:(lia)) as S. change (2 ^ 53 * 2 ^ 1084) with (2 ^ 63 * H) in S.
  specialize (S ltac:(apply Z.mul_le_mono_nonneg_r; [ apply Z.lt_le_incl, H_pos | exact L ])). revert S U. generalize (2 ^ 63 * H). intros. lia.
Qed.
