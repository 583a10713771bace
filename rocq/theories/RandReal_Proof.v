(** Proofs about random real numbers. *)
From Verif Require Import Common CommonLemmas Double_Model Double_Spec Double_Proof LexFloat_Model LexFloat_Proof RandReal_Spec RandReal_Model.
From Verif Require Random_Model Random_Proof.
Local Open Scope Z_scope.

(** ** Nearest doubles keep the order *)
Lemma near_upper neg p q d d0 : 0 < q -> nearest neg p q d -> is_double d0 -> p * 2 ^ 1074 <= q * mag d0 -> mag d <= mag d0.
Proof.
  intros Hq (_ & _ & _ & N & _) H0 L. specialize (N d0 H0). unfold dist in N. set (P := p * 2 ^ 1074) in *. clearbody P.
  destruct (Z.le_gt_cases (mag d) (mag d0)) as [ K | K ]; [ exact K | exfalso ]. assert (q * mag d0 < q * mag d) by nia. lia.
Qed.
Lemma near_lower neg p q d d0 : 0 < q -> nearest neg p q d -> is_double d0 -> q * mag d0 <= p * 2 ^ 1074 -> mag d0 <= mag d.
Proof.
  intros Hq (_ & _ & _ & N & _) H0 L. specialize (N d0 H0). unfold dist in N. set (P := p * 2 ^ 1074) in *. clearbody P.
  destruct (Z.le_gt_cases (mag d0) (mag d)) as [ K | K ]; [ exact K | exfalso ]. assert (q * mag d < q * mag d0) by nia. lia.
Qed.
Lemma mag_nonneg d : is_double d -> 0 <= mag d.
Proof. intros (A & B & _). unfold mag. pose proof (Z.pow_pos_nonneg 2 (dexp d + 1074) ltac:(lia) ltac:(lia)). nia. Qed.
Lemma mag_max d : is_double d -> mag d < 2 ^ 1074 * (2 ^ 1024 - 2 ^ 970).
Proof.
  intros (A & B & _). assert (HM : mag d <= (2 ^ 53 - 1) * 2 ^ 2045).
  { unfold mag. apply Z.mul_le_mono_nonneg; [ lia | lia | apply Z.pow_nonneg; lia | apply Z.pow_le_mono_r; lia ]. }
  assert (N : (2 ^ 53 - 1) * 2 ^ 2045 < 2 ^ 1074 * (2 ^ 1024 - 2 ^ 970)) by (apply Z.ltb_lt; vm_compute; reflexivity).
  exact (Z.le_lt_trans _ _ _ HM N).
Qed.
(** ** Products *)
Definition H : Z := 2 ^ 1074.
Lemma H_pos : 0 < H. Proof. reflexivity. Qed.
Lemma round_spec neg p q : 0 <= p -> 0 < q -> p < q * (2 ^ 1024 - 2 ^ 970) -> exists d, round neg p q = Fin d /\ nearest neg p q d.
Proof.
  intros Hp Hq L. unfold round. assert (E : exists d, to_near neg p q = Some d).
  { destruct (Z.eq_dec p 0) as [ -> | N ]; [ unfold to_near; cbn; eauto | apply to_near_range; auto; lia ]. }
  destruct E as (d & E). rewrite E. exists d. split; [ reflexivity | now apply to_near_sound ].
Qed.
Lemma times_spec a k : is_double a -> 0 <= k < 2 ^ 53 -> exists d, times (Fin a) k = Fin d /\ nearest (dneg a) (mag a * k) (H * 2 ^ 53) d.
Proof.
  intros Ha Hk. pose proof (mag_nonneg a Ha) as M. pose proof (mag_max a Ha) as X. pose proof H_pos as HP. cbn [times]. fold (mag a). fold H in X |- *.
  apply round_spec; [ nia | | ].
  - apply Z.mul_pos_pos; [ exact HP | reflexivity ].
  - set (T := 2 ^ 1024 - 2 ^ 970) in *. set (B := 2 ^ 53) in *. assert (HB : 0 < B) by reflexivity. clearbody T B. revert X HP. generalize H. intros h X HP.
    replace (h * B * T) with (h * T * B) by ring. assert (mag a * k <= mag a * B) by nia. assert (mag a * B < h * T * B) by nia. lia.
Qed.
Lemma times_le a k d : is_double a -> 0 <= k < 2 ^ 53 -> nearest (dneg a) (mag a * k) (H * 2 ^ 53) d -> mag d <= mag a.
Proof.
  intros Ha Hk N. pose proof (mag_nonneg a Ha) as M. pose proof H_pos as HP. refine (near_upper _ _ _ d a _ N Ha _).
  - apply Z.mul_pos_pos; [ exact HP | reflexivity ].
  - fold H. set (B := 2 ^ 53) in *. clearbody B. revert HP. clear N. generalize H. intros h HP. assert (mag a * k <= mag a * B) by nia. nia.
Qed.
Lemma times_lt a k d : is_double a -> 2 ^ 52 < mag a -> 0 <= k < 2 ^ 53 -> nearest (dneg a) (mag a * k) (H * 2 ^ 53) d -> mag d < mag a.
Proof.
  intros Ha Hb Hk N. pose proof H_pos as HP. assert (Q0 : 0 < H * 2 ^ 53) by (apply Z.mul_pos_pos; [ exact HP | reflexivity ]).
  pose proof Ha as ((A1 & A2) & (B1 & B2) & C). set (L := 2 ^ (dexp a + 1074)). assert (HL : 0 < L) by (apply Z.pow_pos_nonneg; lia). assert (EM : mag a = dman a * L) by reflexivity.
  assert (Cm : 2 ^ 52 <= dman a). { destruct C as [ C | C ]; [ exact C | ]. unfold L in EM. rewrite C in EM. change (2 ^ (-1074 + 1074)) with 1 in EM. lia. }
  assert (Step : forall a' , is_double a' -> mag a' < mag a -> (mag a * k <= 2 ^ 53 * mag a' \/ 2 * (mag a * k) < 2 ^ 53 * (mag a' + mag a)) -> mag d < mag a).
  { intros a' Ha' Hlt [ K | K ].
    - apply (Z.le_lt_trans _ (mag a')); [ | exact Hlt ]. refine (near_upper _ _ _ d a' Q0 N Ha' _). fold H. set (B := 2 ^ 53) in *. clearbody B. revert HP. clear - K. generalize H. intros h HP. nia.
    - destruct (Z.lt_ge_cases (mag d) (mag a)) as [ Z1 | Z1 ]; [ exact Z1 | exfalso ]. destruct N as (_ & _ & _ & Nm & _). specialize (Nm a' Ha'). unfold dist in Nm. fold H in Nm.
      set (B := 2 ^ 53) in *. assert (HB : 0 < B) by reflexivity. clearbody B. clear - Nm K Z1 HP HB Hlt. revert Nm HP. generalize H. intros h Nm HP.
      replace (mag a * k * h - h * B * mag d) with (h * (mag a * k - B * mag d)) in Nm by ring. replace (mag a * k * h - h * B * mag a') with (h * (mag a * k - B * mag a')) in Nm by ring.
      rewrite !Z.abs_mul, (Z.abs_eq h) in Nm by lia. assert (Nm2 : Z.abs (mag a * k - B * mag d) <= Z.abs (mag a * k - B * mag a')) by nia. clear Nm. set (P := mag a * k) in *. clearbody P.
      assert (B * mag a <= B * mag d) by nia. assert (B * mag a' < B * mag a) by nia. lia. }
  destruct (Z.eq_dec (dman a) (2 ^ 52)) as [ E | E ].
  - assert (He : -1074 < dexp a). { destruct (Z.eq_dec (dexp a) (-1074)) as [ K | K ]; [ exfalso | lia ]. unfold L in EM. rewrite K in EM. change (2 ^ (-1074 + 1074)) with 1 in EM. lia. }
    assert (EL : L = 2 * 2 ^ (dexp a + 1073)) by (unfold L; replace (dexp a + 1074) with (Z.succ (dexp a + 1073)) by lia; apply Z.pow_succ_r; lia).
    apply (Step (mkD false (2 ^ 53 - 1) (dexp a - 1))).
    + unfold is_double. cbn [dman dexp]. lia.
    + unfold mag at 1. cbn [dman dexp]. replace (dexp a - 1 + 1074) with (dexp a + 1073) by lia. rewrite EM, E, EL. set (W := 2 ^ (dexp a + 1073)) in *. assert (0 < W) by lia. clearbody W. lia.
    + left. unfold mag. cbn [dman dexp]. replace (dexp a - 1 + 1074) with (dexp a + 1073) by lia. fold L. rewrite E, EL. set (W := 2 ^ (dexp a + 1073)) in *. assert (0 < W) by lia. clearbody W. clear - Hk H0.
      replace (2 ^ 52 * (2 * W) * k) with (2 ^ 53 * (W * k)) by (change (2 ^ 53) with (2 ^ 52 * 2); ring). apply Z.mul_le_mono_nonneg_l; [ lia | nia ].
  - apply (Step (mkD false (dman a - 1) (dexp a))).
    + unfold is_double. cbn [dman dexp]. lia.
    + unfold mag at 1. cbn [dman dexp]. fold L. rewrite EM. nia.
    + right. unfold mag. cbn [dman dexp]. fold L. set (m := dman a) in *. clearbody m L. clear - Hk HL Cm E A2.
      replace (2 * (m * L * k)) with (L * (2 * m * k)) by ring. replace (2 ^ 53 * ((m - 1) * L + m * L)) with (L * (2 ^ 53 * (2 * m - 1))) by ring.
      apply Z.mul_lt_mono_pos_l; [ exact HL | ]. assert (2 * m * k <= 2 * m * (2 ^ 53 - 1)) by nia. lia.
Qed.
(** Small numbers may be returned themselves. *)
Lemma times_self a d : is_double a -> 0 < mag a <= 2 ^ 52 -> nearest (dneg a) (mag a * (2 ^ 53 - 1)) (H * 2 ^ 53) d -> d = a.
Proof.
  intros Ha Hm N. pose proof H_pos as HP. apply (nearest_unique (dneg a) (mag a * (2 ^ 53 - 1)) (H * 2 ^ 53)); [ apply Z.mul_pos_pos; [ exact HP | reflexivity ] | exact N | ].
  pose proof N as (_ & _ & O & _). set (B := 2 ^ 53) in *. assert (HB : B = 2 * 2 ^ 52) by reflexivity.
  assert (D : forall x, is_double x -> dist (mag a * (B - 1)) (H * B) x = H * Z.abs (mag a * (B - 1) - B * mag x)).
  { intros x _. unfold dist. fold H. clear - HP. revert HP. generalize H. intros h HP. replace (mag a * (B - 1) * h - h * B * mag x) with (h * (mag a * (B - 1) - B * mag x)) by ring. rewrite Z.abs_mul, (Z.abs_eq h) by lia. reflexivity. }
  split; [ exact Ha | ]. split; [ reflexivity | ]. split; [ exact O | ]. split.
  - intros x Hx. rewrite (D a Ha), (D x Hx). apply Z.mul_le_mono_nonneg_l; [ lia | ]. destruct (Z.eq_dec (mag x) (mag a)) as [ -> | K ]; [ lia | ].
    set (M := mag a) in *. set (X := mag x) in *. clearbody M X B. clear - Hm HB K. assert (B * X <= B * (M - 1) \/ B * (M + 1) <= B * X) as [ W | W ] by nia; lia.
  - intros x Hx E K. rewrite (D a Ha), (D x Hx) in E. apply Z.mul_reg_l in E; [ | lia ].
    assert (M52 : mag a = 2 ^ 52). { set (M := mag a) in *. set (X := mag x) in *. clearbody M X B. clear - Hm HB K E. assert (B * X <= B * (M - 1) \/ B * (M + 1) <= B * X) as [ W | W ] by nia; lia. }
    destruct Ha as ((A1 & A2) & (B1 & B2) & C). unfold mag in M52. destruct (Z.eq_dec (dexp a) (-1074)) as [ Ed | Ed ].
    + rewrite Ed in M52. change (2 ^ (-1074 + 1074)) with 1 in M52. rewrite Z.mul_1_r in M52. rewrite M52. reflexivity.
    + exfalso. destruct C as [ C | C ]; [ | contradiction ]. pose proof (Z.pow_le_mono_r 2 1 (dexp a + 1074) ltac:(lia) ltac:(lia)) as P. change (2 ^ 1) with 2 in P. nia.
Qed.
(** ** Sums *)
Lemma units_value d : units d = value d.
Proof. unfold units, value. fold (mag d). destruct (dneg d); lia. Qed.
Lemma value_opp d : value (mkD (negb (dneg d)) (dman d) (dexp d)) = - value d.
Proof. unfold value, mag. cbn [dneg dman dexp]. destruct (dneg d); cbn [negb]; lia. Qed.
Lemma opp_double d : is_double d -> is_double (mkD (negb (dneg d)) (dman d) (dexp d)).
Proof. intros X. exact X. Qed.
Lemma zero_double b : is_double (mkD b 0 (-1074)).
Proof. unfold is_double. cbn [dman dexp]. lia. Qed.
(** the sum as a double: nearest, and between the doubles the exact sum is between *)
Lemma add_spec a b : is_double a -> is_double b -> Z.abs (value a + value b) < H * (2 ^ 1024 - 2 ^ 970) ->
  exists d, add (Fin a) (Fin b) = Fin d /\ is_double d /\
    (forall x, is_double x -> Z.abs (mag d - Z.abs (value a + value b)) <= Z.abs (mag x - Z.abs (value a + value b))) /\
    (value a + value b <> 0 -> dneg d = (value a + value b <? 0)) /\ (value a + value b = 0 -> mag d = 0).
Proof.
  intros Ha Hb L. cbn [add]. rewrite !units_value. set (s := value a + value b) in *. destruct (Z.eqb_spec s 0) as [ E | E ].
  - exists (mkD (dneg a && dneg b) 0 (-1074)). split; [ reflexivity | ]. split; [ apply zero_double | ]. split; [ | split; [ contradiction | reflexivity ] ].
    intros x Hx. rewrite E. unfold mag at 1. cbn [dman dexp]. pose proof (mag_nonneg x Hx). lia.
  - destruct (round_spec (s <? 0) (Z.abs s) (2 ^ 1074) ltac:(lia) H_pos L) as (d & -> & N). exists d. split; [ reflexivity | ]. pose proof N as (Hd & Hs & _ & Nm & _). split; [ exact Hd | ]. split; [ | split; [ intros _; exact Hs | contradiction ] ].
    intros x Hx. specialize (Nm x Hx). unfold dist in Nm. fold H in Nm. pose proof H_pos as HP. clear - Nm HP. revert Nm HP. generalize H. intros h Nm HP.
    replace (Z.abs s * h - h * mag d) with (h * - (mag d - Z.abs s)) in Nm by ring. replace (Z.abs s * h - h * mag x) with (h * - (mag x - Z.abs s)) in Nm by ring.
    rewrite !Z.abs_mul, !Z.abs_opp, (Z.abs_eq h) in Nm by lia. nia.
Qed.
Lemma value_range d : is_double d -> - (H * (2 ^ 1024 - 2 ^ 970)) < value d < H * (2 ^ 1024 - 2 ^ 970).
Proof. intros Hd. pose proof (mag_nonneg d Hd). pose proof (mag_max d Hd). fold H in *. unfold value. set (T := H * (2 ^ 1024 - 2 ^ 970)) in *. clearbody T. destruct (dneg d); lia. Qed.
Lemma add_between a b lo hi : is_double a -> is_double b -> is_double lo -> is_double hi -> value lo <= value a + value b <= value hi ->
  exists d, add (Fin a) (Fin b) = Fin d /\ is_double d /\ value lo <= value d <= value hi.
Proof.
  intros Ha Hb Hl Hh L. pose proof (value_range lo Hl). pose proof (value_range hi Hh). destruct (add_spec a b Ha Hb) as (d & E & Hd & N & S1 & S2).
  { set (T := H * (2 ^ 1024 - 2 ^ 970)) in *. clearbody T. lia. }
  exists d. split; [ exact E | ]. split; [ exact Hd | ]. set (s := value a + value b) in *. clearbody s.
  pose proof (N lo Hl) as N1. pose proof (N hi Hh) as N2. pose proof (mag_nonneg d Hd). pose proof (mag_nonneg lo Hl). pose proof (mag_nonneg hi Hh).
  pose proof (N (mkD false 0 (-1074)) (zero_double false)) as N3. unfold mag at 2 in N3. cbn [dman dexp] in N3.
  clear E N H0 H1 N3. unfold value in *. destruct (Z.eq_dec s 0) as [ Es | Es ].
  - specialize (S2 Es). clear S1. destruct (dneg d), (dneg lo), (dneg hi); lia.
  - specialize (S1 Es). clear S2. rewrite S1. destruct (Z.ltb_spec s 0); destruct (dneg lo), (dneg hi); lia.
Qed.
(** ** The interval *)
Lemma small_double n : 0 <= n < 2 ^ 53 -> exists d, is_double d /\ mag d = n.
Proof.
  intros Hn. exists (mkD false n (-1074)). unfold is_double, mag. cbn [dman dexp]. change (2 ^ (-1074 + 1074)) with 1. lia.
Qed.
Lemma between_spec a b k : is_double a -> is_double b -> value a <= value b -> ~ too_far a b -> 0 <= k < 2 ^ 53 ->
  exists d, add (Fin a) (times (sub (Fin b) (Fin a)) k) = Fin d /\ is_double d /\ in_closed a b d.
Proof.
  intros Ha Hb Hab Hf Hk. unfold too_far in Hf. fold H in Hf. unfold sub. cbn [opp].
  set (na := mkD (negb (dneg a)) (dman a) (dexp a)). assert (Hna : is_double na) by exact Ha. assert (Vna : value na = - value a) by apply value_opp.
  destruct (add_spec b na Hb Hna) as (c & -> & Hc & Nc & Sc & Zc). { rewrite Vna. set (T := H * (2 ^ 1024 - 2 ^ 970)) in *. clearbody T. lia. }
  rewrite Vna in *. set (B := value b - value a) in *. replace (value b + - value a) with B in * by (unfold B; lia). assert (HB : 0 <= B) by (unfold B; lia). rewrite (Z.abs_eq B) in Nc by lia.
  assert (Pc : dneg c = false \/ mag c = 0). { destruct (Z.eq_dec B 0) as [ E | E ]; [ right; auto | left ]. rewrite (Sc E). apply Z.ltb_ge. lia. }
  destruct (times_spec c k Hc Hk) as (r & -> & Nr). pose proof Nr as (Hr & Sr & _). pose proof (times_le c k r Hc Hk Nr) as L1. pose proof (mag_nonneg r Hr) as R0. pose proof (mag_nonneg c Hc) as C0.
  assert (RB : mag r <= B).
  { destruct (Z.le_gt_cases (mag c) B) as [ K | K ]; [ lia | ].
    assert (53 <= 53 /\ 2 ^ 53 <= B) as [ _ KB ]. { split; [ lia | ]. destruct (Z.le_gt_cases (2 ^ 53) B) as [ K2 | K2 ]; [ exact K2 | exfalso ]. destruct (small_double B ltac:(lia)) as (x & Hx & Ex). specialize (Nc x Hx). rewrite Ex in Nc. lia. }
    pose proof (times_lt c k r Hc ltac:(lia) Hk Nr) as L2. destruct (Z.le_gt_cases (mag r) B) as [ K2 | K2 ]; [ exact K2 | exfalso ]. specialize (Nc r Hr). lia. }
  assert (Vr : value r = mag r). { unfold value. rewrite Sr. destruct Pc as [ -> | Pc ]; [ reflexivity | ]. assert (mag r = 0) as -> by lia. destruct (dneg c); reflexivity. }
  destruct (add_between a r a b Ha Hr Ha Hb) as (d & E & Hd & V); [ unfold B in RB; lia | ]. exists d. split; [ exact E | ]. split; [ exact Hd | exact V ].
Qed.
(** ** 1 - u *)
Definition in_unit (a : fl) : Prop := exists d, a = Fin d /\ is_double d /\ 0 < value d <= 2 ^ 1074.
Lemma uniform_exact k : 0 <= k < 2 ^ 53 -> exists d, uniform k = Fin d /\ is_double d /\ value d = k * 2 ^ 1021.
Proof.
  intros Hk. assert (H1 : is_double (mkD false (2 ^ 52) (-52))) by (unfold is_double; cbn [dman dexp]; lia).
  destruct (times_spec _ k H1 Hk) as (d & E & N). exists d. split; [ exact E | ]. pose proof N as (Hd & Sd & _ & Nm & _). split; [ exact Hd | ].
  cbn [dneg] in Sd. unfold value. rewrite Sd.
  assert (X : exists x, is_double x /\ mag x = k * 2 ^ 1021).
  { destruct (Z.eq_dec k 0) as [ -> | K0 ]; [ exists (mkD false 0 (-1074)); split; [ apply zero_double | reflexivity ] | ].
    destruct (Z.log2_spec k ltac:(lia)) as [ L1 L2 ]. set (l := Z.log2 k) in *.
    assert (Hl : 0 <= l <= 52). { split; [ apply Z.log2_nonneg | ]. destruct (Z.le_gt_cases l 52) as [ K | K ]; [ exact K | exfalso ]. pose proof (Z.pow_le_mono_r 2 53 l ltac:(lia) ltac:(lia)). lia. }
    assert (P : 2 ^ 52 = 2 ^ l * 2 ^ (52 - l)) by (rewrite <- Z.pow_add_r by lia; f_equal; lia).
    assert (P0 : 0 < 2 ^ (52 - l)) by (apply Z.pow_pos_nonneg; lia). rewrite Z.pow_succ_r in L2 by lia.
    exists (mkD false (k * 2 ^ (52 - l)) (l - 105)). split.
    - unfold is_double. cbn [dman dexp]. split; [ | split; [ lia | left ] ]; [ | rewrite P; nia ]. replace (2 ^ 53) with (2 * 2 ^ 52) by reflexivity. rewrite P. nia.
    - unfold mag. cbn [dman dexp]. rewrite <- Z.mul_assoc. f_equal. rewrite <- Z.pow_add_r by lia. f_equal. lia. }
  destruct X as (x & Hx & Ex). specialize (Nm x Hx). unfold dist in Nm. rewrite Ex in Nm. fold H in Nm.
  assert (E1 : mag (mkD false (2 ^ 52) (-52)) = 2 ^ 1021 * 2 ^ 53) by reflexivity. rewrite E1 in Nm. pose proof H_pos as HP.
  set (B := 2 ^ 53) in *. set (T := 2 ^ 1021) in *. assert (0 < B) by reflexivity. clearbody B T. clear - Nm HP H0. revert Nm HP. generalize H. intros h Nm HP.
  replace (T * B * k * h - h * B * mag d) with (h * B * (k * T - mag d)) in Nm by ring. replace (T * B * k * h - h * B * (k * T)) with 0 in Nm by ring.
  rewrite Z.abs_mul in Nm. cbn [Z.abs] in Nm. assert (0 < Z.abs (h * B)) by (rewrite Z.abs_eq; nia). nia.
Qed.
Lemma one_minus k : 0 <= k < 2 ^ 53 -> exists d, sub one (uniform k) = Fin d /\ is_double d /\ value d = (2 ^ 53 - k) * 2 ^ 1021.
Proof.
  intros Hk. destruct (uniform_exact k Hk) as (u & -> & Hu & Vu). unfold sub, one. cbn [opp].
  assert (H1 : is_double (mkD false (2 ^ 52) (-52))) by (unfold is_double; cbn [dman dexp]; lia). assert (V1 : value (mkD false (2 ^ 52) (-52)) = 2 ^ 53 * 2 ^ 1021) by reflexivity.
  set (nu := mkD (negb (dneg u)) (dman u) (dexp u)). assert (Hnu : is_double nu) by exact Hu. assert (Vnu : value nu = - value u) by apply value_opp.
  assert (X : exists x, is_double x /\ value x = (2 ^ 53 - k) * 2 ^ 1021).
  { destruct (Z.eq_dec k 0) as [ -> | K0 ]; [ exists (mkD false (2 ^ 52) (-52)); split; [ exact H1 | reflexivity ] | ].
    destruct (uniform_exact (2 ^ 53 - k) ltac:(lia)) as (x & _ & Hx & Vx). exists x. auto. }
  destruct X as (x & Hx & Vx). assert (S : value (mkD false (2 ^ 52) (-52)) + value nu = value x) by (rewrite V1, Vnu, Vu, Vx; ring).
  destruct (add_between _ nu x x H1 Hnu Hx Hx) as (d & E & Hd & V); [ rewrite S; lia | ]. exists d. split; [ exact E | ]. split; [ exact Hd | ]. rewrite <- Vx. lia.
Qed.
Lemma one_minus_unit k : 0 <= k < 2 ^ 53 -> in_unit (sub one (uniform k)).
Proof.
  intros Hk. destruct (one_minus k Hk) as (d & -> & Hd & V). exists d. split; [ reflexivity | ]. split; [ exact Hd | ]. rewrite V. change (2 ^ 1074) with (2 ^ 53 * 2 ^ 1021).
  assert (0 < 2 ^ 1021) by reflexivity. set (T := 2 ^ 1021) in *. clearbody T. nia.
Qed.
(** ** Normally distributed numbers *)
Section gauss.
  Context {G : Type} (gen : G -> Z * G) (r1 r2 : fl -> fl -> fl).
  Lemma gaussians_pairs cs : forall g st,
    match st with
    | None => in_pairs r1 r2 in_unit (gaussians gen r1 r2 cs (g, None))
    | Some v => gaussians gen r1 r2 cs (g, Some v) = [] \/ exists l, gaussians gen r1 r2 cs (g, Some v) = v :: l /\ in_pairs r1 r2 in_unit l
    end.
  Proof.
    induction cs as [ | c cs IH ]; intros g st; [ destruct st; [ left; reflexivity | constructor ] | ].
    destruct c; cbn [gaussians]; try (apply IH).
    destruct st as [ v | ]; cbn [next_gaussian].
    - right. eexists. split; [ reflexivity | ]. exact (IH g None).
    - unfold next_double. destruct (Random_Model.next_double gen g) as [ k1 g1 ] eqn:E1. destruct (Random_Model.next_double gen g1) as [ k2 g2 ] eqn:E2.
      pose proof (Random_Proof.next_double_below gen g) as B1. rewrite E1 in B1. pose proof (Random_Proof.next_double_below gen g1) as B2. rewrite E2 in B2. cbn [fst] in B1, B2.
      set (a := sub one (uniform k1)). set (b := sub one (uniform k2)). assert (Ua : in_unit a) by now apply one_minus_unit. assert (Ub : in_unit b) by now apply one_minus_unit.
      destruct (IH g2 (Some (r2 a b))) as [ -> | (l & -> & P) ]; [ now apply ip_half | now apply ip_pair ].
  Qed.
End gauss.
