From Verif Require Import Common CommonLemmas NumText_Model NumText_Proof Cast_Model Cast_Proof Ipv4_Model Clock_Model Double_Model Db_Model Pg_Spec Pg_Model.
Local Open Scope Z_scope.
Ltac Zify.zify_post_hook ::= Z.div_mod_to_equations.

(** * Queries *)
Lemma c_str_id s : ~ In 0 s -> c_str s = s.
Proof.
  induction s as [|c s IH]; intros H; [reflexivity|]. cbn [c_str]. destruct (Z.eqb_spec c 0) as [->|_]; [exfalso; apply H; now left|].
  f_equal. apply IH. intros K. apply H. now right.
Qed.
Lemma convert_app s : forall k r, ~ In 63 s -> convert_loop k (s ++ r) = s ++ convert_loop k r.
Proof.
  induction s as [|c s IH]; intros k r H; [reflexivity|]. cbn [convert_loop app]. destruct (Z.eqb_spec c 63) as [->|_]; [exfalso; apply H; now left|].
  f_equal. apply IH. intros K. apply H. now right.
Qed.
Lemma quoted_in c s : In c (quoted s) -> c = 39 \/ In c s.
Proof.
  unfold quoted. cbn [app]. intros [H|H]; [now left|]. apply in_app_or in H. destruct H as [H|[H|[]]]; [|now left].
  apply in_flat_map in H. destruct H as (x & Hx & H). destruct (Z.eqb_spec x 39) as [->|_].
  - left. destruct H as [H|[H|[]]]; congruence.
  - right. destruct H as [<-|[]]. exact Hx.
Qed.
Lemma show_int_no_nul n : ~ In 0 (show_int n).
Proof.
  assert (D : forall m, 0 <= m -> ~ In 0 (dec_text m)).
  { intros m Hm H. pose proof (dec_text_digits m Hm) as F. rewrite Forall_forall in F. apply F in H. discriminate H. }
  unfold show_int. destruct (Z.ltb_spec n 0) as [L|L]; [|apply D; lia]. intros [H|H]; [discriminate H|]. revert H. apply D. lia.
Qed.
Lemma numbered_convert ps : Forall proper ps -> Forall (fun p => match p with Constant s => ~ In 63 s | _ => True end) ps ->
  forall k, convert_loop k (with_marks ps) = numbered k ps.
Proof.
  intros H1 H2. induction ps as [|p ps IH]; intros k; [reflexivity|]. inversion H1 as [|? ? P1 Q1]; subst. inversion H2 as [|? ? P2 Q2]; subst.
  specialize (IH Q1 Q2). unfold with_marks in *. cbn [flat_map numbered]. destruct p as [s|s|]; cbn [proper] in P1.
  - rewrite convert_app by tauto. now rewrite IH.
  - rewrite convert_app by (intros K; apply quoted_in in K; destruct K as [K|K]; [discriminate K|tauto]). now rewrite IH.
  - change (str "?") with [63]. change (str "$") with [36]. cbn [app convert_loop]. rewrite Z.eqb_refl. now rewrite IH.
Qed.
Lemma numbered_no_nul ps : Forall proper ps -> forall k, ~ In 0 (numbered k ps).
Proof.
  intros H. induction H as [|p ps P H IH]; intros k; [intros []|]. cbn [numbered]. destruct p as [s|s|]; cbn [proper] in P; intros K; apply in_app_or in K.
  - destruct K as [K|K]; [tauto|now apply IH in K].
  - destruct K as [K|K]; [|now apply IH in K]. apply quoted_in in K. destruct K as [K|K]; [discriminate K|tauto].
  - destruct K as [K|K]; [|apply in_app_or in K; destruct K as [K|K]; [now apply show_int_no_nul in K|now apply IH in K]]. cbn in K. destruct K as [K|[]]; discriminate K.
Qed.
Lemma prepared_ok ps : Forall proper ps -> Forall (fun p => match p with Constant s => ~ In 63 s | _ => True end) ps ->
  prepared (with_marks ps) = numbered 1 ps.
Proof. intros H1 H2. unfold prepared, convert_query. rewrite numbered_convert by assumption. apply c_str_id. now apply numbered_no_nul. Qed.

(** * Places *)
Lemma places_length k : forall n, length (places k n) = k.
Proof. induction k as [|k IH]; intros n; [reflexivity|]. cbn [places]. rewrite app_length, IH. cbn [length]. lia. Qed.
Lemma places_digits k : forall n, Forall (fun c => isdigit c = true) (places k n).
Proof.
  induction k as [|k IH]; intros n; [constructor|]. cbn [places]. apply Forall_app. split; [apply IH|]. constructor; [|constructor]. unfold isdigit. lia.
Qed.
Lemma places_val k : forall n, 0 <= n < 10 ^ Z.of_nat k -> dec_val (places k n) = n.
Proof.
  induction k as [|k IH]; intros n H. { cbn in H. assert (n = 0) by lia. now subst. }
  cbn [places]. rewrite dec_val_snoc, IH.
  - lia.
  - rewrite Nat2Z.inj_succ, Z.pow_succ_r in H by lia. lia.
Qed.
Lemma dec_inj a b : length a = length b -> Forall (fun c => isdigit c = true) a -> Forall (fun c => isdigit c = true) b -> dec_val a = dec_val b -> a = b.
Proof.
  revert b. induction a as [|x a IH] using rev_ind; intros b L Ha Hb E.
  - destruct b; [reflexivity|discriminate L].
  - destruct b as [|y b _] using rev_ind; [rewrite app_length in L; cbn in L; lia|].
    rewrite !app_length in L. cbn [length] in L. rewrite !dec_val_snoc in E. apply Forall_app in Ha, Hb. destruct Ha as [Ha Hx], Hb as [Hb Hy].
    inversion Hx as [|? ? Hx' _]; subst. inversion Hy as [|? ? Hy' _]; subst. unfold isdigit in Hx', Hy'.
    assert (x = y) by lia. subst y. f_equal. apply IH; [lia|assumption|assumption|lia].
Qed.
Lemma dec_text_length k n : 0 <= n < 10 ^ Z.of_nat k -> (1 <= k)%nat -> (length (dec_text n) <= k)%nat.
Proof. intros H K. unfold dec_text. rewrite map_length. now apply digits_length. Qed.
Lemma dec_val_zeros k s : dec_val (repeat 48 k ++ s) = dec_val s.
Proof.
  rewrite dec_val_app. replace (dec_val (repeat 48 k)) with 0; [lia|]. induction k as [|k IH]; [reflexivity|].
  replace (repeat 48 (S k)) with (repeat 48 k ++ [48]) by (symmetry; apply repeat_cons). rewrite dec_val_snoc. lia.
Qed.
Lemma zeros_places k n : 0 <= n < 10 ^ Z.of_nat k -> (1 <= k)%nat -> zeros k (dec_text n) = places k n.
Proof.
  intros H K. pose proof (dec_text_length k n H K) as L. apply dec_inj.
  - unfold zeros. rewrite app_length, repeat_length, places_length. lia.
  - unfold zeros. apply Forall_app. split; [apply Forall_forall; intros x Hx; apply repeat_spec in Hx; now subst|apply dec_text_digits; lia].
  - apply places_digits.
  - unfold zeros. rewrite dec_val_zeros, places_val by assumption. apply dec_text_val. lia.
Qed.
Lemma zpad_places k n : 0 <= n < 10 ^ Z.of_nat k -> (1 <= k)%nat -> zpad k n = places k n.
Proof. intros H K. unfold zpad. replace (n <? 0) with false by lia. now apply zeros_places. Qed.
Lemma show_year y : 1000 <= y <= 9999 -> show_int y = places 4 y.
Proof.
  intros H. unfold show_int. replace (y <? 0) with false by lia. apply dec_inj.
  - rewrite places_length. pose proof (dec_text_length 4 y ltac:(cbn; lia) ltac:(lia)) as L.
    pose proof (dec_val_bound (dec_text y) (dec_text_digits y ltac:(lia))) as B. rewrite dec_text_val in B by lia.
    assert (length (dec_text y) = 0 \/ length (dec_text y) = 1 \/ length (dec_text y) = 2 \/ length (dec_text y) = 3 \/ length (dec_text y) = 4)%nat as C by lia.
    destruct C as [C|[C|[C|[C|C]]]]; rewrite C in B; cbn in B; lia.
  - apply dec_text_digits. lia.
  - apply places_digits.
  - rewrite dec_text_val by lia. rewrite places_val; [reflexivity|cbn; lia].
Qed.

(** * Reading numbers *)
Lemma skip_ws_digit c r : isdigit c = true -> skip_ws (c :: r) = c :: r.
Proof. intros H. cbn [skip_ws]. replace (isspace c) with false; [reflexivity|]. unfold isspace, isdigit in *. lia. Qed.
Lemma get2 from to n r : 0 <= n < 100 -> from <= n <= to -> to <= 99 -> 10 <= to -> get_number from to 2 (places 2 n ++ r) = Some (n, r).
Proof.
  intros H1 H2 H3 H4. cbn [places app]. unfold get_number. rewrite skip_ws_digit by (unfold isdigit; lia).
  replace (isdigit _) with true by (unfold isdigit; lia). cbn [Nat.sub more_digits].
  replace ((48 + n / 10 mod 10 - 48) * 10 <=? to) with true by lia. replace (isdigit (48 + n mod 10)) with true by (unfold isdigit; lia). cbn [andb].
  replace ((48 + n / 10 mod 10 - 48) * 10 + (48 + n mod 10 - 48)) with n by lia.
  replace ((n <? from) || (to <? n)) with false by lia. reflexivity.
Qed.
Lemma get4 n r : 1000 <= n <= 9999 -> get_number 0 9999 4 (places 4 n ++ r) = Some (n, r).
Proof.
  intros H. cbn [places app]. unfold get_number. rewrite skip_ws_digit by (unfold isdigit; lia).
  replace (isdigit _) with true by (unfold isdigit; lia). cbn [Nat.sub more_digits].
  assert (I : forall x, isdigit (48 + x mod 10) = true) by (intros x; unfold isdigit; lia). rewrite !I.
  set (a := n / 10 / 10 / 10 mod 10). set (b := n / 10 / 10 mod 10). set (c := n / 10 mod 10). set (d := n mod 10).
  assert (E : n = a * 1000 + b * 100 + c * 10 + d) by (subst a b c d; lia).
  assert (0 <= a <= 9 /\ 0 <= b <= 9 /\ 0 <= c <= 9 /\ 0 <= d <= 9) by (subst a b c d; lia). clearbody a b c d.
  replace ((48 + a - 48) * 10 <=? 9999) with true by lia. cbn [andb].
  replace (((48 + a - 48) * 10 + (48 + b - 48)) * 10 <=? 9999) with true by lia. cbn [andb].
  replace ((((48 + a - 48) * 10 + (48 + b - 48)) * 10 + (48 + c - 48)) * 10 <=? 9999) with true by lia. cbn [andb].
  match goal with |- context [?x <? 0] => replace x with n by lia end. replace ((n <? 0) || (9999 <? n)) with false by lia. reflexivity.
Qed.
Lemma literal_ok c r : literal c (c :: r) = Some r.
Proof. unfold literal. now rewrite Z.eqb_refl. Qed.
Lemma strptime_ok y mo d h mi s u q : stamp_ok y mo d h mi s u -> strptime (date_time y mo d h mi s ++ 46 :: q) = Some (y, mo, d, h, mi, s, q).
Proof.
  intros (Hy & Hmo & Hd & Hh & Hmi & Hs & _). unfold strptime, date_time. rewrite <- !app_assoc. rewrite get4 by assumption. cbn [bind].
  change (str "-") with [45]. change (str ":") with [58]. change (str " ") with [32]. cbn [app]. rewrite literal_ok. cbn [bind]. rewrite get2 by lia. cbn [bind].
  rewrite literal_ok. cbn [bind]. rewrite get2 by lia. cbn [bind].
  assert (W : forall r, skip_ws (32 :: r) = skip_ws r) by reflexivity. rewrite W.
  replace (skip_ws (places 2 h ++ 58 :: places 2 mi ++ 58 :: places 2 s ++ 46 :: q)) with (places 2 h ++ 58 :: places 2 mi ++ 58 :: places 2 s ++ 46 :: q)
    by (symmetry; cbn [places app]; apply skip_ws_digit; unfold isdigit; lia).
  rewrite get2 by lia. cbn [bind]. rewrite literal_ok. cbn [bind]. rewrite get2 by lia. cbn [bind]. rewrite literal_ok. cbn [bind]. rewrite get2 by lia. cbn [bind].
  rewrite literal_ok. reflexivity.
Qed.
Lemma strptime_short y mo d h mi s u : stamp_ok y mo d h mi s u -> strptime (date_time y mo d h mi s) = None.
Proof.
  intros (Hy & Hmo & Hd & Hh & Hmi & Hs & _). unfold strptime, date_time. rewrite get4 by assumption. cbn [bind].
  change (str "-") with [45]. change (str ":") with [58]. change (str " ") with [32]. cbn [app]. rewrite literal_ok. cbn [bind]. rewrite get2 by lia. cbn [bind].
  rewrite literal_ok. cbn [bind]. rewrite get2 by lia. cbn [bind].
  assert (W : forall r, skip_ws (32 :: r) = skip_ws r) by reflexivity. rewrite W.
  replace (skip_ws (places 2 h ++ 58 :: places 2 mi ++ 58 :: places 2 s)) with (places 2 h ++ 58 :: places 2 mi ++ 58 :: places 2 s)
    by (symmetry; cbn [places app]; apply skip_ws_digit; unfold isdigit; lia).
  rewrite get2 by lia. cbn [bind]. rewrite literal_ok. cbn [bind]. rewrite get2 by lia. cbn [bind]. rewrite literal_ok. cbn [bind].
  rewrite <- (app_nil_r (places 2 s)). rewrite get2 by lia. reflexivity.
Qed.
Lemma scan_digits ds : ds <> [] -> Forall (fun c => isdigit c = true) ds -> scan ds = Some (false, dec_val ds, []).
Proof.
  intros N F. unfold scan. destruct ds as [|c r]; [congruence|]. pose proof F as F0. inversion F as [|? ? Hc _]; subst. rewrite skip_ws_digit by assumption.
  replace (c =? 45) with false by (unfold isdigit in Hc; lia). replace (c =? 43) with false by (unfold isdigit in Hc; lia).
  assert (S : spanb isdigit (c :: r) = (c :: r, [])).
  { rewrite <- (app_nil_r (c :: r)) at 1. apply spanb_app; [assumption|]. intros x y E. discriminate E. }
  rewrite S. reflexivity.
Qed.
Lemma atoi_places k u : (1 <= k)%nat -> 0 <= u < 10 ^ Z.of_nat k -> u < 2 ^ 31 -> atoi (places k u) = u.
Proof.
  intros K H L. unfold atoi, scan_d. rewrite scan_digits.
  - rewrite places_val by assumption. unfold sat64, wrap32. rewrite Z.mod_small by lia. lia.
  - intros E. pose proof (places_length k u) as P. rewrite E in P. cbn in P. lia.
  - apply places_digits.
Qed.
(** what atoi makes of the fraction *)
Lemma atoi_fraction k : forall u, 0 < u < 10 ^ Z.of_nat k -> u < 2 ^ 31 -> exists v, atoi (fraction k u) = v /\ 0 < v <= u /\ (u mod 10 = 0 -> v < u) /\ (u mod 10 <> 0 -> v = u).
Proof.
  induction k as [|k IH]; intros u H L. { cbn in H. lia. }
  cbn [fraction]. destruct (Z.eqb_spec (u mod 10) 0) as [E|E].
  - destruct (IH (u / 10)) as (v & E1 & E2 & E3 & E4).
    + rewrite Nat2Z.inj_succ, Z.pow_succ_r in H by lia. lia.
    + lia.
    + exists v. split; [exact E1|]. split; [lia|]. split; [intros _; lia|intros F; contradiction].
  - exists u. split; [|split; [lia|split; [intros F; contradiction|reflexivity]]]. apply atoi_places; lia.
Qed.

(** * Values *)
Lemma takes_inv c t d : takes c t d ->
  match c with
  | Cbool => t = str "true" /\ d = Dbool true \/ t = str "false" /\ d = Dbool false
  | Cint2 | Cint4 | Cint8 => exists n, t = show_int n /\ d = Dint n
  | Ctext | Cvarchar => d = Dtext t
  | Ctimestamp => exists y mo d' h mi s u, stamp_ok y mo d' h mi s u /\ t = date_time y mo d' h mi s ++ 46 :: places 6 u /\ d = Dstamp y mo d' h mi s u
  end.
Proof. intros H. destruct H as [| | | | | | |y mo d h mi s u H]; eauto. exists y, mo, d, h, mi, s, u. split; [exact H|]. split; reflexivity. Qed.
Lemma takes_unique c t d1 d2 : takes c t d1 -> takes c t d2 -> d1 = d2.
Proof.
  assert (SI : forall n m, show_int n = show_int m -> n = m).
  { intros n m E. pose proof (scan_show n) as A. rewrite E, scan_show in A. injection A as A1 A2. lia. }
  intros H1 H2. apply takes_inv in H1, H2. destruct c.
  1:{ destruct H1 as [[-> ->]|[-> ->]], H2 as [[H2 ->]|[H2 ->]]; try reflexivity; discriminate H2. }
  1-3: destruct H1 as (n & -> & ->), H2 as (m & H2 & ->); f_equal; now apply SI.
  1-2: congruence.
  destruct H1 as (y & mo & d & h & mi & s & u & A & -> & ->), H2 as (y' & mo' & d' & h' & mi' & s' & u' & A' & E & ->).
  apply (f_equal strptime) in E. rewrite (strptime_ok _ _ _ _ _ _ u _ A), (strptime_ok _ _ _ _ _ _ u' _ A') in E.
  assert (P7 : places 6 u = places 6 u') by congruence. apply (f_equal dec_val) in P7.
  destruct A as (_ & _ & _ & _ & _ & _ & A), A' as (_ & _ & _ & _ & _ & _ & A'). rewrite !places_val in P7 by (cbn; lia). congruence.
Qed.

Section zone.
Context (mktime : tm -> Z) (localtime : Z -> tm) (td : list Z -> outcome double) (junk : bool).
Lemma from_show b n : 0 < b -> - 2 ^ (b - 1) <= n < 2 ^ (b - 1) -> from_string (TNum true b) (show_int n) = Ok n.
Proof. intros Hb H. unfold from_string. rewrite extract_show; [reflexivity|discriminate|cbn [lo hi]; lia]. Qed.
Lemma values_ok v c : fits v c -> exists t d, parameter localtime (Some v) = Some t /\ takes c t d /\
  str_to_sql mktime localtime td junk (Some (shows d)) (oid c) = Ok (Some v).
Proof.
  intros H. destruct v as [b|s|n|n|d|k|s], c; cbn [fits] in H; try contradiction; unfold parameter; cbn [sql_to_str option_map].
  - exists (if b then str "true" else str "false"), (Dbool b). split; [now destruct b|]. split; [destruct b; constructor|]. now destruct b.
  - exists s, (Dtext s). rewrite c_str_id by assumption. split; [reflexivity|]. split; [now constructor|reflexivity].
  - exists s, (Dtext s). rewrite c_str_id by assumption. split; [reflexivity|]. split; [now constructor|reflexivity].
  - exists (show_int n), (Dint n). rewrite c_str_id by apply show_int_no_nul. split; [reflexivity|]. split; [now constructor|].
    unfold str_to_sql. cbn [shows oid oid_to_sql_type]. change (oid_to_sql_type 21) with SQL_INT32. cbn [make_sql_value]. rewrite from_show by lia. reflexivity.
  - exists (show_int n), (Dint n). rewrite c_str_id by apply show_int_no_nul. split; [reflexivity|]. split; [now constructor|].
    unfold str_to_sql. cbn [shows oid]. change (oid_to_sql_type 23) with SQL_INT32. cbn [make_sql_value]. rewrite from_show by lia. reflexivity.
  - exists (show_int n), (Dint n). rewrite c_str_id by apply show_int_no_nul. split; [reflexivity|]. split; [now constructor|].
    unfold str_to_sql. cbn [shows oid]. change (oid_to_sql_type 20) with SQL_INT64. cbn [make_sql_value]. rewrite from_show by lia. reflexivity.
Qed.

(** * Timestamps *)
Lemma digits_no_nul l : Forall (fun c => isdigit c = true) l -> ~ In 0 l.
Proof. intros F H. rewrite Forall_forall in F. apply F in H. discriminate H. Qed.
Lemma stamp_param t us : 0 <= t < 2 ^ 63 -> fields localtime t us -> exists x, parameter localtime (Some (Stimestamp (t, us))) = Some x /\ takes Ctimestamp x (stored localtime t us).
Proof.
  intros Ht H. unfold parameter. cbn [sql_to_str option_map]. unfold stamp_text, calendar_of. cbn [fst snd].
  replace (t <? 2 ^ 63) with true by lia. cbn [year mon mday hour min sec usec]. pose proof H as (Hy & Hmo & Hd & Hh & Hmi & Hs & Hu).
  rewrite show_year by lia. rewrite !(zpad_places 2) by (cbn; lia). rewrite zpad_places by (cbn; lia).
  eexists. split; [reflexivity|].
  match goal with |- takes _ (c_str ?x) _ => replace (c_str x) with (date_time (t_year (localtime t) + 1900) (t_mon (localtime t) + 1) (t_mday (localtime t))
    (t_hour (localtime t)) (t_min (localtime t)) (t_sec (localtime t)) ++ str "." ++ places 6 us) end.
  { constructor. exact H. }
  symmetry. rewrite c_str_id.
  - unfold date_time. rewrite <- !app_assoc. reflexivity.
  - pose proof (fun k n => digits_no_nul _ (places_digits k n)) as D.
    intros K. repeat (apply in_app_or in K; destruct K as [K|K]; [first [now apply D in K | destruct K as [K|[]]; discriminate K]|]). now apply D in K.
Qed.
Lemma stamp_back t us : mktime (localtime t) = t -> 0 <= t < 2 ^ 63 -> fields localtime t us -> junk = t_isdst (localtime t) -> 0 < us ->
  exists us', str_to_sql mktime localtime td junk (Some (shows (stored localtime t us))) (oid Ctimestamp) = Ok (Some (Stimestamp (t, us'))) /\
  (us mod 10 <> 0 -> us' = us) /\ (us mod 10 = 0 -> us' < us).
Proof.
  intros Hm Ht H Hj Hu. unfold str_to_sql. cbn [oid]. change (oid_to_sql_type 1114) with SQL_TIMESTAMP. cbn [make_sql_value].
  unfold stored. cbn [shows]. replace (us =? 0) with false by lia. change (str ".") with [46]. cbn [app]. rewrite (strptime_ok _ _ _ _ _ _ us) by exact H.
  destruct (atoi_fraction 6 us) as (v & Ev & Hv & H0 & H1); [destruct H as (_ & _ & _ & _ & _ & _ & H); cbn; lia|destruct H as (_ & _ & _ & _ & _ & _ & H); lia|].
  rewrite Ev. exists v. split; [|tauto]. cbn [obind]. do 3 f_equal. unfold calendar_make, calendar_of, clock_of.
  cbn [year mon mday hour min sec usec isdst fst snd].
  assert (E0 : u64 t = t) by (unfold u64; apply Z.mod_small; lia).
  replace (mkTm (t_year (localtime t) + 1900 - 1900) (t_mon (localtime t) + 1 - 1) (t_mday (localtime t)) (t_hour (localtime t)) (t_min (localtime t)) (t_sec (localtime t)) junk)
    with (localtime t).
  2:{ rewrite Hj. destruct (localtime t) as [y1 m1 d1 h1 i1 s1 b1]. cbn [t_year t_mon t_mday t_hour t_min t_sec t_isdst]. f_equal; lia. }
  rewrite Hm, E0. replace (t <? 2 ^ 63) with true by lia.
  replace (mkTm (t_year (localtime t) + 1900 - 1900) (t_mon (localtime t) + 1 - 1) (t_mday (localtime t)) (t_hour (localtime t)) (t_min (localtime t)) (t_sec (localtime t)) (t_isdst (localtime t)))
    with (localtime t).
  2:{ destruct (localtime t) as [y1 m1 d1 h1 i1 s1 b1]. cbn [t_year t_mon t_mday t_hour t_min t_sec t_isdst]. f_equal; lia. }
  now rewrite Hm, E0.
Qed.
Lemma stamp_zero t : fields localtime t 0 -> str_to_sql mktime localtime td junk (Some (shows (stored localtime t 0))) (oid Ctimestamp) = UB.
Proof.
  intros H. unfold str_to_sql. cbn [oid]. change (oid_to_sql_type 1114) with SQL_TIMESTAMP. cbn [make_sql_value]. unfold stored. cbn [shows].
  change (0 =? 0) with true. cbv iota. rewrite app_nil_r. rewrite (strptime_short _ _ _ _ _ _ 0) by exact H. reflexivity.
Qed.
End zone.

(** * Floats *)
Lemma rhe_near p q : 0 < q -> 2 * Z.abs (p - rhe p q * q) <= q.
Proof.
  intros H. unfold rhe. pose proof (Z.div_mod p q ltac:(lia)) as E. pose proof (Z.mod_pos_bound p q H) as B. cbv zeta.
  destruct (Z.ltb_spec (2 * (p mod q)) q); [nia|]. destruct (Z.ltb_spec q (2 * (p mod q))); [nia|]. destruct (Z.even (p / q)); nia.
Qed.
Lemma fixed10_near d : 0 <= dman d -> exists n, 0 <= n /\
  fixed10 d = (if dneg d then str "-" else []) ++ dec_text (n / 10 ^ 10) ++ str "." ++ places 10 (n mod 10 ^ 10) /\
  2 * Z.abs (dman d * 10 ^ 10 * 2 ^ Z.max 0 (dexp d) - n * 2 ^ Z.max 0 (- dexp d)) <= 2 ^ Z.max 0 (- dexp d).
Proof.
  intros Hm. unfold fixed10.
  set (n := if 0 <=? dexp d then dman d * 2 ^ dexp d * 10 ^ 10 else rhe (dman d * 10 ^ 10) (2 ^ (- dexp d))). exists n.
  assert (N : 0 <= n /\ 2 * Z.abs (dman d * 10 ^ 10 * 2 ^ Z.max 0 (dexp d) - n * 2 ^ Z.max 0 (- dexp d)) <= 2 ^ Z.max 0 (- dexp d)).
  { subst n. destruct (Z.leb_spec 0 (dexp d)) as [L|L].
    - rewrite (Z.max_r 0 (dexp d)) by lia. rewrite (Z.max_l 0 (- dexp d)) by lia. pose proof (Z.pow_nonneg 2 (dexp d) ltac:(lia)) as P. change (2 ^ 0) with 1.
      set (q := 2 ^ dexp d) in *. clearbody q. split; [nia|]. replace (dman d * 10 ^ 10 * q - dman d * q * 10 ^ 10 * 1) with 0 by lia. cbn. lia.
    - rewrite (Z.max_l 0 (dexp d)) by lia. rewrite (Z.max_r 0 (- dexp d)) by lia. pose proof (Z.pow_pos_nonneg 2 (- dexp d) ltac:(lia) ltac:(lia)) as P. change (2 ^ 0) with 1.
      set (q := 2 ^ (- dexp d)) in *. clearbody q. set (p := dman d * 10 ^ 10). assert (0 <= p) by (subst p; lia). clearbody p. rewrite Z.mul_1_r. split; [|now apply rhe_near].
      unfold rhe. cbv zeta. pose proof (Z.div_pos p q ltac:(lia) P). destruct (2 * (p mod q) <? q); [lia|]. destruct (q <? 2 * (p mod q)); [lia|]. destruct (Z.even (p / q)); lia. }
  destruct N as [N0 N]. clearbody n. split; [exact N0|]. split; [|exact N]. cbv zeta. do 3 f_equal. apply zeros_places; [|lia]. apply Z.mod_pos_bound. lia.
Qed.
