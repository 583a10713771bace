(** C48, C74: what is proved about clock times. *)
From Verif Require Import Common CommonLemmas Clock_Spec Clock_Model Clock_Proof.
Local Open Scope Z_scope.

(** Any clock times whose microseconds can be added in an int32_t; the sum is exact unless the seconds wrap. *)
Theorem C48_plus_partial : forall a b, valid a -> valid b -> - 2 ^ 31 <= snd a + snd b < 2 ^ 31 ->
  exists c, plus a b = Ok c /\ normal c /\ instant c = (instant a + instant b) mod horizon /\
  (0 <= instant a + instant b < horizon -> instant c = instant a + instant b).
Proof.
  intros a b _ _ Hu. destruct (plus_ok a b Hu) as (c & E & Hn & Hi). exists c. split; [exact E|]. split; [exact Hn|]. split; [exact Hi|].
  intros Hr. rewrite Hi. now apply Z.mod_small.
Qed.
Theorem C48_minus_partial : forall a b, valid a -> valid b -> - 2 ^ 31 <= snd a - snd b < 2 ^ 31 ->
  exists c, minus a b = Ok c /\ normal c /\ instant c = (instant a - instant b) mod horizon /\
  (0 <= instant a - instant b < horizon -> instant c = instant a - instant b).
Proof.
  intros a b _ _ Hu. destruct (minus_ok a b Hu) as (c & E & Hn & Hi). exists c. split; [exact E|]. split; [exact Hn|]. split; [exact Hi|].
  intros Hr. rewrite Hi. now apply Z.mod_small.
Qed.
(** Normal clock times always can. *)
Theorem C48_undo_partial : forall a b, normal a -> normal b ->
  (let* c := plus a b in minus c b) = Ok a /\ (let* c := minus a b in plus c b) = Ok a.
Proof.
  intros a b Ha Hb. pose proof (normal_range a Ha) as Ra. split.
  - destruct (plus_ok a b) as (c & -> & Hc & Ec); [unfold normal, million in *; lia|]. cbn [obind].
    destruct (minus_ok c b) as (d & -> & Hd & Ed); [unfold normal, million in *; lia|]. f_equal. apply normal_instant; [assumption..|].
    rewrite Ed, Ec, Zminus_mod_idemp_l. rewrite <- (Z.mod_small _ _ Ra) at 2. f_equal. lia.
  - destruct (minus_ok a b) as (c & -> & Hc & Ec); [unfold normal, million in *; lia|]. cbn [obind].
    destruct (plus_ok c b) as (d & -> & Hd & Ed); [unfold normal, million in *; lia|]. f_equal. apply normal_instant; [assumption..|].
    rewrite Ed, Ec, Zplus_mod_idemp_l. rewrite <- (Z.mod_small _ _ Ra) at 2. f_equal. lia.
Qed.
Theorem C48_order_partial : forall a b, normal a -> normal b -> (less a b = true <-> instant a < instant b).
Proof.
  intros a b Ha Hb. unfold less, normal, instant, million in *. destruct (Z.eqb_spec (fst a) (fst b)) as [E|E]; cbn [negb].
  - rewrite Z.ltb_lt, E. lia.
  - rewrite Z.ltb_lt. nia.
Qed.
(** The constructor does not normalise: < is then not the order of instants, and microseconds can overflow. *)
Theorem C48_order_refuted : exists a b, valid a /\ valid b /\ less a b = true /\ instant b < instant a.
Proof. exists (0, 2000000), (1, 0). split; [|split; [|split]]; unfold valid, instant, million; cbn [fst snd]; (reflexivity || lia). Qed.
Theorem C48_overflow_refuted : exists a b, valid a /\ valid b /\ plus a b = UB.
Proof. exists (0, 2147483647), (0, 1). split; [|split]; unfold valid; cbn [fst snd]; (reflexivity || lia). Qed.

Example C48_nonvacuous : normal (5, 999999) /\ normal (18446744073709551615, 1) /\ plus (5, 999999) (7, 1) = Ok (13, 0) /\
  minus (1, 0) (0, 1) = Ok (0, 999999) /\ minus (0, 0) (0, 1) = Ok (18446744073709551615, 999999) /\ plus (0, 1500000) (1, 2000000) = Ok (4, 500000).
Proof. unfold normal, million. cbn [fst snd]. repeat split; try reflexivity; lia. Qed.

(** For a C library where mktime undoes localtime, broken-down times stand for their clock time. *)
Theorem C74_calendar_roundtrip : forall mktime localtime c, valid c ->
  (forall t, mktime (localtime t) = t) -> clock_of mktime (calendar_of localtime c) = c.
Proof.
  intros mktime localtime [s u] [Hs _] H. cbn [fst] in Hs. unfold clock_of, calendar_of. cbn [year mon mday hour min sec usec isdst fst snd]. f_equal.
  set (t := if s <? 2 ^ 63 then s else s - 2 ^ 64).
  replace (mkTm _ _ _ _ _ _ _) with (localtime t).
  - rewrite H. unfold u64, t. destruct (Z.ltb_spec s (2 ^ 63)); [apply Z.mod_small; lia|].
    replace (s - 2 ^ 64) with (s + (-1) * 2 ^ 64) by lia. rewrite Z.mod_add by lia. apply Z.mod_small; lia.
  - destruct (localtime t) as [y1 m1 d1 h1 i1 s1 b1]. cbn [t_year t_mon t_mday t_hour t_min t_sec t_isdst]. f_equal; lia.
Qed.
(** The constructor from components gives them back if it happens to find the right flag. *)
Theorem C74_components_partial : forall mktime localtime t us, (forall t, mktime (localtime t) = t) -> - 2 ^ 63 <= t < 2 ^ 63 ->
  let f := localtime t in
  calendar_make mktime localtime (t_isdst f) (t_year f + 1900) (t_mon f + 1) (t_mday f) (t_hour f) (t_min f) (t_sec f) us =
  mkCal (t_year f + 1900) (t_mon f + 1) (t_mday f) (t_hour f) (t_min f) (t_sec f) us (t_isdst f).
Proof.
  intros mktime localtime t us H Ht f. unfold calendar_make, calendar_of, clock_of. cbn [year mon mday hour min sec usec isdst fst snd].
  replace (mkTm _ _ _ _ _ _ _) with f by (destruct f as [y1 m1 d1 h1 i1 s1 b1]; cbn [t_year t_mon t_mday t_hour t_min t_sec t_isdst]; f_equal; lia).
  unfold f. rewrite H.
  assert (E : (if u64 t <? 2 ^ 63 then u64 t else u64 t - 2 ^ 64) = t).
  { unfold u64. destruct (Z_lt_le_dec t 0).
    - assert (Em : t mod 2 ^ 64 = t + 2 ^ 64).
      { rewrite <- (Z.mod_add t 1) by lia. apply Z.mod_small. lia. }
      rewrite Em.
      replace (t + 2 ^ 64 <? 2 ^ 63) with false by lia. lia.
    - rewrite Z.mod_small by lia. replace (t <? 2 ^ 63) with true by lia. reflexivity. }
  rewrite E. reflexivity.
Qed.
(** Where the flag matters, what is built depends on uninitialised memory. *)
Theorem C74_components_refuted : forall mktime localtime y mo d h mi s us,
  (forall t, mktime (localtime t) = t) ->
  (forall b, - 2 ^ 63 <= mktime (mkTm (y - 1900) (mo - 1) d h mi s b) < 2 ^ 63) ->
  mktime (mkTm (y - 1900) (mo - 1) d h mi s true) <> mktime (mkTm (y - 1900) (mo - 1) d h mi s false) ->
  calendar_make mktime localtime true y mo d h mi s us <> calendar_make mktime localtime false y mo d h mi s us.
Proof.
  intros mktime localtime y mo d h mi s us H Hr Hne E. apply (f_equal (clock_of mktime)) in E. unfold calendar_make in E.
  set (k b := clock_of mktime (mkCal y mo d h mi s us b)) in *.
  assert (Hk : forall b, clock_of mktime (calendar_of localtime (k b)) = k b).
  { intros b. unfold k, clock_of, calendar_of. cbn [year mon mday hour min sec usec isdst fst snd]. f_equal.
    set (t := if _ <? 2 ^ 63 then _ else _).
    replace (mkTm _ _ _ _ _ _ _) with (localtime t).
    - rewrite H. unfold t, u64. set (m := mktime _). pose proof (Z.mod_pos_bound m (2 ^ 64) ltac:(lia)).
      destruct (m mod 2 ^ 64 <? 2 ^ 63); [apply Z.mod_mod; lia|]. replace (m mod 2 ^ 64 - 2 ^ 64) with (m mod 2 ^ 64 + (-1) * 2 ^ 64) by lia.
      rewrite Z.mod_add by lia. apply Z.mod_mod. lia.
    - destruct (localtime t) as [y1 m1 d1 h1 i1 s1 b1]. cbn [t_year t_mon t_mday t_hour t_min t_sec t_isdst]. f_equal; lia. }
  change (clock_of mktime (calendar_of localtime (k true)) = clock_of mktime (calendar_of localtime (k false))) in E.
  rewrite !Hk in E. unfold k, clock_of in E. cbn [year mon mday hour min sec usec isdst] in E. injection E as E. unfold u64 in E.
  pose proof (Hr true) as R1. pose proof (Hr false) as R2. apply Hne.
  set (a := mktime (mkTm (y - 1900) (mo - 1) d h mi s true)) in *. set (b := mktime (mkTm (y - 1900) (mo - 1) d h mi s false)) in *.
  assert (Hd : a - b = 2 ^ 64 * (a / 2 ^ 64 - b / 2 ^ 64)).
  { rewrite (Z.div_mod a (2 ^ 64)), (Z.div_mod b (2 ^ 64)) at 1 by lia. rewrite E. ring. }
  nia.
Qed.
(** A zone where daylight-saving time is one hour. *)
Definition C74_mktime (t : tm) : Z := t_hour t * 3600 + t_min t * 60 + t_sec t - (if t_isdst t then 3600 else 0).
Definition C74_localtime (t : Z) : tm := mkTm 70 0 1 (t / 3600) (t mod 3600 / 60) (t mod 60) false.
Example C74_nonvacuous : (forall t, C74_mktime (C74_localtime t) = t) /\
  C74_mktime (mkTm 70 0 1 5 0 0 true) <> C74_mktime (mkTm 70 0 1 5 0 0 false) /\ valid (2 ^ 64 - 7, -5).
Proof.
  split; [|split; [discriminate|unfold valid; cbn [fst snd]; lia]].
  intros t. unfold C74_mktime, C74_localtime. cbn [t_hour t_min t_sec t_isdst].
  pose proof (Z.div_mod t 3600). pose proof (Z.div_mod (t mod 3600) 60).
  assert (t mod 60 = (t mod 3600) mod 60); [|lia]. change 3600 with (60 * 60). rewrite Z.rem_mul_r by lia.
  rewrite (Z.mul_comm 60), Z.mod_add, Z.mod_mod by lia. reflexivity.
Qed.
Print Assumptions C48_plus_partial.
Print Assumptions C48_minus_partial.
Print Assumptions C48_undo_partial.
Print Assumptions C48_order_partial.
Print Assumptions C48_order_refuted.
Print Assumptions C48_overflow_refuted.
Print Assumptions C74_calendar_roundtrip.
Print Assumptions C74_components_partial.
Print Assumptions C74_components_refuted.
