(** C60: database values and arity. *)
From Verif Require Import Common CommonLemmas Clock_Spec Clock_Model Clock_Proof Clock_Props Ipv4_Model Ipv4_Proof Db_Spec Db_Model Db_Proof.
Local Open Scope Z_scope.

(** Every value comes back as its own type: a calendar time if it is that of an instant. *)
Theorem C60_round_trip (F : Type) mktime localtime (v : val F) : in_type v ->
  (forall c, v = C_ c -> (forall t, mktime (localtime t) = t) /\ exists t, valid t /\ c = calendar_of localtime t) ->
  from_sql localtime (type_of v) (to_sql mktime v) = Ok v.
Proof.
  intros _ Hc. destruct v as [b|s|n|n|d|t|c]; try reflexivity. destruct (Hc c eq_refl) as (Hm & t & Ht & ->). cbn.
  now rewrite C74_calendar_roundtrip.
Qed.
Theorem C60_c_strings (F : Type) localtime s : ~ In 0 s -> from_sql localtime TS (@to_sql_cstr F s) = Ok (S_ s).
Proof. intros H. unfold to_sql_cstr. now rewrite c_str_id. Qed.
(** Integers of either size: the value if it fits, else an error; int64 takes all. *)
Theorem C60_integers (F : Type) mktime localtime n :
  (int64 n -> (int32 n -> @from_sql F localtime T32 (to_sql mktime (I64 n)) = Ok (I32 n)) /\
              (~ int32 n -> @from_sql F localtime T32 (to_sql mktime (I64 n)) = Throw)) /\
  (int32 n -> @from_sql F localtime T64 (to_sql mktime (I32 n)) = Ok (I64 n)).
Proof.
  split; [|reflexivity]. intros H. cbn [to_sql from_sql]. unfold int32.
  destruct ((- 2147483648 <=? n) && (n <=? 2147483647)) eqn:E; split; intros G; try reflexivity; lia.
Qed.
(** Another type raises, except that a string is read as empty; two timestamps are one type, two integers are. *)
Theorem C60_other_types (F : Type) mktime localtime (v : val F) t : t <> type_of v -> t <> TS ->
  ~ (In t [T32; T64] /\ In (type_of v) [T32; T64]) -> ~ (In t [TT; TC] /\ In (type_of v) [TT; TC]) ->
  from_sql localtime t (to_sql mktime v) = Throw.
Proof. intros H1 H2 H3 H4. destruct v, t; cbn in *; try reflexivity; try congruence; exfalso; try (apply H3; auto 10; fail); apply H4; auto 10. Qed.
Theorem C60_not_a_string_is_empty (F : Type) mktime localtime (v : val F) : type_of v <> TS -> from_sql localtime TS (to_sql mktime v) = Ok (S_ []).
Proof. intros H. destruct v; try reflexivity. now elim H. Qed.

(** execute passes exactly its arguments, in order: for up to 9 of them. *)
Theorem C60_execute_partial (F : Type) mktime (vs : list (val F)) : (length vs <= 9)%nat ->
  execute mktime vs = Ok (map (to_sql mktime) vs) /\ length (map (to_sql mktime) vs) = length vs.
Proof.
  intros H. split; [|apply map_length]. unfold execute, exec_size. rewrite (proj2 (Nat.eqb_neq _ 10)) by lia.
  apply (fill_ok F mktime vs [] (repeat None (length vs))). apply repeat_length.
Qed.
(** With 10 it writes behind the vector. *)
Theorem C60_execute_ten_refuted (F : Type) mktime (vs : list (val F)) : length vs = 10%nat -> execute mktime vs = UB.
Proof.
  intros H. do 10 (destruct vs as [|? vs]; [discriminate|]). destruct vs; [|discriminate]. reflexivity.
Qed.

(** fetch_row with k targets, k up to 7: rows of k columns that convert are taken; rows of any other number of columns raise. *)
Theorem C60_fetch_partial (F : Type) localtime (ts : list ty) (ret : list (ptr F)) : (length ts <= 7)%nat ->
  (length ret = length ts -> forall vs, length vs = length ts ->
     Forall2 (fun t pv => from_sql localtime t (fst pv) = Ok (snd pv)) ts (combine ret vs) -> fetch_row localtime ts (Some ret) = Ok (Some vs)) /\
  (length ret <> length ts -> fetch_row localtime ts (Some ret) = Throw) /\ fetch_row localtime ts None = @Ok (option (list (val F))) None.
Proof.
  intros H. unfold fetch_row. assert (E : fetch_size (length ts) = length ts) by (do 8 (destruct ts as [|? ts]; [reflexivity|]); cbn in H; lia).
  rewrite E. split; [|split; [|reflexivity]].
  - intros L vs Lv Hv. rewrite (proj2 (Nat.eqb_eq _ _) L). rewrite (take_ok F localtime ts ret ltac:(lia) ts 0 vs); [reflexivity|lia|exact Hv|exact Lv].
  - intros N. now rewrite (proj2 (Nat.eqb_neq _ _) N).
Qed.
(** What was executed can be fetched, for up to 7 columns. *)
Theorem C60_statement_round_trip_partial (F : Type) mktime localtime (vs : list (val F)) : (length vs <= 7)%nat ->
  Forall (fun v => in_type v /\ forall c, v <> C_ c) vs ->
  (let* row := execute mktime vs in fetch_row localtime (map type_of vs) (Some row)) = Ok (Some vs).
Proof.
  intros H G. destruct (C60_execute_partial F mktime vs ltac:(lia)) as [-> _]. cbn [obind].
  apply (C60_fetch_partial F localtime (map type_of vs) (map (to_sql mktime) vs)); rewrite ?map_length; auto.
  clear H. induction G as [|v vs [G1 G2] _ IH]; cbn [map combine]; constructor; [|exact IH]. cbn [fst snd].
  apply C60_round_trip; [exact G1|]. intros c ->. now elim (G2 c).
Qed.
(** With 8, 9 and 10 targets the test wants one column less: a row of as many columns as targets raises, and a row of one less is read behind its end,
    unless a column before does not convert. *)
Theorem C60_fetch_many_refuted (F : Type) localtime (ts : list ty) (ret : list (ptr F)) : (8 <= length ts <= 10)%nat ->
  (length ret = length ts -> fetch_row localtime ts (Some ret) = Throw) /\
  (length ret = (length ts - 1)%nat -> fetch_row localtime ts (Some ret) = UB \/ fetch_row localtime ts (Some ret) = Throw).
Proof.
  intros H. unfold fetch_row. assert (E : fetch_size (length ts) = (length ts - 1)%nat).
  { do 11 (destruct ts as [|? ts]; [first [reflexivity|cbn in H; lia]|]). cbn in H. lia. }
  rewrite E. split.
  - intros L. now rewrite (proj2 (Nat.eqb_neq _ _)) by lia.
  - intros L. rewrite (proj2 (Nat.eqb_eq _ _) L). destruct (take_short F localtime ts ret ts 0) as [-> | ->]; auto; [intros ->; cbn in H; lia|lia].
Qed.
(** Rows of 7, 8 and 9 strings really are read behind their end. *)
Theorem C60_fetch_behind_the_end_refuted (F : Type) localtime k : (8 <= k <= 10)%nat ->
  @fetch_row F localtime (repeat TS k) (Some (repeat (Some (Sstring [65])) (k - 1))) = UB.
Proof. intros H. assert (k = 8 \/ k = 9 \/ k = 10)%nat as [-> | [-> | ->]] by lia; reflexivity. Qed.

Example C60_nonvacuous : in_type (@I64 unit (2 ^ 40)) /\ ~ int32 (2 ^ 40) /\ int64 (2 ^ 40) /\ int32 (- 2 ^ 31) /\
  Forall (fun v : val unit => in_type v /\ forall c, v <> C_ c) [B true; S_ [65]; I32 5; I64 (2 ^ 40); D tt; T_ (1, 2)].
Proof. unfold int32, int64, in_type, int32, int64. split; [lia|]. split; [lia|]. split; [lia|]. split; [lia|]. repeat constructor; try discriminate; lia. Qed.
Example C60_case : execute (F := unit) (fun _ => 0) [B true; S_ [65]; I32 5] = Ok [Some (Sbool true); Some (Sstring [65]); Some (Sint32 5)] /\
  fetch_row (F := unit) (fun _ => mkTm 0 0 0 0 0 0 false) [TS; T64] (Some [Some (Sstring [66; 0; 67]); Some (Sint32 (-1))]) = Ok (Some [S_ [66; 0; 67]; I64 (-1)]).
Proof. split; reflexivity. Qed.

Print Assumptions C60_round_trip.
Print Assumptions C60_c_strings.
Print Assumptions C60_integers.
Print Assumptions C60_other_types.
Print Assumptions C60_not_a_string_is_empty.
Print Assumptions C60_execute_partial.
Print Assumptions C60_execute_ten_refuted.
Print Assumptions C60_fetch_partial.
Print Assumptions C60_statement_round_trip_partial.
Print Assumptions C60_fetch_many_refuted.
Print Assumptions C60_fetch_behind_the_end_refuted.
