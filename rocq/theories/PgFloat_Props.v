(** Doubles in PostgreSQL columns: further theorems of C77. *)
From Verif Require Import Common NumText_Model Double_Model Double_Spec Json_Spec JsonFloat_Spec LexFloat_Spec LexFloat_Model LexFloat_Proof Clock_Model.
From Verif Require Import Db_Model Pg_Spec Pg_Model PgFloat_Spec PgFloat_Model PgFloat_Proof.
Local Open Scope Z_scope.

(** A double is stored, and comes back from a column float8, as the double nearest to its value rounded to ten decimals, *)
Theorem C77_float_back_partial mktime localtime junk d : is_double d -> exists n d' t, decimals10 d n /\ near (dneg d) n (-10) d' /\
  parameter localtime (Some (Sfloat d)) = Some t /\ text_of t d' /\
  forall t', text_of t' d' -> str_to_sql mktime localtime lexical_double junk (Some t') 701 = Ok (Some (Sfloat d')).
Proof.
  intros Hd. destruct (sent localtime d Hd) as (n & t & Hn & P & T). destruct (stored_is d n Hd Hn) as (d' & N). exists n, d', t.
  split; [ exact Hn | ]. split; [ exact N | ]. split; [ exact P | ]. split; [ exists (dneg d), n, (-10); auto | ].
  intros t' T'. unfold str_to_sql. change (oid_to_sql_type 701) with SQL_FLOAT. cbn [make_sql_value]. rewrite (read_back t' d' T'). reflexivity.
Qed.
(** so it is kept exactly if it is the nearest double to some number with ten decimals; *)
Theorem C77_float_kept mktime localtime junk d t : is_double d -> parameter localtime (Some (Sfloat d)) = Some t ->
  (text_of t d <-> exists m, 0 <= m /\ near (dneg d) m (-10) d) /\
  (text_of t d <-> forall d' t', text_of t d' -> text_of t' d' -> str_to_sql mktime localtime lexical_double junk (Some t') 701 = Ok (Some (Sfloat d))).
Proof.
  intros Hd P. destruct (sent localtime d Hd) as (n & t0 & Hn & P0 & T). rewrite P in P0. injection P0 as <-.
  assert (R : forall x, text_of t x -> near (dneg d) n (-10) x).
  { intros x Hx. pose proof (read_back _ _ Hx) as E. destruct (stored_is d n Hd Hn) as (d' & N).
    pose proof (read_back t d' (ex_intro _ _ (ex_intro _ _ (ex_intro _ _ (conj T N))))) as E2. rewrite E in E2. injection E2 as ->. exact N. }
  split.
  - rewrite <- (kept10 d n Hd Hn). split; [ apply R | ]. intros N. exists (dneg d), n, (-10). auto.
  - split.
    + intros Ht d' t' H1 H2. assert (d' = d) as -> by (eapply near_inj; [ apply R, H1 | apply R, Ht ]).
      unfold str_to_sql. change (oid_to_sql_type 701) with SQL_FLOAT. cbn [make_sql_value]. rewrite (read_back t' d H2). reflexivity.
    + intros H. destruct (stored_is d n Hd Hn) as (d' & N). assert (T' : text_of t d') by (exists (dneg d), n, (-10); auto).
      specialize (H d' t T' T'). unfold str_to_sql in H. change (oid_to_sql_type 701) with SQL_FLOAT in H. cbn [make_sql_value] in H. rewrite (read_back t d' T') in H.
      injection H as <-. exact T'.
Qed.
(** all numbers from 2^19 on are. *)
Theorem C77_float_large localtime d t : is_double d -> 2 ^ 19 * 2 ^ 1074 <= mag d -> parameter localtime (Some (Sfloat d)) = Some t -> text_of t d.
Proof.
  intros Hd L P. destruct (sent localtime d Hd) as (n & t0 & Hn & P0 & T). rewrite P in P0. injection P0 as <-. exists (dneg d), n, (-10). split; [ exact T | ].
  assert (K : -33 <= dexp d).
  { destruct (Z.le_gt_cases (-33) (dexp d)) as [ K | K ]; [ exact K | exfalso ]. destruct Hd as (M & E & _). unfold mag in L.
    assert (2 ^ (dexp d + 1074) <= 2 ^ 1040) by (apply Z.pow_le_mono_r; lia). rewrite (U_split 34) in L by lia. change (1074 - 34) with 1040 in L.
    pose proof (Z.pow_pos_nonneg 2 (dexp d + 1074) ltac:(lia) ltac:(lia)) as P1. revert L H P1. generalize (2 ^ 1040), (2 ^ (dexp d + 1074)). intros U X L H P1.
    change (2 ^ 34) with 17179869184 in L. change (2 ^ 19) with 524288 in L. change (2 ^ 53) with 9007199254740992 in M. assert (dman d * X <= 9007199254740991 * U) by nia. lia. }
  apply large_near; auto. destruct Hd as (_ & _ & [ C | C ]); lia.
Qed.
Example C77_float_nonvacuous : let d := mkD false 7205759403792794 (-56) in is_double d /\ parameter (fun _ => mkTm 0 0 0 0 0 0 false) (Some (Sfloat d)) = Some (str "0.1000000000") /\ text_of (str "0.1000000000") d /\
  str_to_sql (fun _ => 0) (fun _ => mkTm 0 0 0 0 0 0 false) lexical_double false (Some (str "0.1")) 701 = Ok (Some (Sfloat d)).
Proof.
  cbv zeta. assert (Hd : is_double (mkD false 7205759403792794 (-56))) by (unfold is_double; cbn [dman dexp]; lia). split; [ exact Hd | ].
  assert (P : parameter (fun _ => mkTm 0 0 0 0 0 0 false) (Some (Sfloat (mkD false 7205759403792794 (-56)))) = Some (str "0.1000000000")) by (vm_compute; reflexivity).
  split; [ exact P | ]. split; [ | vm_compute; reflexivity ].
  destruct (C77_float_kept (fun _ => 0) (fun _ => mkTm 0 0 0 0 0 0 false) false _ _ Hd P) as [ K _ ]. apply K. exists 1000000000. split; [ lia | ].
  unfold near. change (up (-10)) with 1. change (down (-10)) with (10 ^ 10). rewrite Z.mul_1_r. cbn [dneg]. apply to_near_spec; [ lia | lia | vm_compute; reflexivity ].
Qed.

Print Assumptions C77_float_back_partial.
Print Assumptions C77_float_kept.
Print Assumptions C77_float_large.
