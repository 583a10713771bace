(** C76, C77: the PostgreSQL driver: parameters of a query, and values stored and fetched. *)
From Verif Require Import Common NumText_Model Cast_Model Ipv4_Model Clock_Model Double_Model Db_Model Pg_Spec Pg_Model Pg_Proof.
Local Open Scope Z_scope.

(** For every query made of text, string constants and parameters, the server is given it with the parameters numbered from 1,
    provided no string constant holds a question mark. *)
Theorem C76_numbered_partial ps : Forall proper ps -> Forall (fun p => match p with Constant s => ~ In 63 s | _ => True end) ps ->
  prepared (with_marks ps) = numbered 1 ps.
Proof. apply prepared_ok. Qed.
(** A question mark in a constant is replaced too, and takes a number. *)
Theorem C76_constant_refuted : exists ps, Forall proper ps /\ prepared (with_marks ps) <> numbered 1 ps /\
  prepared (with_marks ps) = numbered 1 [Plain (str "SELECT "); Constant (str "$1"); Plain (str ", $2")].
Proof.
  exists [Plain (str "SELECT "); Constant (str "?"); Plain (str ", "); Param].
  assert (P : forall s, forallb (fun c => negb ((c =? 0) || (c =? 39) || (c =? 63))) s = true -> proper (Plain s)).
  { intros s H. rewrite forallb_forall in H. cbn [proper]. repeat split; intros K; apply H in K; discriminate K. }
  split; [|split; [vm_compute; discriminate|reflexivity]]. constructor; [now apply P|]. constructor; [cbn; intros [K|[]]; discriminate K|].
  constructor; [now apply P|]. constructor; [exact I|constructor].
Qed.
Example C76_nonvacuous : exists ps, Forall proper ps /\ prepared (with_marks ps) = str "UPDATE t SET a = $1 WHERE b = 'it''s' AND c < $2" /\ with_marks ps = str "UPDATE t SET a = ? WHERE b = 'it''s' AND c < ?".
Proof.
  exists [Plain (str "UPDATE t SET a = "); Param; Plain (str " WHERE b = "); Constant (str "it's"); Plain (str " AND c < "); Param].
  assert (P : forall s, forallb (fun c => negb ((c =? 0) || (c =? 39) || (c =? 63))) s = true -> proper (Plain s)).
  { intros s H. rewrite forallb_forall in H. cbn [proper]. repeat split; intros K; apply H in K; discriminate K. }
  split; [|split; reflexivity]. constructor; [now apply P|]. constructor; [exact I|]. constructor; [now apply P|].
  constructor; [cbn; intros [K|[K|[K|[K|[]]]]]; discriminate K|]. constructor; [now apply P|]. constructor; [exact I|constructor].
Qed.

(** For every value and every column it fits: the parameter sent is accepted by the column, and the text of what the column then holds is read as
    the same value.  NULL stays NULL. *)
Theorem C77_round_trip_partial mktime localtime to_double junk v c : fits v c ->
  exists t d, parameter localtime (Some v) = Some t /\ takes c t d /\ str_to_sql mktime localtime to_double junk (Some (shows d)) (oid c) = Ok (Some v).
Proof. apply values_ok. Qed.
Theorem C77_null mktime localtime to_double junk c :
  parameter localtime None = None /\ str_to_sql mktime localtime to_double junk None (oid c) = Ok None.
Proof. split; reflexivity. Qed.
(** What a column takes a text for is determined, so the value fetched is the only one. *)
Theorem C77_determined c t d1 d2 : takes c t d1 -> takes c t d2 -> d1 = d2.
Proof. apply takes_unique. Qed.
(** A text is cut at its first NUL. *)
Theorem C77_nul_refuted localtime a b : ~ In 0 a -> parameter localtime (Some (Sstring (a ++ 0 :: b))) = Some a.
Proof.
  intros H. unfold parameter. cbn [sql_to_str option_map]. f_equal. induction a as [|c a IH]; [reflexivity|]. cbn [app c_str].
  destruct (Z.eqb_spec c 0) as [->|_]; [exfalso; apply H; now left|]. f_equal. apply IH. intros K. apply H. now right.
Qed.
(** Times of the years 1000 to 9999: the column accepts what is sent. *)
Theorem C77_stamp_sent localtime t us : 0 <= t < 2 ^ 63 -> fields localtime t us ->
  exists x, parameter localtime (Some (Stimestamp (t, us))) = Some x /\ takes Ctimestamp x (stored localtime t us).
Proof. intros H1 H2. now apply stamp_param. Qed.
(** They come back when the microseconds do not end in a zero, and the uninitialized daylight saving flag happens to be the right one. *)
Theorem C77_stamp_partial mktime localtime to_double junk t us : mktime (localtime t) = t -> 0 <= t < 2 ^ 63 -> fields localtime t us ->
  junk = t_isdst (localtime t) -> us mod 10 <> 0 ->
  str_to_sql mktime localtime to_double junk (Some (shows (stored localtime t us))) (oid Ctimestamp) = Ok (Some (Stimestamp (t, us))).
Proof.
  intros Hm Ht H Hj Hu. assert (P : 0 < us).
  { pose proof H as (_ & _ & _ & _ & _ & _ & Hus). assert (us <> 0) by (intros ->; now apply Hu). lia. }
  destruct (stamp_back mktime localtime to_double junk t us Hm Ht H Hj P) as (v & -> & E & _). now rewrite E.
Qed.
(** The server leaves trailing zeros out, and the driver reads the digits as a whole number: all these times come back with fewer microseconds. *)
Theorem C77_fraction_refuted mktime localtime to_double junk t us : mktime (localtime t) = t -> 0 <= t < 2 ^ 63 -> fields localtime t us ->
  junk = t_isdst (localtime t) -> 0 < us -> us mod 10 = 0 ->
  exists us', us' < us /\ str_to_sql mktime localtime to_double junk (Some (shows (stored localtime t us))) (oid Ctimestamp) = Ok (Some (Stimestamp (t, us'))).
Proof.
  intros Hm Ht H Hj P Hu. destruct (stamp_back mktime localtime to_double junk t us Hm Ht H Hj P) as (v & E & _ & L). exists v. split; [now apply L|exact E].
Qed.
(** A whole second is printed without a point, for which strptime gives NULL, and atoi is called with it. *)
Theorem C77_whole_second_refuted mktime localtime to_double junk t : fields localtime t 0 ->
  str_to_sql mktime localtime to_double junk (Some (shows (stored localtime t 0))) (oid Ctimestamp) = UB.
Proof. apply stamp_zero. Qed.
(** A double is sent as the nearest multiple of 10^-10, *)
Theorem C77_float_error_partial localtime d : 0 <= dman d -> exists n, 0 <= n /\
  sql_to_str localtime (Some (Sfloat d)) = Some ((if dneg d then str "-" else []) ++ dec_text (n / 10 ^ 10) ++ str "." ++ places 10 (n mod 10 ^ 10)) /\
  2 * Z.abs (dman d * 10 ^ 10 * 2 ^ Z.max 0 (dexp d) - n * 2 ^ Z.max 0 (- dexp d)) <= 2 ^ Z.max 0 (- dexp d).
Proof. intros H. destruct (fixed10_near d H) as (n & N & E & B). exists n. split; [exact N|]. split; [|exact B]. cbn [sql_to_str]. now rewrite E. Qed.
(** so no reader can tell small ones apart. *)
Theorem C77_float_collapse_refuted : exists d1 d2, valid_double d1 = true /\ valid_double d2 = true /\ d1 <> d2 /\ dman d2 <> 0 /\
  forall localtime, sql_to_str localtime (Some (Sfloat d1)) = sql_to_str localtime (Some (Sfloat d2)).
Proof.
  exists (mkD false (2 ^ 52) (-100)), (mkD false (2 ^ 52) (-101)). split; [reflexivity|]. split; [reflexivity|]. split; [discriminate|]. split; [discriminate|].
  intros localtime. reflexivity.
Qed.
Example C77_nonvacuous : fits (F := double) (Sint32 (-32768)) Cint2 /\ fits (F := double) (Sbool false) Cbool /\ fits (F := double) (Sint64 (2 ^ 62)) Cint8 /\ fits (F := double) (Sstring [65; 39; 200]) Ctext /\
  let localtime := fun _ : Z => mkTm 109 5 1 12 34 56 false in let mktime := fun _ : tm => 1243827296 in
  mktime (localtime 1243827296) = 1243827296 /\ fields localtime 1243827296 7.
Proof. cbn [fits]. split; [lia|]. split; [exact I|]. split; [lia|]. split; [intros [K|[K|[K|[]]]]; discriminate K|]. split; [reflexivity|]. unfold fields, stamp_ok. cbn. lia. Qed.
Example C77_case : let localtime := fun _ : Z => mkTm 109 5 1 12 34 56 false in let mktime := fun _ : tm => 1243827296 in
  let back := fun s => str_to_sql mktime localtime (fun _ => Throw) false (Some s) in
  parameter localtime (Some (Stimestamp (1243827296, 250000))) = Some (str "2009-06-01 12:34:56.250000") /\
  shows (stored localtime 1243827296 250000) = str "2009-06-01 12:34:56.25" /\
  back (str "2009-06-01 12:34:56.25") 1114 = Ok (Some (Stimestamp (1243827296, 25))) /\
  back (str "t") 16 = Ok (Some (Sbool true)) /\ back (str "f") 16 = Ok (Some (Sbool false)) /\ back (str "-7") 21 = Ok (Some (Sint32 (-7))) /\ back (str "12") 1700 = Ok (Some (Sunknown (str "12"))).
Proof. cbv zeta. repeat split. Qed.

Print Assumptions C76_numbered_partial.
Print Assumptions C76_constant_refuted.
Print Assumptions C77_round_trip_partial.
Print Assumptions C77_null.
Print Assumptions C77_determined.
Print Assumptions C77_nul_refuted.
Print Assumptions C77_stamp_sent.
Print Assumptions C77_stamp_partial.
Print Assumptions C77_fraction_refuted.
Print Assumptions C77_whole_second_refuted.
Print Assumptions C77_float_error_partial.
Print Assumptions C77_float_collapse_refuted.
