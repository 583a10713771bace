(** C78, C79: the MySQL driver: parameters, and fetching of rows. *)
From Verif Require Import Common Clock_Model Db_Spec Db_Model Mysql_Spec Mysql_Model Mysql_Proof.
Local Open Scope Z_scope.

(** For all arguments but NULL and of unknown type, as many as the statement has parameters: the server gets exactly what they mean. *)
Theorem C78_execute_partial (F : Type) localtime n (args : list (ptr F)) ds : n = Z.of_nat (length args) -> Forall (fun p => p <> None) args ->
  Forall clock_in args -> Forall2 (meant localtime) args ds -> execute localtime n args = Ok ds.
Proof. apply execute_ok. Qed.
(** Any other number of arguments is refused. *)
Theorem C78_count (F : Type) localtime n (args : list (ptr F)) : n <> Z.of_nat (length args) -> execute localtime n args = Throw.
Proof. intros H. unfold execute. now rewrite (proj2 (Z.eqb_neq _ _) H). Qed.
(** A value of a type unknown to the driver is refused. *)
Theorem C78_unknown (F : Type) localtime n (args : list (ptr F)) x : In (Some (Sunknown x)) args -> execute localtime n args = Throw.
Proof.
  intros H. unfold execute. destruct (n =? Z.of_nat (length args)); [|reflexivity]. clear n.
  assert (E : mapM (bind_arg localtime) args = Throw); [|now rewrite E].
  assert (B : forall p, bind_arg (F := F) localtime p = Throw \/ exists b, bind_arg localtime p = Ok b).
  { intros [[]|]; try solve [left; reflexivity]; right; unfold bind_arg, bind_length, to_bind, store; cbn [obind bcap]; rewrite ?Z.leb_refl; eexists; reflexivity. }
  induction args as [|p args IH]; [destruct H|]. cbn [mapM]. destruct H as [->|H]; [reflexivity|]. destruct (B p) as [->|[b ->]]; [reflexivity|]. cbn [obind]. now rewrite (IH H).
Qed.
Example C78_unknown_nonvacuous : execute (F := unit) (fun _ => mkTm 109 5 1 12 34 56 false) 2 [Some (Sbool true); Some (Sunknown [7])] = Throw.
Proof. reflexivity. Qed.
(** NULL is sent as the empty string: the null pointer that to_bind puts in is_null says "never NULL". *)
Theorem C78_null_refuted (F : Type) localtime k : execute localtime (Z.of_nat k) (repeat (@None (sql F)) k) = Ok (repeat (Str []) k) /\ meant (F := F) localtime None Nul.
Proof.
  split; [|reflexivity]. unfold execute. rewrite repeat_length, Z.eqb_refl.
  assert (E : mapM (bind_arg localtime) (repeat (@None (sql F)) k) = Ok (repeat (mkBind 0 (Obytes []) 0 0 None) k)).
  { induction k as [|k IH]; [reflexivity|]. cbn [repeat mapM]. now rewrite IH. }
  rewrite E. cbn [obind]. clear E. induction k as [|k IH]; [reflexivity|]. cbn [repeat mapM]. now rewrite IH.
Qed.
Example C78_nonvacuous : let localtime := fun _ : Z => mkTm 109 5 1 12 34 56 false in
  let args : list (ptr unit) := [Some (Sstring [65; 0; 66]); Some (Sstring []); Some (Sbool true); Some (Sint64 (2 ^ 40)); Some (Stimestamp (5, 6))] in
  Forall (fun p => p <> None) args /\ Forall clock_in args /\
  execute localtime 5 args = Ok [Str [65; 0; 66]; Str []; Int 1; Int (2 ^ 40); Time 2009 6 1 12 34 56 6].
Proof. cbv zeta. split; [repeat constructor; discriminate|]. split; [|reflexivity]. repeat constructor; cbn; lia. Qed.

(** For all columns and all rows, of any length and number: what is fetched are the values that the rows stand for, and then the end is reported.
    In particular long strings are fetched again in full, and no byte outside of the buffers is read, also after shorter ones and NULLs. *)
Theorem C79_rows_partial (F : Type) mktime localtime junk cs (rows : list (list (datum F))) vss :
  Forall2 (stands_row localtime cs) rows vss -> Forall (Forall (zone_ok mktime localtime junk)) vss ->
  fetch_all mktime localtime junk cs [] rows = Ok vss.
Proof. intros H Z. apply fetch_ok; auto. Qed.
(** Unsigned columns: the upper half comes back negative. *)
Theorem C79_unsigned_refuted (F : Type) mktime localtime junk n : 2 ^ 31 <= n < 2 ^ 32 ->
  fetch_all (F := F) mktime localtime junk [3] [] [[Int n]] = Ok [[Some (Sint32 (n - 2 ^ 32))]].
Proof.
  intros H. unfold fetch_all. cbn [fetch_row map deliver_all fresh deliver]. change (3 =? 1) with false. change ((3 =? 2) || (3 =? 13)) with false. change (3 =? 8) with false. cbv iota.
  assert (E : wrap 32 n = n - 2 ^ 32).
  { unfold wrap. change (32 - 1) with 31. replace (n + 2 ^ 31) with (n - 2 ^ 31 + 1 * 2 ^ 32) by lia. rewrite Z.mod_add by lia. rewrite Z.mod_small by lia. lia. }
  rewrite E. replace (n - 2 ^ 32 =? n) with false by lia. reflexivity.
Qed.
(** VARCHAR columns (type 253) and decimal ones (246) cannot be fetched at all, unless they hold NULL. *)
Theorem C79_varchar_refuted (F : Type) mktime localtime junk t s : t = 253 \/ t = 246 ->
  fetch_all (F := F) mktime localtime junk [t] [] [[Str s]] = Throw.
Proof.
  intros H. unfold fetch_all, fetch_row. cbn [map deliver_all fresh deliver bcap btype bobj].
  assert (E : forall o cap n, from_bind (F := F) mktime localtime junk (mkBind t o cap n (Some false)) = Throw) by (intros o cap n; destruct H as [-> | ->]; reflexivity).
  destruct (INIT_BUF_SIZE <? Z.of_nat (length s)) eqn:L; cbn [orb].
  - cbn [refetch_all]. unfold refetch. cbn [bcap blen]. rewrite L. cbn [deliver fst mapM btype]. now rewrite E.
  - cbn [mapM]. now rewrite E.
Qed.
(** Booleans never come back: whatever is in the buffer, reading it as a bool throws. *)
Theorem C79_bool_refuted (F : Type) mktime localtime junk b v : from_bind (F := F) mktime localtime junk b = Ok v -> from_sql localtime TB v = Throw.
Proof.
  intros H. destruct v as [[x|s|n|n|f|c|s]|]; try reflexivity. exfalso. now apply never_bool in H.
Qed.
Example C79_nonvacuous : let localtime := fun _ : Z => mkTm 109 5 1 12 34 56 false in let mktime := fun _ : tm => 5 in
  let long := repeat 65 (Z.to_nat 20000) in
  let rows := [[Str long; Int 7]; [Nul; Nul]; [Str [66]; Int (-128)]] in
  exists vss, Forall2 (stands_row (F := unit) localtime [252; 1]) rows vss /\ Forall (Forall (zone_ok mktime localtime false)) vss.
Proof.
  cbv zeta. set (long := repeat 65 (Z.to_nat 20000)). clearbody long. exists [[Some (Sstring long); Some (Sint32 7)]; [None; None]; [Some (Sstring [66]); Some (Sint32 (-128))]].
  split; repeat constructor; cbn; lia.
Qed.
Example C79_case : let localtime := fun _ : Z => mkTm 109 5 1 12 34 56 false in let mktime := fun _ : tm => 5 in
  fetch_all (F := unit) mktime localtime false [254; 12] [] [[Str [66]; Time 2009 6 1 12 34 56 9]; [Nul; Nul]] = Ok [[Some (Sstring [66]); Some (Stimestamp (5, 9))]; [None; None]].
Proof. reflexivity. Qed.

Print Assumptions C78_execute_partial.
Print Assumptions C78_count.
Print Assumptions C78_null_refuted.
Print Assumptions C79_rows_partial.
Print Assumptions C79_unsigned_refuted.
Print Assumptions C79_varchar_refuted.
Print Assumptions C79_bool_refuted.
Print Assumptions C78_unknown.
