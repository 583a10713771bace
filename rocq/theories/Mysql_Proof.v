From Verif Require Import Common CommonLemmas Clock_Model Db_Model Mysql_Spec Mysql_Model.
Local Open Scope Z_scope.
Ltac Zify.zify_post_hook ::= Z.div_mod_to_equations.

Section proof.
Context {F : Type} (mktime : tm -> BinNums.Z) (localtime : BinNums.Z -> tm).
Lemma arg_sent (p : ptr F) d : p <> None -> clock_in p -> meant localtime p d -> exists b, bind_arg localtime p = Ok b /\ sent b = Ok d.
Proof.
  intros N C H. destruct p as [[b|s|n|n|f|c|s]|]; [| | | | | |contradiction|congruence]; cbn [meant] in H; subst d; unfold bind_arg; cbn [bind_length obind to_bind]; unfold store; cbn [bcap].
  1,3,4,5: eexists; split; reflexivity.
  - rewrite Z.leb_refl. eexists. split; [reflexivity|]. unfold sent. cbn [btype bnull bobj blen]. change (254 =? 6) with false. change (254 =? 3) with false.
    change (254 =? 8) with false. change (254 =? 5) with false. change (254 =? 7) with false. change (254 =? 254) with true. cbn [orb]. rewrite Z.leb_refl.
    rewrite Nat2Z.id. now rewrite firstn_all.
  - cbn [clock_in] in C. unfold local, calendar_of. replace (fst c <? 2 ^ 63) with true by lia. cbn [year mon mday hour min sec usec]. change (40 <=? 40) with true. eexists. split; reflexivity.
Qed.
Lemma mapM_ok {A B} (f : A -> outcome B) l r : Forall2 (fun a b => f a = Ok b) l r -> mapM f l = Ok r.
Proof. induction 1 as [|a b l r H _ IH]; [reflexivity|]. cbn [mapM]. rewrite H. cbn [obind]. now rewrite IH. Qed.
Lemma execute_ok n (args : list (ptr F)) ds : n = Z.of_nat (length args) -> Forall (fun p => p <> None) args -> Forall clock_in args -> Forall2 (meant localtime) args ds ->
  execute localtime n args = Ok ds.
Proof.
  intros -> N C H. unfold execute. rewrite Z.eqb_refl.
  assert (E : exists bs, Forall2 (fun p b => bind_arg localtime p = Ok b) args bs /\ Forall2 (fun b d => sent b = Ok d) bs ds).
  { induction H as [|p d args ds P H IH]; [exists []; now split|]. inversion N as [|? ? N1 N2]; subst. inversion C as [|? ? C1 C2]; subst.
    destruct (IH N2 C2) as (bs & B1 & B2). destruct (arg_sent p d N1 C1 P) as (b & E1 & E2). exists (b :: bs). split; now constructor. }
  destruct E as (bs & E1 & E2). rewrite (mapM_ok _ _ _ E1). cbn [obind]. now apply mapM_ok.
Qed.

(** * Fetching *)
Lemma wrap_id k n : 0 < k -> - 2 ^ (k - 1) <= n < 2 ^ (k - 1) -> wrap k n = n.
Proof. intros K H. unfold wrap. assert (2 ^ k = 2 * 2 ^ (k - 1)) by (rewrite <- Z.pow_succ_r by lia; f_equal; lia). rewrite Z.mod_small; lia. Qed.
(** what is known about a bind between fetches *)
Definition good (c : column) (b : bind (F := F)) : Prop := btype b = c /\ blen b <= bcap b /\ 40 <= bcap b.
Definition final (c : column) (d : datum F) (b : bind) : bind * bool :=
  let '(b', x) := deliver c d b in (refetch c d b', x).
Lemma back (junk : bool) c : 0 <= fst c < 2 ^ 63 -> mktime (localtime (fst c)) = fst c -> junk = t_isdst (localtime (fst c)) ->
  clock_of mktime (calendar_make mktime localtime junk (t_year (localtime (fst c)) + 1900) (t_mon (localtime (fst c)) + 1) (t_mday (localtime (fst c)))
    (t_hour (localtime (fst c))) (t_min (localtime (fst c))) (t_sec (localtime (fst c))) (snd c)) = c.
Proof.
  intros Ht Hm Hj. destruct c as [t us]. cbn [fst snd] in *. unfold calendar_make, calendar_of, clock_of. cbn [year mon mday hour min sec usec isdst fst snd].
  assert (E0 : u64 t = t) by (unfold u64; apply Z.mod_small; lia).
  replace (mkTm (t_year (localtime t) + 1900 - 1900) (t_mon (localtime t) + 1 - 1) (t_mday (localtime t)) (t_hour (localtime t)) (t_min (localtime t)) (t_sec (localtime t)) junk)
    with (localtime t).
  2:{ rewrite Hj. destruct (localtime t) as [y1 m1 d1 h1 i1 s1 b1]. cbn [t_year t_mon t_mday t_hour t_min t_sec t_isdst]. f_equal; lia. }
  rewrite Hm, E0. replace (t <? 2 ^ 63) with true by lia.
  replace (mkTm (t_year (localtime t) + 1900 - 1900) (t_mon (localtime t) + 1 - 1) (t_mday (localtime t)) (t_hour (localtime t)) (t_min (localtime t)) (t_sec (localtime t)) (t_isdst (localtime t)))
    with (localtime t).
  2:{ destruct (localtime t) as [y1 m1 d1 h1 i1 s1 b1]. cbn [t_year t_mon t_mday t_hour t_min t_sec t_isdst]. f_equal; lia. }
  now rewrite Hm, E0.
Qed.
Definition settled (junk : bool) (c : column) (v : ptr F) (b : bind) : Prop := good c b /\ from_bind mktime localtime junk b = Ok v.

Lemma deliver_stands junk c d v b : good c b -> stands localtime c d v -> zone_ok mktime localtime junk v ->
  let '(b', x) := deliver c d b in
  settled junk c v (refetch c d b') /\ (x = false -> settled junk c v b').
Proof.
  intros (G1 & G2 & G3) H Z. unfold settled, good.
  assert (R : forall o n, n <= 40 -> refetch c d (mkBind (btype b) o (bcap b) n (Some false)) = mkBind (btype b) o (bcap b) n (Some false)).
  { intros o n Hn. unfold refetch. cbn [bcap blen]. now replace (bcap b <? n) with false by lia. }
  destruct H as [t|n H|n H|n H|n H|t f H|t k H T|t s H]; cbn [deliver zone_ok] in *.
  - assert (R0 : refetch t Nul (mkBind (btype b) (bobj b) (bcap b) (blen b) (Some true)) = mkBind (btype b) (bobj b) (bcap b) (blen b) (Some true)).
    { unfold refetch. cbn [bcap blen]. now replace (bcap b <? blen b) with false by lia. }
    rewrite R0. cbn [btype blen bcap bnull from_bind]. repeat split; auto; lia.
  - cbv beta iota delta [Z.eqb Pos.eqb orb]. cbv iota. rewrite R by lia. rewrite wrap_id by (cbn; lia). rewrite G1. cbn [btype blen bcap]. repeat split; lia.
  - cbv beta iota delta [Z.eqb Pos.eqb orb]. cbv iota. rewrite R by lia. rewrite wrap_id by (cbn; lia). rewrite G1. cbn [btype blen bcap]. repeat split; lia.
  - cbv beta iota delta [Z.eqb Pos.eqb orb]. cbv iota. rewrite R by lia. rewrite wrap_id by (cbn; lia). rewrite G1. cbn [btype blen bcap]. repeat split; lia.
  - cbv beta iota delta [Z.eqb Pos.eqb orb]. cbv iota. rewrite R by lia. rewrite wrap_id by (cbn; lia). rewrite G1. cbn [btype blen bcap]. repeat split; lia.
  - destruct H as [-> | ->]; cbv beta iota delta [Z.eqb Pos.eqb]; cbv iota; rewrite R by lia; rewrite G1; cbn [btype blen bcap]; repeat split; lia.
  - unfold local in *. cbn [deliver]. rewrite R by lia. destruct Z as [Z1 Z2].
    assert (E : from_bind (F := F) mktime localtime junk (mkBind (btype b) (Otime (t_year (localtime (fst k)) + 1900) (t_mon (localtime (fst k)) + 1) (t_mday (localtime (fst k)))
      (t_hour (localtime (fst k))) (t_min (localtime (fst k))) (t_sec (localtime (fst k))) (snd k)) (bcap b) 40 (Some false)) = Ok (Some (Stimestamp k))).
    { unfold from_bind. cbn [bnull btype bobj]. rewrite G1. destruct H as [-> | ->]; cbv beta iota delta [Z.eqb Pos.eqb orb]; cbv iota; now rewrite back. }
    rewrite E. cbn [btype blen bcap]. repeat split; auto; lia.
  - assert (E : forall cap, Z.of_nat (length s) <= cap ->
      from_bind (F := F) mktime localtime junk (mkBind (btype b) (Obytes (firstn (Z.to_nat cap) s)) cap (Z.of_nat (length s)) (Some false)) = Ok (Some (Sstring s))).
    { intros cap Hc. rewrite firstn_all2 by lia. unfold from_bind. cbn [bnull btype bobj blen]. rewrite G1. rewrite Z.leb_refl, Nat2Z.id, firstn_all.
      destruct H as [-> | ->]; reflexivity. }
    unfold refetch. cbn [bcap blen btype bobj bnull]. destruct (Z.ltb_spec (bcap b) (Z.of_nat (length s))) as [L|L].
    + cbn [deliver fst bcap btype]. rewrite E by lia. cbn [btype blen bcap]. repeat split; auto; try lia; discriminate.
    + rewrite E by lia. cbn [btype blen bcap]. repeat split; auto; lia.
Qed.
Lemma row_ok junk cs ds vs bs : Forall2 (fun c b => good c b) cs bs -> Forall2 (fun cd v => stands localtime (fst cd) (snd cd) v) (combine cs ds) vs ->
  length ds = length cs -> Forall (zone_ok mktime localtime junk) vs ->
  let '(bs', x) := deliver_all cs ds bs in
  Forall2 (fun cv b => settled junk (fst cv) (snd cv) b) (combine cs vs) (refetch_all cs ds bs') /\
  (x = false -> Forall2 (fun cv b => settled junk (fst cv) (snd cv) b) (combine cs vs) bs').
Proof.
  intros G. revert ds vs. induction G as [|c b cs bs G _ IH]; intros ds vs H L Z.
  - destruct ds; [|discriminate L]. cbn [deliver_all refetch_all combine]. split; constructor.
  - destruct ds as [|d ds]; [discriminate L|]. cbn [combine] in H. inversion H as [|? v ? vs' H1 H2]; subst. inversion Z as [|? ? Z1 Z2]; subst.
    injection L as L. specialize (IH ds vs' H2 L Z2). cbn [deliver_all]. pose proof (deliver_stands junk c d v b G H1 Z1) as D. cbn [fst snd] in *.
    destruct (deliver c d b) as [b' x]. destruct (deliver_all cs ds bs) as [bs' y]. cbn [refetch_all combine]. destruct D as [D1 D2], IH as [I1 I2]. split.
    + constructor; assumption.
    + intros E. apply Bool.orb_false_iff in E. destruct E as [-> ->]. constructor; [now apply D2|now apply I2].
Qed.
Lemma settled_split junk cs vs bs : length vs = length cs -> Forall2 (fun cv b => settled junk (fst cv) (snd cv) b) (combine cs vs) bs ->
  Forall2 good cs bs /\ mapM (from_bind mktime localtime junk) bs = Ok vs.
Proof.
  revert vs bs. induction cs as [|c cs IH]; intros vs bs L H.
  - destruct vs; [|discriminate L]. cbn [combine] in H. inversion H; subst. split; [constructor|reflexivity].
  - destruct vs as [|v vs]; [discriminate L|]. cbn [combine] in H. inversion H as [|? b ? bs' H1 H2]; subst. injection L as L.
    destruct (IH vs bs' L H2) as [I1 I2]. destruct H1 as [H1 H1']. cbn [fst snd] in *. split; [now constructor|]. cbn [mapM]. rewrite H1'. cbn [obind]. now rewrite I2.
Qed.
Lemma Forall2_len {A B} (R : A -> B -> Prop) l r : Forall2 R l r -> length l = length r.
Proof. induction 1; cbn; congruence. Qed.
Lemma fresh_good cs : Forall2 good cs (map (@fresh F) cs).
Proof. induction cs as [|c cs IH]; cbn [map]; constructor; [|exact IH]. unfold good, fresh, INIT_BUF_SIZE. cbn. lia. Qed.
Lemma state_good cs st : (st = [] \/ Forall2 good cs st) -> Forall2 good cs (match st with [] => map (@fresh F) cs | _ => st end).
Proof. intros [-> | H]; [apply fresh_good|]. destruct H; [constructor|now constructor]. Qed.
Lemma fetch_one junk cs (ds : list (datum F)) vs st : (st = [] \/ Forall2 good cs st) -> stands_row localtime cs ds vs -> Forall (zone_ok mktime localtime junk) vs ->
  exists st', fetch_row mktime localtime junk cs st (Row ds) = Ok (st', Some vs) /\ Forall2 good cs st'.
Proof.
  intros G [L H] Z. unfold fetch_row. apply state_good in G. set (bs := match st with [] => _ | _ => _ end) in *. clearbody bs.
  pose proof (row_ok junk cs ds vs bs G H L Z) as R. destruct (deliver_all cs ds bs) as [bs' x].
  assert (Lv : length vs = length cs). { apply Forall2_len in H. rewrite combine_length, L, Nat.min_id in H. now symmetry. }
  destruct R as [R1 R2]. destruct x.
  - apply settled_split in R1; [|exact Lv]. destruct R1 as [R1 R1']. rewrite R1'. cbn [obind]. eexists. split; [reflexivity|exact R1].
  - specialize (R2 eq_refl). apply settled_split in R2; [|exact Lv]. destruct R2 as [R2 R2']. rewrite R2'. cbn [obind]. eexists. split; [reflexivity|exact R2].
Qed.
Lemma fetch_ok junk cs : forall rows vss st, (st = [] \/ Forall2 good cs st) -> Forall2 (stands_row localtime cs) rows vss -> Forall (Forall (zone_ok mktime localtime junk)) vss ->
  fetch_all mktime localtime junk cs st rows = Ok vss.
Proof.
  intros rows vss st G H. revert st G. induction H as [|ds vs rows vss H1 H2 IH]; intros st G Z; cbn [fetch_all].
  - reflexivity.
  - inversion Z as [|? ? Z1 Z2]; subst. destruct (fetch_one junk cs ds vs st G H1 Z1) as (st' & -> & G'). cbn [obind snd fst].
    rewrite IH; auto.
Qed.
(** * No booleans *)
Lemma never_bool junk b x : from_bind mktime localtime junk b <> Ok (Some (@Sbool F x)).
Proof.
  unfold from_bind. destruct (bnull b) as [[|]|]; try discriminate.
  repeat match goal with |- context [if ?c then _ else _] => destruct c | |- context [match ?o with _ => _ end] => destruct o end; discriminate.
Qed.
End proof.
