(** The proc files, read. *)
From Verif Require Import Common CommonLemmas NumText_Model NumText_Proof Cast_Spec Cast_Model Cast_Proof Config_Model Double_Spec Double_Model Double_Proof
  JsonComplete_Proof Sysstat_Spec Sysstat_Model.
Local Open Scope Z_scope.

Lemma begins_starts p : forall s, begins p s = true <-> starts p s.
Proof.
  unfold starts. induction p as [|c p IH]; intros s; cbn [begins app]; [split; [now exists s|reflexivity]|].
  destruct s as [|d s]; [split; [discriminate|intros [r E]; discriminate]|]. rewrite andb_true_iff, IH, Z.eqb_eq. split.
  - intros [-> [r ->]]. now exists r.
  - intros [r E]. injection E as -> ->. eauto.
Qed.
Lemma begins_app p s x rest : ~ In x p -> begins p (s ++ x :: rest) = begins p s.
Proof.
  revert s. induction p as [|c p IH]; intros s H; [reflexivity|]. cbn [In] in H. destruct s as [|d s]; cbn [app begins].
  - rewrite (proj2 (Z.eqb_neq c x)); [reflexivity|]. intros ->. tauto.
  - now rewrite IH by tauto.
Qed.
Lemma word_ok ws w rest : Forall blank ws -> w <> [] -> plain w -> match rest with [] => True | c :: _ => blank c end -> word (ws ++ w ++ rest) = (w, rest).
Proof.
  intros Hws Hn Hw Hr. unfold word. rewrite skip_ws_app; [|exact Hws|].
  - apply spanb_app.
    + apply Forall_forall. intros c Hc. unfold plain in Hw. rewrite Forall_forall in Hw. specialize (Hw c Hc). rewrite blank_isspace in Hw. now destruct (isspace c).
    + intros c r E. rewrite E in Hr. apply blank_isspace in Hr. now rewrite Hr.
  - destruct w as [|c w]; [congruence|]. cbn. exact (Forall_inv Hw).
Qed.
Lemma digits_plain t : Forall digit t -> plain t.
Proof. apply Forall_impl. intros c H. now apply digit_not. Qed.
Lemma ato_numeral bits n t : numeral n t -> n < 2 ^ (bits - 1) -> ato bits t = Ok n.
Proof.
  intros (Hn & Hd & Hv & _) B. unfold ato. rewrite (scan_leading t false n []).
  - assert (0 <= n). { rewrite <- Hv, decimal_dec_val. apply dec_val_bound. revert Hd. apply Forall_impl. intros c H. now apply digit_isdigit. }
    rewrite (proj2 (Z.leb_le _ _)), (proj2 (Z.ltb_lt _ _)); [reflexivity|exact B|]. pose proof (Z.pow_nonneg 2 (bits - 1)). lia.
  - exists [], [], t. cbn [app]. rewrite app_nil_r. repeat split; auto.
Qed.
Lemma ato_big bits n t : numeral n t -> 2 ^ (bits - 1) <= n -> ato bits t = UB.
Proof.
  intros (Hn & Hd & Hv & _) B. unfold ato. rewrite (scan_leading t false n []).
  - rewrite (proj2 (Z.ltb_ge n _) B), andb_false_r. reflexivity.
  - exists [], [], t. cbn [app]. rewrite app_nil_r. repeat split; auto.
Qed.
Lemma field_words f l : plain (fname f) -> field_line f l -> exists t s1 s2, numeral (fkib f) t /\
  word l = (fname f ++ [58], s1) /\ word s1 = (t, s2) /\ word s2 = (str "kB", []).
Proof.
  intros Hp (t & Ht & ->). exists t, (repeat 32 (S (fpad f)) ++ t ++ str " kB"), (str " kB"). split; [exact Ht|].
  pose proof Ht as (Hn & Hd & _). split; [|split; [|reflexivity]].
  - replace (fname f ++ [58] ++ repeat 32 (S (fpad f)) ++ t ++ str " kB") with ([] ++ (fname f ++ [58]) ++ repeat 32 (S (fpad f)) ++ t ++ str " kB") by (cbn [app]; now rewrite <- app_assoc).
    apply word_ok; [constructor|now destruct (fname f)| |cbn; unfold blank; cbn; auto].
    apply Forall_app. split; [exact Hp|]. constructor; [unfold blank; cbn; lia|constructor].
  - apply word_ok; [|exact Hn|now apply digits_plain|cbn; unfold blank; cbn; auto]. apply Forall_forall. intros c Hc. apply repeat_spec in Hc. subst c. unfold blank. cbn. auto.
Qed.
Lemma read_match name bits f l old : ~ In 58 name -> plain (fname f) -> field_line f l -> starts name (fname f) -> 2 ^ (bits - 1) <= 2 ^ 63 ->
  read_line name bits l old = if fkib f <? 2 ^ (bits - 1) then Ok (1000 * fkib f mod 2 ^ 64) else UB.
Proof.
  intros H58 Hp Hl Hs Hb. destruct (field_words f l Hp Hl) as (t & s1 & s2 & Ht & W1 & W2 & W3). destruct Hl as (t' & _ & ->).
  unfold read_line. change ([58] ++ ?x) with (58 :: x). rewrite begins_app, (proj2 (begins_starts _ _) Hs) by exact H58.
  change ([58] ++ ?x) with (58 :: x) in W1. rewrite W1, W2, W3. pose proof Ht as (Hn & Hd & Hv & _). destruct t as [|c t]; [congruence|].
  destruct (Z.ltb_spec (fkib f) (2 ^ (bits - 1))) as [B|B].
  - rewrite (ato_numeral _ _ _ Ht B). cbn [obind]. destruct (list_eq_dec Z.eq_dec (str "kB") (str "kB")) as [_|N]; [|congruence].
    rewrite Zmult_mod_idemp_l. now rewrite Z.mul_comm.
  - now rewrite (ato_big _ _ _ Ht B).
Qed.
Lemma read_other name bits f l old : ~ In 58 name -> field_line f l -> ~ starts name (fname f) -> read_line name bits l old = Ok old.
Proof.
  intros H58 (t' & _ & ->) Hs. unfold read_line. change ([58] ++ ?x) with (58 :: x). rewrite begins_app by exact H58.
  destruct (begins name (fname f)) eqn:E; [|reflexivity]. now apply begins_starts in E.
Qed.
Lemma getlines_line l : forall acc t, ~ In 10 l -> getlines acc (l ++ 10 :: t) = (rev acc ++ l) :: getlines [] t.
Proof.
  induction l as [|c l IH]; intros acc t H; cbn [app getlines].
  - change (10 =? 10) with true. cbv iota. now rewrite app_nil_r.
  - cbn [In] in H. rewrite (proj2 (Z.eqb_neq c 10)) by tauto. rewrite IH by tauto. cbn [rev]. now rewrite <- app_assoc.
Qed.
Lemma field_one_line f l : plain (fname f) -> field_line f l -> ~ In 10 l.
Proof.
  intros Hp (t & (_ & Hd & _) & ->) H. unfold plain in Hp. rewrite Forall_forall in Hp. rewrite Forall_forall in Hd.
  apply in_app_or in H. destruct H as [H|H]; [apply (Hp _ H); unfold blank; cbn; auto|].
  apply in_app_or in H. destruct H as [[H|[]]|H]; [discriminate|]. apply in_app_or in H. destruct H as [H|H]; [apply repeat_spec in H; discriminate|].
  apply in_app_or in H. destruct H as [H|H]; [specialize (Hd _ H); unfold digit in Hd; lia|]. destruct H as [H|[H|[H|[]]]]; discriminate H.
Qed.
(** The lines are the fields' *)
Lemma meminfo_lines fs t : meminfo fs t -> Forall2 (fun f l => plain (fname f) /\ field_line f l) fs (getlines [] t).
Proof.
  induction 1 as [|f l fs t Hp Hl _ IH]; [constructor|]. change ([10] ++ t) with (10 :: t). rewrite getlines_line by (now apply (field_one_line f)).
  constructor; [now split|exact IH].
Qed.
Definition pl (f : field) (l : list Z) : Prop := plain (fname f) /\ field_line f l.
Lemma meminfo_nonneg fs t f : meminfo fs t -> In f fs -> 0 <= fkib f.
Proof.
  induction 1 as [|g l fs t Hp Hl _ IH]; intros H; [destruct H|]. destruct H as [<-|H]; [|now apply IH].
  destruct Hl as (x & (_ & Hd & Hv & _) & _). rewrite <- Hv, decimal_dec_val. apply dec_val_bound. revert Hd. apply Forall_impl. intros c H. now apply digit_isdigit.
Qed.
(** One pass over the lines for one name *)
Fixpoint pass (name : list Z) (bits : Z) (ls : list (list Z)) (old : Z) : outcome Z :=
  match ls with [] => Ok old | s :: ls => let* m := read_line name bits s old in pass name bits ls m end.
Lemma pass_none name bits : ~ In 58 name -> forall fs ls, Forall2 pl fs ls -> Forall (fun f => ~ starts name (fname f)) fs -> forall old,
  pass name bits ls old = Ok old.
Proof.
  intros H58. induction 1 as [|f l fs ls [Hp Hl] _ IH]; intros Hf old; [reflexivity|]. cbn [pass].
  rewrite (read_other _ _ f) by (assumption || exact (Forall_inv Hf)). apply IH. exact (Forall_inv_tail Hf).
Qed.
Lemma pass_app name bits a : forall b old, pass name bits (a ++ b) old = let* m := pass name bits a old in pass name bits b m.
Proof. induction a as [|s a IH]; intros b old; [reflexivity|]. cbn [app pass]. destruct (read_line name bits s old); cbn [obind]; [apply IH|reflexivity..]. Qed.
Lemma pass_value name bits fs ls k : ~ In 58 name -> 0 < bits <= 64 -> Forall2 pl fs ls -> value name fs k ->
  pass name bits ls 0 = if k <? 2 ^ (bits - 1) then Ok (1000 * k mod 2 ^ 64) else UB.
Proof.
  intros H58 Hb F V. assert (0 < 2 ^ (bits - 1)) by (apply Z.pow_pos_nonneg; lia). destruct V as [fs Hn|a f b Ha Hf Hb'].
  - rewrite (pass_none _ _ H58 fs) by assumption. rewrite (proj2 (Z.ltb_lt _ _)) by assumption. reflexivity.
  - apply Forall2_app_inv_l in F. destruct F as (la & lb & Fa & Fb & ->). inversion Fb as [|? l ? lb' [Hp Hl] Fb' E1 E2]; subst.
    rewrite pass_app, (pass_none _ _ H58 a) by assumption. cbn [obind pass]. rewrite (read_match _ _ f).
    + destruct (fkib f <? 2 ^ (bits - 1)); [|reflexivity]. cbn [obind]. now apply (pass_none _ _ H58 b).
    + exact H58.
    + exact Hp.
    + exact Hl.
    + exists []. now rewrite app_nil_r.
    + apply Z.pow_le_mono_r; lia.
Qed.
Lemma total_pass ls : forall m, total_lines ls m = pass (str "MemTotal") 64 ls m.
Proof. induction ls as [|s ls IH]; intros m; [reflexivity|]. cbn [total_lines pass]. destruct (read_line _ _ s m); cbn [obind]; [apply IH|reflexivity..]. Qed.
Lemma read_not_throw name bits s old : read_line name bits s old = UB \/ exists v, read_line name bits s old = Ok v.
Proof.
  unfold read_line. destruct (begins name s); [|eauto]. destruct (word s) as [? s1]. destruct (word s1) as [mem s2]. destruct (word s2) as [kb ?].
  destruct mem as [|c mem]; [eauto|]. unfold ato. destruct (scan (c :: mem)) as [[[neg m] ?]|]; cbn [obind]; [|eauto].
  destruct (_ && _); cbn [obind]; eauto.
Qed.
Lemma pass_not_throw name bits ls : forall old, pass name bits ls old = UB \/ exists v, pass name bits ls old = Ok v.
Proof.
  induction ls as [|s ls IH]; intros old; cbn [pass]; [eauto|]. destruct (read_not_throw name bits s old) as [->|[v ->]]; cbn [obind]; [auto|apply IH].
Qed.
Lemma free_pass ls : forall f c, free_lines ls f c =
  match pass (str "MemFree") 32 ls f, pass (str "Cached") 32 ls c with Ok f, Ok c => Ok ((f + c) mod 2 ^ 64) | _, _ => UB end.
Proof.
  induction ls as [|s ls IH]; intros f c; [reflexivity|]. cbn [free_lines pass].
  destruct (read_not_throw (str "MemFree") 32 s f) as [->|[v ->]]; cbn [obind]; [reflexivity|].
  destruct (read_not_throw (str "Cached") 32 s c) as [->|[u ->]]; cbn [obind]; [|apply IH].
  now destruct (pass (str "MemFree") 32 ls v).
Qed.
Lemma load_ok a b t d : loadavg a b t -> get_loadavg t = DOk d <-> nearest false (100 * a + b) 100 d /\ no_underflow (100 * a + b) 100 d.
Proof.
  intros (ta & d1 & d2 & rest & (Hn & Hd & Hv & Hz) & H1 & H2 & Hb & -> & Hr).
  assert (W : word (ta ++ [46; d1; d2] ++ rest) = (ta ++ [46; d1; d2], rest)).
  { rewrite app_assoc. change (word ([] ++ (ta ++ [46; d1; d2]) ++ rest) = (ta ++ [46; d1; d2], rest)). apply word_ok; [constructor|now destruct ta| |exact Hr].
    apply Forall_app. split; [now apply digits_plain|]. constructor; [unfold blank; cbn; lia|]. apply digits_plain. auto. }
  unfold get_loadavg. rewrite W. cbn [fst].
  assert (E : strtod (ta ++ [46; d1; d2]) = to_double false (100 * a + b) 100).
  { destruct ta as [|c ta]; [congruence|]. pose proof (Forall_inv Hd) as Hc. unfold strtod.
    assert (E1 : match (c :: ta) ++ [46; d1; d2] with 45 :: r => (true, r) | _ => (false, (c :: ta) ++ [46; d1; d2]) end = (false, (c :: ta) ++ [46; d1; d2])).
    { cbn [app]. apply no_sign. unfold digit in Hc. lia. }
    rewrite E1, span_digits; [|exact Hd|cbn; unfold digit; lia]. cbn [app]. cbv iota.
    replace (spanb isdigit [d1; d2]) with ([d1; d2], @nil Z) by (symmetry; apply (span_digits [d1; d2] []); auto).
    cbn [app]. unfold exp_part, dec_double. cbn [length]. change (0 <=? 0 - Z.of_nat 2) with false. cbv iota. change (10 ^ (- (0 - Z.of_nat 2))) with 100. f_equal.
    change (c :: ta ++ [d1; d2]) with ((c :: ta) ++ [d1; d2]). rewrite <- decimal_dec_val. unfold decimal in *. rewrite fold_left_app. rewrite Hv.
    rewrite <- Hb. cbn [fold_left]. lia. }
  rewrite E. apply to_double_spec; [|lia]. assert (0 <= a). { rewrite <- Hv, decimal_dec_val. apply dec_val_bound. revert Hd. apply Forall_impl. intros c H. now apply digit_isdigit. }
  rewrite <- Hb. unfold decimal, digit in *. cbn [fold_left]. lia.
Qed.
