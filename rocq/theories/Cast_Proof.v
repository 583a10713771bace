(** Numbers through text. *)
From Verif Require Import Common CommonLemmas NumText_Model NumText_Proof Cast_Spec Cast_Model.
Local Open Scope Z_scope.

Lemma blank_isspace c : blank c <-> isspace c = true.
Proof. unfold blank, isspace. cbn [In]. lia. Qed.
Lemma digit_isdigit c : digit c <-> isdigit c = true.
Proof. unfold digit, isdigit. lia. Qed.
Lemma decimal_dec_val ds : decimal ds = dec_val ds.
Proof.
  unfold decimal, dec_val, digits_val. generalize 0. induction ds as [|c ds IH]; intros a; [reflexivity|]. cbn [map fold_left].
  rewrite IH. f_equal. lia.
Qed.
Lemma skip_ws_app ws s : Forall blank ws -> (match s with [] => True | c :: _ => ~ blank c end) -> skip_ws (ws ++ s) = s.
Proof.
  induction 1 as [|c ws Hc Hw IH]; intros Hs; cbn [app].
  - destruct s as [|c s]; [reflexivity|]. cbn [skip_ws]. destruct (isspace c) eqn:E; [now apply blank_isspace in E|reflexivity].
  - cbn [skip_ws]. rewrite (proj1 (blank_isspace c) Hc). now apply IH.
Qed.
Lemma skip_ws_split s : exists ws, s = ws ++ skip_ws s /\ Forall blank ws /\ match skip_ws s with [] => True | c :: _ => ~ blank c end.
Proof.
  induction s as [|c s (ws & E & Hw & Hn)]; [now exists []|]. cbn [skip_ws]. destruct (isspace c) eqn:Ec.
  - exists (c :: ws). split; [cbn [app]; now rewrite <- E|]. split; [constructor; [now apply blank_isspace|exact Hw]|exact Hn].
  - exists []. split; [reflexivity|]. split; [constructor|]. rewrite blank_isspace, Ec. discriminate.
Qed.
Lemma span_digits ds rest : Forall digit ds -> (match rest with [] => True | c :: _ => ~ digit c end) -> spanb isdigit (ds ++ rest) = (ds, rest).
Proof.
  induction 1 as [|c ds Hc Hd IH]; intros Hr; cbn [app].
  - destruct rest as [|c r]; [reflexivity|]. cbn [spanb]. destruct (isdigit c) eqn:E; [now apply digit_isdigit in E|reflexivity].
  - cbn [spanb]. rewrite (proj1 (digit_isdigit c) Hc), (IH Hr). reflexivity.
Qed.
Lemma span_split s : forall ds rest, spanb isdigit s = (ds, rest) -> s = ds ++ rest /\ Forall digit ds /\ match rest with [] => True | c :: _ => ~ digit c end.
Proof.
  induction s as [|c s IH]; intros ds rest; cbn [spanb]; [intros [= <- <-]; auto|].
  destruct (isdigit c) eqn:E.
  - destruct (spanb isdigit s) as [a b]. intros [= <- <-]. destruct (IH a b eq_refl) as (-> & H1 & H2). split; [reflexivity|].
    split; [constructor; [now apply digit_isdigit|exact H1]|exact H2].
  - intros [= <- <-]. split; [reflexivity|]. split; [constructor|]. rewrite digit_isdigit, E. discriminate.
Qed.
Lemma digit_not c : digit c -> ~ blank c /\ c <> 45 /\ c <> 43.
Proof. unfold digit, blank. cbn [In]. lia. Qed.

(** scan finds exactly the leading integer. *)
Lemma scan_leading s neg m rest : leading s neg m rest -> scan s = Some (neg, m, rest).
Proof.
  intros (ws & sign & ds & -> & Hw & Hs & Hne & Hd & Hm & Hr). unfold scan.
  assert (Hd1 : exists d ds', ds = d :: ds' /\ digit d).
  { destruct ds as [|d ds']; [congruence|]. inversion Hd; eauto. }
  destruct Hd1 as (d & ds' & Eds & Hd1). pose proof (digit_not d Hd1) as Hdn.
  rewrite skip_ws_app; [|exact Hw|].
  - destruct neg.
    + subst sign. cbn [app]. change (45 =? 45) with true. cbv iota beta. rewrite span_digits by assumption.
      rewrite Eds at 1. now rewrite <- Hm, decimal_dec_val.
    + destruct Hs as [-> | ->]; cbn [app].
      * assert (E : match ds ++ rest with c :: r => if c =? 45 then (true, r) else if c =? 43 then (false, r) else (false, ds ++ rest)
                    | [] => (false, ds ++ rest) end = (false, ds ++ rest)).
        { rewrite Eds. cbn [app]. now rewrite (proj2 (Z.eqb_neq d 45)), (proj2 (Z.eqb_neq d 43)) by tauto. }
        rewrite E, span_digits by assumption. rewrite Eds at 1. now rewrite <- Hm, decimal_dec_val.
      * change (43 =? 45) with false. change (43 =? 43) with true. cbv iota beta. rewrite span_digits by assumption.
        rewrite Eds at 1. now rewrite <- Hm, decimal_dec_val.
  - destruct neg; [subst sign|destruct Hs as [-> | ->]]; cbn [app]; [unfold blank; cbn [In]; lia| |unfold blank; cbn [In]; lia].
    rewrite Eds. cbn [app]. tauto.
Qed.
Lemma leading_scan s neg m rest : scan s = Some (neg, m, rest) -> leading s neg m rest.
Proof.
  unfold scan. destruct (skip_ws_split s) as (ws & Es & Hw & Hn).
  set (t := skip_ws s) in *. clearbody t. subst s.
  assert (G : forall (b : bool) (u : list Z), (exists sign, t = sign ++ u /\ if b then sign = [45] else sign = [] \/ sign = [43]) ->
    (let (ds, rest) := spanb isdigit u in match ds with [] => None | _ => Some (b, dec_val ds, rest) end) = Some (neg, m, rest) ->
    leading (ws ++ t) neg m rest).
  { intros b u (sign & -> & Hs). destruct (spanb isdigit u) as [ds r] eqn:E. apply span_split in E as (-> & Hd & Hr).
    intros H. destruct ds as [|d ds]; [discriminate|]. injection H as <- <- <-.
    exists ws, sign, (d :: ds). split; [reflexivity|]. split; [exact Hw|]. split; [exact Hs|]. split; [discriminate|]. split; [exact Hd|].
    split; [apply decimal_dec_val|exact Hr]. }
  destruct t as [|c r].
  - apply (G false []). exists []. auto.
  - destruct (Z.eqb_spec c 45) as [->|_]; [apply (G true r); exists [45]; auto|].
    destruct (Z.eqb_spec c 43) as [->|_]; [apply (G false r); exists [43]; auto|]. apply (G false (c :: r)). exists []. auto.
Qed.
Lemma decimal_nonneg ds : Forall digit ds -> 0 <= decimal ds.
Proof.
  unfold decimal. intros H. assert (G : forall a, 0 <= a -> 0 <= fold_left (fun a c => 10 * a + (c - 48)) ds a); [|apply G; lia].
  induction H as [|c ds Hc _ IH]; intros a Ha; cbn [fold_left]; [exact Ha|]. apply IH. unfold digit in Hc. lia.
Qed.
Lemma leading_nonneg s neg m rest : leading s neg m rest -> 0 <= m.
Proof. intros (ws & sign & ds & _ & _ & _ & _ & Hd & <- & _). now apply decimal_nonneg. Qed.
Lemma leading_unique s n1 m1 r1 n2 m2 r2 : leading s n1 m1 r1 -> leading s n2 m2 r2 -> n1 = n2 /\ m1 = m2 /\ r1 = r2.
Proof. intros H1%scan_leading H2%scan_leading. rewrite H1 in H2. injection H2 as -> -> ->. auto. Qed.

Lemma leading_show n rest : (match rest with [] => True | c :: _ => ~ digit c end) -> leading (show_int n ++ rest) (n <? 0) (Z.abs n) rest.
Proof.
  intros Hr. unfold show_int. destruct (Z.ltb_spec n 0) as [H|H].
  - exists [], [45], (dec_text (- n)). split; [reflexivity|]. split; [constructor|]. split; [reflexivity|].
    split; [apply dec_text_nonempty; lia|]. split.
    + eapply Forall_impl; [|apply dec_text_digits; lia]. intros c. apply digit_isdigit.
    + split; [|exact Hr]. rewrite decimal_dec_val, dec_text_val by lia. lia.
  - exists [], [], (dec_text n). split; [reflexivity|]. split; [constructor|]. split; [auto|].
    split; [apply dec_text_nonempty; lia|]. split.
    + eapply Forall_impl; [|apply dec_text_digits; lia]. intros c. apply digit_isdigit.
    + split; [|exact Hr]. rewrite decimal_dec_val, dec_text_val by lia. lia.
Qed.
Lemma scan_show n : scan (show_int n) = Some (n <? 0, Z.abs n, []).
Proof. pose proof (leading_show n [] I) as H. rewrite app_nil_r in H. now apply scan_leading. Qed.

Lemma extract_show t n : t <> TChar -> lo t <= n <= hi t -> extract t (show_int n) = Some n.
Proof.
  intros Ht Hn. destruct t as [| |s b]; [congruence| |]; cbn [extract].
  - cbn [lo hi] in Hn. rewrite scan_show. destruct (Z.ltb_spec n 0); [lia|]. rewrite Z.abs_eq by lia.
    replace ((n =? 0) || (n =? 1)) with true by lia. reflexivity.
  - destruct s; rewrite scan_show; destruct (Z.ltb_spec n 0).
    + replace (- Z.abs n) with n by lia. replace ((lo (TNum true b) <=? n) && (n <=? hi (TNum true b))) with true by lia. reflexivity.
    + replace (Z.abs n) with n by lia. replace ((lo (TNum true b) <=? n) && (n <=? hi (TNum true b))) with true by lia. reflexivity.
    + cbn [lo] in Hn. lia.
    + replace (Z.abs n) with n by lia. replace (n <=? hi (TNum false b)) with true by lia. reflexivity.
Qed.
