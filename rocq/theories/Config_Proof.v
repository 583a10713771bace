(** Parsing lines and files. *)
From Verif Require Import Common CommonLemmas Cast_Model Cgi_Model Cgi_Proof Http_Model Ipv4_Model Config_Spec Config_Model.
Local Open Scope Z_scope.

Lemma blank_isspace c : blank c <-> Cast_Model.isspace c = true.
Proof. unfold blank, Cast_Model.isspace. cbn [In]. lia. Qed.
Lemma skip_blanks w s : Forall blank w -> skip_ws (w ++ s) = skip_ws s.
Proof. induction 1 as [|c w Hc _ IH]; [reflexivity|]. cbn [app skip_ws]. now rewrite (proj1 (blank_isspace c) Hc). Qed.
Lemma skip_stop c s : ~ blank c -> skip_ws (c :: s) = c :: s.
Proof. intros H. cbn [skip_ws]. rewrite blank_isspace in H. destruct (Cast_Model.isspace c); [exfalso; now apply H|reflexivity]. Qed.
Lemma skip_split s : exists w, s = w ++ skip_ws s /\ Forall blank w /\ match skip_ws s with [] => True | c :: _ => ~ blank c end.
Proof.
  induction s as [|c s (w & E & Hw & Hn)]; [now exists []|]. cbn [skip_ws]. destruct (Cast_Model.isspace c) eqn:Ec.
  - exists (c :: w). split; [cbn [app]; now rewrite <- E|]. split; [constructor; [now apply blank_isspace|exact Hw]|exact Hn].
  - exists []. split; [reflexivity|]. split; [constructor|]. rewrite blank_isspace, Ec. discriminate.
Qed.
Lemma skip_all w : Forall blank w -> skip_ws w = [].
Proof. intros H. rewrite <- (app_nil_r w), skip_blanks by exact H. reflexivity. Qed.

Lemma lead_app w s : Forall blank w -> match s with [] => True | c :: _ => ~ blank c end -> lead (w ++ s) = length w.
Proof.
  intros H Hs. induction H as [|c w Hc _ IH]; cbn [app].
  - destruct s as [|c s]; [reflexivity|]. cbn [lead length]. rewrite blank_isspace in Hs. destruct (Cast_Model.isspace c); [exfalso; now apply Hs|reflexivity].
  - cbn [lead length]. now rewrite (proj1 (blank_isspace c) Hc), IH.
Qed.
Lemma last_snoc (s : list Z) c d : last (s ++ [c]) d = c.
Proof. induction s as [|a s IH]; [reflexivity|]. cbn [app last]. rewrite IH. now destruct s. Qed.
Lemma trim_trimmed w t w' : Forall blank w -> Forall blank w' -> trimmed t -> trim (w ++ t ++ w') = t.
Proof.
  intros Hw Hw' Ht. unfold trim. destruct t as [|c t'].
  - cbn [app]. assert (Hww : Forall blank (w ++ w')) by (apply Forall_app; auto).
    assert (L1 : lead (w ++ w') = length (w ++ w')) by (rewrite <- (app_nil_r (w ++ w')) at 1; now apply lead_app).
    rewrite L1. destruct (Z.ltb_spec (Z.of_nat (length (w ++ w')) - 1 - Z.of_nat (lead (rev (w ++ w')))) (Z.of_nat (length (w ++ w')))); [reflexivity|lia].
  - set (t := c :: t') in *. destruct Ht as [Hc Hl]. fold t in Hl.
    assert (L1 : lead (w ++ t ++ w') = length w) by (apply lead_app; [exact Hw|exact Hc]).
    assert (L2 : lead (rev (w ++ t ++ w')) = length w').
    { rewrite !rev_app_distr, <- app_assoc. rewrite lead_app; [apply rev_length|now apply Forall_rev|].
      destruct (exists_last (l := t)) as (u & d & Eu); [discriminate|]. rewrite Eu in *. rewrite last_snoc in Hl. rewrite rev_app_distr. cbn [rev app]. exact Hl. }
    rewrite L1, L2. rewrite !app_length. assert (1 <= length t)%nat by (unfold t; cbn; lia).
    destruct (Z.ltb_spec (Z.of_nat (length w + (length t + length w')) - 1 - Z.of_nat (length w')) (Z.of_nat (length w))); [lia|].
    rewrite Nat2Z.id. replace (Z.to_nat (Z.of_nat (length w + (length t + length w')) - 1 - Z.of_nat (length w') - Z.of_nat (length w) + 1)) with (length t) by lia.
    rewrite skipn_app, skipn_all, Nat.sub_diag. cbn [app skipn]. rewrite firstn_app, Nat.sub_diag, firstn_all. cbn [firstn]. apply app_nil_r.
Qed.
(** Every text is blanks around a trimmed text. *)
Lemma trim_split s : exists w t w', s = w ++ t ++ w' /\ Forall blank w /\ Forall blank w' /\ trimmed t.
Proof.
  destruct (skip_split s) as (w & E & Hw & Hn). destruct (skip_split (rev (skip_ws s))) as (v & E2 & Hv & Hn2).
  set (u := skip_ws (rev (skip_ws s))) in *.
  exists w, (rev u), (rev v). split.
  - rewrite E at 1. f_equal. rewrite <- (rev_involutive (skip_ws s)), E2. apply rev_app_distr.
  - split; [exact Hw|]. split; [now apply Forall_rev|]. destruct (rev u) as [|c t] eqn:Eu; [exact I|].
    assert (Es : skip_ws s = (c :: t) ++ rev v) by (rewrite <- Eu, <- rev_app_distr, <- E2; symmetry; apply rev_involutive).
    rewrite Es in Hn. split; [exact Hn|]. assert (Er : u = rev (c :: t)) by (rewrite <- Eu; symmetry; apply rev_involutive).
    rewrite Er in Hn2. destruct (exists_last (l := c :: t)) as (x & d & Ex); [discriminate|]. rewrite Ex in *. rewrite rev_app_distr in Hn2.
    cbn [rev app] in Hn2. now rewrite last_snoc.
Qed.
Lemma nth_last (v : list Z) c : nth (length (v ++ [c]) - 1) (v ++ [c]) 0 = c.
Proof. rewrite app_length. cbn [length]. rewrite app_nth2 by lia. replace (length v + 1 - 1 - length v)%nat with 0%nat by lia. reflexivity. Qed.
Lemma unquote_quoted v : unquote (34 :: v ++ [34]) = v.
Proof.
  unfold unquote. change (34 :: v ++ [34]) with ((34 :: v) ++ [34]). rewrite nth_last. rewrite app_length. cbn [nth app length].
  replace (2 <=? Z.of_nat (S (length v) + 1)) with true by lia. cbn [andb Z.eqb Pos.eqb skipn].
  replace (S (length v) + 1 - 2)%nat with (length v) by lia. rewrite firstn_app, Nat.sub_diag, firstn_all. cbn [firstn]. apply app_nil_r.
Qed.
Lemma unquote_plain v : ~ quoted v -> unquote v = v.
Proof.
  intros H. unfold unquote. destruct ((2 <=? Z.of_nat (length v)) && (nth 0 v 0 =? 34) && (nth (length v - 1) v 0 =? 34)) eqn:E; [|reflexivity].
  exfalso. apply H. apply andb_prop in E as [E E3]. apply andb_prop in E as [E1 E2]. destruct v as [|c v]; [discriminate|].
  cbn [nth] in E2. apply Z.eqb_eq in E2 as ->. destruct (exists_last (l := v)) as (u & d & Eu); [intros ->; discriminate|]. subst v.
  exists u. f_equal. change (34 :: u ++ [d]) with ((34 :: u) ++ [d]) in E3. rewrite nth_last in E3. apply Z.eqb_eq in E3 as ->. reflexivity.
Qed.
Lemma unquote_says text v : (~ quoted text /\ v = text) \/ text = 34 :: v ++ [34] -> unquote text = v.
Proof. intros [[H ->] | ->]; [now apply unquote_plain|apply unquote_quoted]. Qed.

Lemma strchr_at c a q : ~ In c a -> ~ In 0 a -> strchr c (a ++ c :: q) = Some (a, q).
Proof.
  induction a as [|d a IH]; intros H H0; cbn [app strchr]; [now rewrite Z.eqb_refl|]. cbn [In] in *.
  destruct (Z.eqb_spec d c); [tauto|]. destruct (Z.eqb_spec d 0); [tauto|]. now rewrite IH by tauto.
Qed.
Lemma strchr_none c s : ~ In c s -> strchr c s = None.
Proof.
  induction s as [|d s IH]; intros H; cbn [strchr]; [reflexivity|]. cbn [In] in *. destruct (Z.eqb_spec d c); [tauto|].
  destruct (d =? 0); [reflexivity|]. now rewrite IH by tauto.
Qed.
Lemma split_at (c : Z) (s : list Z) : In c s -> exists a q, s = a ++ c :: q /\ ~ In c a.
Proof.
  induction s as [|d s IH]; intros H; [destruct H|]. destruct (Z.eq_dec d c) as [->|E]; [exists [], s; auto|].
  destruct H as [->|H]; [congruence|]. destruct (IH H) as (a & q & -> & Ha). exists (d :: a), q. split; [reflexivity|]. cbn [In]. tauto.
Qed.

(** Exactly the malformed lines say nothing. *)
Lemma says_or_malformed line : (exists it, says line it) \/ malformed line.
Proof.
  destruct (skip_split line) as (w & E & Hw & Hn). set (p := skip_ws line) in *. clearbody p. subst line.
  destruct p as [|c p]; [left; exists Nothing; rewrite app_nil_r; now constructor|].
  destruct (Z.eq_dec c 59) as [->|N59]; [left; exists Nothing; now constructor|].
  destruct (Z.eq_dec c 91) as [->|N91].
  - destruct (in_dec Z.eq_dec 93 p) as [H|H]; [|right; now constructor]. destruct (split_at 93 p H) as (a & q & -> & Ha).
    destruct (skip_split q) as (w' & E' & Hw' & Hn'). destruct (skip_ws q) as [|d q'].
    + left. exists (Section_ a). rewrite E', app_nil_r. now constructor.
    + right. rewrite E'. now constructor.
  - destruct (in_dec Z.eq_dec 61 (c :: p)) as [H|H]; [|right; now constructor]. left. destruct (split_at 61 (c :: p) H) as (a & q & Ea & Ha).
    destruct (trim_split a) as (w0 & key & w1 & Ek & H0 & H1 & Tk). destruct (trim_split q) as (w2 & text & w3 & Et & H2 & H3 & Tt).
    assert (w0 = []).
    { destruct w0 as [|d w0]; [reflexivity|]. exfalso. subst a. cbn [app] in Ea. injection Ea as <- _. apply Hn. now inversion H0. }
    subst w0. cbn [app] in Ek. subst a q.
    assert (Hk : ~ In 61 key) by (intros I; apply Ha; apply in_or_app; auto).
    assert (Hh : hd 0 key <> 59 /\ hd 0 key <> 91).
    { destruct key as [|d key]; [cbn; lia|]. cbn [app] in Ea. injection Ea as <- _. auto. }
    assert (Ev : exists v, ~ quoted text /\ v = text \/ text = 34 :: v ++ [34]).
    { destruct text as [|d t]; [exists []; left; split; [intros (v & [=])|reflexivity]|].
      destruct (Z.eq_dec d 34) as [->|Nd]; [|exists (d :: t); left; split; [intros (v & [= E' _]); congruence|reflexivity]].
      destruct t as [|e t]; [exists [34]; left; split; [intros (v & [= E']); destruct v; discriminate|reflexivity]|].
      destruct (exists_last (l := e :: t)) as (u & l & El); [discriminate|]. rewrite El. destruct (Z.eq_dec l 34) as [->|Nl]; [exists u; auto|].
      exists (34 :: u ++ [l]). left. split; [|reflexivity]. intros (v & [= E']). apply app_inj_tail in E' as [_ E']. congruence. }
    destruct Ev as (v & Ev). exists (Setting key v). rewrite Ea, <- app_assoc. now constructor.
Qed.

(** What a line does. *)
Definition apply_item (it : item) (cur : list Z) (dat : data) : list Z * data :=
  match it with
  | Nothing => (cur, dat)
  | Section_ n => (n, upd dat n [] (fun s => s))
  | Setting k v => (cur, upd dat cur [] (fun s => upd s k [] (fun _ => v)))
  end.
Lemma c_str_no_nul s : ~ In 0 (c_str s).
Proof.
  induction s as [|c s IH]; cbn [c_str]; [tauto|]. destruct (Z.eqb_spec c 0); [tauto|]. cbn [In]. intros [H|H]; [congruence|tauto].
Qed.
Lemma blank_not c : blank c -> c <> 59 /\ c <> 91 /\ c <> 61.
Proof. unfold blank. cbn [In]. lia. Qed.
Lemma parse_line_says n line it cur dat : says (c_str line) it -> parse_line n line cur dat = Parsed (apply_item it cur dat).
Proof.
  intros H. pose proof (c_str_no_nul line) as N. unfold parse_line. destruct H as [w Hw|w t Hw|w name w' Hw Hw' Hn|w key w1 w2 text w3 v Hw H1 H2 H3 Tk Hk Hs Hb Tt Hv].
  - now rewrite skip_all.
  - rewrite skip_blanks, skip_stop by (auto; unfold blank; cbn [In]; lia). reflexivity.
  - rewrite skip_blanks, skip_stop by (auto; unfold blank; cbn [In]; lia). change (91 =? 59) with false. change (91 =? 91) with true. cbv iota.
    change (91 :: name ++ 93 :: w') with ((91 :: name) ++ 93 :: w'). rewrite strchr_at.
    + rewrite (skip_all w' Hw'). reflexivity.
    + cbn [In]. intros [E|E]; [discriminate|now apply Hn].
    + intros I. apply N. apply in_or_app. right. change (91 :: name ++ 93 :: w') with ((91 :: name) ++ 93 :: w'). apply in_or_app. now left.
  - rewrite skip_blanks by exact Hw.
    assert (E : exists c r, key ++ w1 ++ 61 :: w2 ++ text ++ w3 = c :: r /\ c <> 59 /\ c <> 91 /\ (blank c -> exists b, key = [] /\ w1 = c :: b)).
    { destruct key as [|c key]; [destruct w1 as [|b w1]|].
      - exists 61, (w2 ++ text ++ w3). split; [reflexivity|]. repeat split; try lia. unfold blank. cbn [In]. lia.
      - exists b, (w1 ++ 61 :: w2 ++ text ++ w3). split; [reflexivity|]. assert (B : blank b) by now inversion H1. apply blank_not in B. repeat split; try tauto. eauto.
      - exists c, (key ++ w1 ++ 61 :: w2 ++ text ++ w3). split; [reflexivity|]. cbn [hd] in *. repeat split; auto. intros B. now destruct Tk. }
    (* the key is empty, or its first character is not blank *)
    assert (G : exists w1', Forall blank w1' /\ skip_ws (key ++ w1 ++ 61 :: w2 ++ text ++ w3) = key ++ w1' ++ 61 :: w2 ++ text ++ w3 /\
                (forall x, In x w1' -> In x w1)).
    { destruct key as [|c key].
      - exists []. split; [constructor|]. cbn [app]. split; [|tauto]. rewrite skip_blanks by exact H1. apply skip_stop. unfold blank. cbn [In]. lia.
      - exists w1. split; [exact H1|]. split; [|auto]. cbn [app]. apply skip_stop. now destruct Tk. }
    destruct G as (w1' & H1' & -> & Sub). clear E.
    assert (N0 : forall x, In x (key ++ w1') -> x <> 0).
    { intros x I ->. apply in_app_or in I as [I|I]; apply N; apply in_or_app; right; apply in_or_app; [now left|right; apply in_or_app; left; auto]. }
    assert (N61 : ~ In 61 (key ++ w1')).
    { intros I. apply in_app_or in I as [I|I]; [tauto|]. rewrite Forall_forall in H1'. apply H1' in I. unfold blank in I. cbn [In] in I. lia. }
    destruct (key ++ w1' ++ 61 :: w2 ++ text ++ w3) as [|c r] eqn:E; [destruct key, w1'; discriminate|].
    assert (Hc : c <> 59 /\ c <> 91).
    { destruct key as [|d key]; [destruct w1' as [|b w1'']|]; cbn [app] in E; injection E as <- _; cbn [hd] in *; try lia.
      inversion H1'; subst. apply blank_not in H4. tauto. }
    rewrite (proj2 (Z.eqb_neq c 59)), (proj2 (Z.eqb_neq c 91)) by tauto. rewrite <- E. rewrite app_assoc.
    rewrite strchr_at; [|exact N61|intros I; now apply (N0 0)].
    rewrite <- (app_nil_l (key ++ w1')). rewrite trim_trimmed by (auto; constructor).
    rewrite trim_trimmed by auto. rewrite (unquote_says text v Hv). reflexivity.
Qed.
Lemma parse_line_malformed n line cur dat : malformed (c_str line) -> exists pos e, parse_line n line cur dat = Parse_error n pos e.
Proof.
  intros H. pose proof (c_str_no_nul line) as N. unfold parse_line. destruct H as [w t Hw Ht|w name w' c t Hw Hn Hw' Hc|w c t Hw Hc H1 H2 Ht].
  - rewrite skip_blanks, skip_stop by (auto; unfold blank; cbn [In]; lia). change (91 =? 59) with false. change (91 =? 91) with true. cbv iota.
    rewrite strchr_none by (cbn [In]; intros [E|E]; [discriminate|tauto]). eauto.
  - rewrite skip_blanks, skip_stop by (auto; unfold blank; cbn [In]; lia). change (91 =? 59) with false. change (91 =? 91) with true. cbv iota.
    change (91 :: name ++ 93 :: w' ++ c :: t) with ((91 :: name) ++ 93 :: w' ++ c :: t). rewrite strchr_at.
    + rewrite skip_blanks, skip_stop by auto. eauto.
    + cbn [In]. intros [E|E]; [discriminate|tauto].
    + intros I. apply N. apply in_or_app. right. change (91 :: name ++ 93 :: w' ++ c :: t) with ((91 :: name) ++ 93 :: w' ++ c :: t). apply in_or_app. now left.
  - rewrite skip_blanks, skip_stop by auto. rewrite (proj2 (Z.eqb_neq c 59)), (proj2 (Z.eqb_neq c 91)) by tauto. rewrite strchr_none by exact Ht. eauto.
Qed.

Fixpoint apply_items (its : list item) (cur : list Z) (dat : data) : list Z * data :=
  match its with [] => (cur, dat) | it :: its => let (c, d) := apply_item it cur dat in apply_items its c d end.
Lemma parse_lines_says its : forall lines n cur dat more, Forall2 (fun l it => says (c_str l) it) lines its ->
  parse_lines n (lines ++ more) cur dat = let (c, d) := apply_items its cur dat in parse_lines (n + Z.of_nat (length lines)) more c d.
Proof.
  induction its as [|it its IH]; intros lines n cur dat more H; inversion H; subst; cbn [app apply_items].
  - cbn [length]. now rewrite Z.add_0_r.
  - cbn [parse_lines]. rewrite (parse_line_says n x it cur dat) by assumption. destruct (apply_item it cur dat) as [c d]. rewrite IH by assumption.
    destruct (apply_items its c d) as [c' d']. f_equal. cbn [length]. lia.
Qed.

Lemma eqs_refl k : eqs k k = true.
Proof. now apply eqs_iff. Qed.
Lemma find_upd_same {A} (m : smap A) k d f : find (upd m k d f) k = Some (f (match find m k with Some a => a | None => d end)).
Proof.
  induction m as [|[k' a] m IH]; cbn [upd find]; [now rewrite eqs_refl|]. destruct (eqs k' k) eqn:E; cbn [find]; rewrite E; [reflexivity|exact IH].
Qed.
Lemma find_upd_other {A} (m : smap A) k k2 d f : k2 <> k -> find (upd m k d f) k2 = find m k2.
Proof.
  intros H. induction m as [|[k' a] m IH]; cbn [upd find].
  - destruct (eqs k k2) eqn:E; [apply eqs_iff in E; congruence|reflexivity].
  - destruct (eqs k' k) eqn:E; cbn [find]; [|now rewrite IH]. destruct (eqs k' k2) eqn:E2; [|reflexivity]. apply eqs_iff in E, E2. congruence.
Qed.
Definition key_dec (a b : list Z) : {a = b} + {a <> b} := list_eq_dec Z.eq_dec a b.
Lemma lookup_upd dat sec key v s k : lookup (upd dat sec [] (fun m => upd m key [] (fun _ => v))) s k =
  if key_dec s sec then if key_dec k key then Some v else lookup dat s k else lookup dat s k.
Proof.
  unfold lookup. cbv delta [smap section data] in *. cbv beta in *. destruct (key_dec s sec) as [->|E].
  - rewrite find_upd_same. destruct (key_dec k key) as [->|F]; [now rewrite find_upd_same|]. rewrite find_upd_other by exact F. destruct (find dat sec); reflexivity.
  - now rewrite find_upd_other.
Qed.
Lemma lookup_open dat sec s k : lookup (upd dat sec [] (fun m => m)) s k = lookup dat s k.
Proof.
  unfold lookup. cbv delta [smap section data] in *. cbv beta in *. destruct (key_dec s sec) as [->|E]; [rewrite find_upd_same; destruct (find dat sec); reflexivity|now rewrite find_upd_other].
Qed.
(** The data after some items: what they say last, else what was there. *)
Lemma apply_items_lookup its : forall cur dat s k,
  (exists v, last_value (settings cur its) (s, k) (Some v) /\ lookup (snd (apply_items its cur dat)) s k = Some v) \/
  (last_value (settings cur its) (s, k) None /\ lookup (snd (apply_items its cur dat)) s k = lookup dat s k).
Proof.
  induction its as [|it its IH]; intros cur dat s k; cbn [apply_items settings].
  - right. split; [intros v' []|reflexivity].
  - destruct it as [|n|key v]; cbn [apply_item].
    + apply IH.
    + destruct (IH n (upd dat n [] (fun s0 => s0)) s k) as [H|[H E]]; [now left|right]. split; [exact H|]. rewrite E. apply lookup_open.
    + destruct (IH cur (upd dat cur [] (fun s0 => upd s0 key [] (fun _ => v))) s k) as [(u & (l1 & l2 & El & Hl) & E)|[H E]].
      * left. exists u. split; [|exact E]. exists (((cur, key), v) :: l1), l2. split; [cbn [app]; now rewrite El|exact Hl].
      * rewrite lookup_upd in E. destruct (key_dec s cur) as [->|Ns].
        -- destruct (key_dec k key) as [->|Nk].
           ++ left. exists v. split; [|exact E]. exists [], (settings cur its). split; [reflexivity|exact H].
           ++ right. split; [|exact E]. intros v' [Ev|I]; [congruence|now apply (H v')].
        -- right. split; [|exact E]. intros v' [Ev|I]; [congruence|now apply (H v')].
Qed.
Lemma find_upd_some {A} (m : smap A) k k2 d f : find (upd m k d f) k2 <> None <-> k2 = k \/ find m k2 <> None.
Proof.
  destruct (key_dec k2 k) as [->|E]; [rewrite find_upd_same; split; [auto|discriminate]|]. rewrite find_upd_other by exact E. tauto.
Qed.
Lemma apply_items_sections its : forall cur dat s,
  find (snd (apply_items its cur dat)) s <> None <-> In s (sections cur its) \/ find dat s <> None.
Proof.
  induction its as [|it its IH]; intros cur dat s; cbn [apply_items sections]; [cbn [In snd]; tauto|].
  destruct it as [|n|key v]; cbn [apply_item]; rewrite IH; cbn [In]; rewrite ?find_upd_some; intuition congruence.
Qed.

(** ** lines *)
Lemma getlines_text lines t : text_of lines t -> forall acc, ~ In 10 acc ->
  getlines acc t = match lines with [] => match acc with [] => [] | _ => [rev acc] end | l :: ls => (rev acc ++ l) :: ls end.
Proof.
  assert (G : forall l acc rest, ~ In 10 l -> getlines acc (l ++ rest) = getlines (rev l ++ acc) rest).
  { induction l as [|c l IH]; intros acc rest H; [reflexivity|]. cbn [app getlines]. cbn [In] in H. rewrite (proj2 (Z.eqb_neq c 10)) by tauto.
    rewrite IH by tauto. cbn [rev]. now rewrite <- app_assoc. }
  induction 1 as [|l Hl Hn|l ls t Hn Ht IH]; intros acc Ha.
  - reflexivity.
  - rewrite <- (app_nil_r l) at 1. rewrite G by exact Hn. cbn [getlines].
    destruct (rev l ++ acc) eqn:E; [apply app_eq_nil in E as [E _]; apply (f_equal (@rev Z)) in E; rewrite rev_involutive in E; contradiction|].
    rewrite <- E, rev_app_distr, rev_involutive. reflexivity.
  - rewrite G by exact Hn. cbn [getlines]. change (10 =? 10) with true. cbv iota. rewrite rev_app_distr, rev_involutive.
    f_equal. rewrite (IH []) by auto. destruct ls; reflexivity.
Qed.
Lemma text_exists t : exists lines, text_of lines t.
Proof.
  assert (H : forall n t, (length t <= n)%nat -> exists lines, text_of lines t); [|now apply (H (length t))].
  induction n as [|n IH]; intros u Hu; [destruct u; [exists []; constructor|cbn in Hu; lia]|].
  destruct (in_dec Z.eq_dec 10 u) as [I|N].
  - destruct (split_at 10 u I) as (a & q & -> & Ha). rewrite app_length in Hu. cbn [length] in Hu. destruct (IH q ltac:(lia)) as (ls & Hls).
    exists (a :: ls). now constructor.
  - destruct u as [|c u]; [exists []; constructor|]. exists [c :: u]. constructor; [discriminate|exact N].
Qed.
