(** Proofs about genrpc. *)
From Verif Require Import Common NumText_Model NumText_Proof Cast_Model Genrpc_Spec Genrpc_Model.
Local Open Scope Z_scope.

Lemma eqs_refl s : eqs s s = true.
Proof. unfold eqs. now destruct (list_eq_dec Z.eq_dec s s). Qed.
Lemma eqs_eq a b : eqs a b = true <-> a = b.
Proof. unfold eqs. destruct (list_eq_dec Z.eq_dec a b); split; congruence. Qed.
Lemma eqs_neq a b : a <> b -> eqs a b = false.
Proof. unfold eqs. destruct (list_eq_dec Z.eq_dec a b); congruence. Qed.

(** ** Finding and replacing *)
Lemma prefixb_app p s : prefixb p (p ++ s) = true.
Proof. induction p; cbn; [reflexivity|]. now rewrite Z.eqb_refl. Qed.
Lemma prefixb_true p s : prefixb p s = true -> exists r, s = p ++ r.
Proof.
  revert s. induction p as [|a p IH]; intros s H; [now exists s|]. destruct s as [|b s]; [discriminate|]. cbn in H.
  apply andb_prop in H as [E H]. apply Z.eqb_eq in E as <-. destruct (IH _ H) as [r ->]. now exists r.
Qed.
Lemma find_none p s : ~ inside p s -> find p s = None.
Proof.
  induction s as [|c s IH]; intros H; cbn [find].
  - destruct (prefixb p []) eqn:E; [|reflexivity]. apply prefixb_true in E as [r E]. exfalso. apply H. now exists [], r.
  - destruct (prefixb p (c :: s)) eqn:E. { apply prefixb_true in E as [r E]. exfalso. apply H. now exists [], r. }
    rewrite IH; [reflexivity|]. intros (a & b & ->). apply H. now exists (c :: a), b.
Qed.
Lemma find_inside p s i : find p s = Some i -> s = firstn i s ++ p ++ skipn (i + length p) s.
Proof.
  revert i. induction s as [|c s IH]; intros i; cbn [find].
  - destruct (prefixb p []) eqn:E; [|discriminate]. intros [= <-]. apply prefixb_true in E as [r E]. destruct p; [|discriminate]. reflexivity.
  - destruct (prefixb p (c :: s)) eqn:E.
    + intros [= <-]. apply prefixb_true in E as [r E]. cbn [firstn app Nat.add]. rewrite E. now rewrite skipn_app, skipn_all, Nat.sub_diag.
    + destruct (find p s) as [j|]; [|discriminate]. intros [= <-]. cbn [firstn app Nat.add skipn]. f_equal. now apply IH.
Qed.
Lemma find_some_inside p s : inside p s -> find p s <> None.
Proof.
  intros (a & b & ->). induction a as [|c a IH].
  - destruct (p ++ b) eqn:E; cbn [find app]; pose proof (prefixb_app p b) as H; rewrite ?E in *; rewrite H; discriminate.
  - cbn [find app]. destruct (prefixb p (c :: a ++ p ++ b)); [discriminate|]. destruct (find p (a ++ p ++ b)); [discriminate | contradiction].
Qed.

Definition l3 : text := str "<<<".
(** A piece in front of a hole: no "<<<" in it, and the last character is another one *)
Fixpoint piece (s : text) : bool :=
  match s with
  | [] => true
  | c :: r => (negb (prefixb l3 s)) && (match r with [] => negb (c =? 60) | _ => true end) && piece r
  end.
Lemma l3_prefix q s : prefixb (l3 ++ q) s = true -> prefixb l3 s = true.
Proof. intros H. apply prefixb_true in H as [r ->]. rewrite <- app_assoc. apply prefixb_app. Qed.
Lemma piece_last s c d : piece (s ++ [c; d]) = true -> d <> 60.
Proof.
  induction s as [|a s IH]; intros H.
  - cbn [app piece] in H. destruct (Z.eqb_spec d 60); [|assumption]. rewrite ?andb_false_r in H. cbn in H. rewrite ?andb_false_r in H. discriminate.
  - cbn [app piece] in H. apply andb_prop in H as [_ H]. auto.
Qed.
Lemma piece_prefix q x y : piece x = true -> x <> [] -> prefixb (l3 ++ q) (x ++ y) = false.
Proof.
  intros H N. destruct (prefixb (l3 ++ q) (x ++ y)) eqn:E; [|reflexivity]. exfalso. apply l3_prefix in E.
  destruct x as [|a [|b [|c x]]]; [congruence| | |].
  - cbn [piece] in H. apply andb_prop in H as [H _]. apply andb_prop in H as [_ H]. cbn [app] in E. change l3 with [60; 60; 60] in E.
    cbn [prefixb] in E. apply andb_prop in E as [E _]. apply Z.eqb_eq in E. subst a. discriminate.
  - apply (piece_last [] a b) in H. change l3 with [60; 60; 60] in E. cbn [app prefixb] in E. apply andb_prop in E as [_ E]. apply andb_prop in E as [E _].
    apply Z.eqb_eq in E. congruence.
  - cbn [piece] in H. apply andb_prop in H as [H _]. apply andb_prop in H as [H _]. change l3 with [60; 60; 60] in *. cbn [app prefixb] in E, H.
    rewrite E in H. discriminate.
Qed.
Lemma find_skip q x y : piece x = true -> find (l3 ++ q) (x ++ y) = option_map (Nat.add (length x)) (find (l3 ++ q) y).
Proof.
  induction x as [|c x IH]; intros H. { cbn [app length]. destruct (find (l3 ++ q) y); reflexivity. }
  cbn [app]. cbn [find]. rewrite (piece_prefix q (c :: x) y H ltac:(discriminate) : prefixb (l3 ++ q) (c :: x ++ y) = false).
  rewrite IH. { destruct (find (l3 ++ q) y); reflexivity. }
  cbn [piece] in H. now apply andb_prop in H as [_ H].
Qed.
Lemma replace_skip q x y aft : piece x = true -> replace (x ++ y) (l3 ++ q) aft = x ++ replace y (l3 ++ q) aft.
Proof.
  intros H. unfold replace. rewrite find_skip by assumption. destruct (find (l3 ++ q) y) as [i|]; [|reflexivity]. cbn [option_map].
  rewrite firstn_app, <- Nat.add_assoc, skipn_app. rewrite firstn_all2 by lia. rewrite (skipn_all2 x) by lia. cbn [app].
  replace (length x + i - length x)%nat with i by lia. replace (length x + (i + length (l3 ++ q)) - length x)%nat with (i + length (l3 ++ q))%nat by lia.
  now rewrite <- app_assoc.
Qed.
Lemma replace_here p y aft : replace (p ++ y) p aft = aft ++ y.
Proof.
  unfold replace. assert (E : find p (p ++ y) = Some O). { pose proof (prefixb_app p y) as H. destruct (p ++ y) eqn:E; cbn [find]; now rewrite H. }
  rewrite E. cbn [firstn app Nat.add]. now rewrite skipn_app, skipn_all, Nat.sub_diag.
Qed.
Lemma piece_after s y : ~ inside l3 s -> piece (34 :: y) = true -> piece (s ++ 34 :: y) = true.
Proof.
  intros N H. induction s as [|c s IH]; [exact H|]. cbn [app piece]. rewrite IH; [|intros (a & b & ->); apply N; now exists (c :: a), b].
  rewrite andb_true_r. apply andb_true_intro. split.
  - destruct (prefixb l3 (c :: s ++ 34 :: y)) eqn:E; [|reflexivity]. exfalso. apply N. change l3 with [60; 60; 60] in E.
    destruct s as [|a [|b s]]; cbn [app prefixb] in E; repeat (apply andb_prop in E as [?E E]); repeat match goal with H : (_ =? _) = true |- _ => apply Z.eqb_eq in H end; try discriminate.
    exists [], s. now subst.
  - destruct s; reflexivity.
Qed.

Lemma fill_template sig lang names : ~ inside l3 sig -> ~ inside l3 lang ->
  fill template sig lang names = filled t0 t1 t2 t3 t4 sig lang (reflects 0 names).
Proof.
  intros Hs Hl. unfold fill, template, filled.
  assert (P0 : piece t0 = true) by (vm_compute; reflexivity). assert (P1 : piece t1 = true) by (vm_compute; reflexivity).
  assert (P2 : piece t2 = true) by (vm_compute; reflexivity). assert (P3 : piece t3 = true) by (vm_compute; reflexivity).
  assert (E1 : t1 = 34 :: tl t1) by reflexivity. assert (E2 : t2 = 34 :: tl t2) by reflexivity. assert (E3 : t3 = 34 :: tl t3) by reflexivity.
  assert (Q1 : piece (sig ++ t1) = true) by (rewrite E1 in *; now apply piece_after).
  assert (Q2 : piece (sig ++ t2) = true) by (rewrite E2 in *; now apply piece_after).
  assert (Q3 : piece (lang ++ t3) = true) by (rewrite E3 in *; now apply piece_after).
  change hole_sig with (l3 ++ skipn 3 hole_sig). change hole_base with (l3 ++ skipn 3 hole_base). change hole_lang with (l3 ++ skipn 3 hole_lang).
  change hole_refl with (l3 ++ skipn 3 hole_refl).
  set (h1 := skipn 3 hole_sig). set (h2 := skipn 3 hole_base). set (h3 := skipn 3 hole_lang). set (h4 := skipn 3 hole_refl).
  rewrite (replace_skip h1 t0) by assumption. rewrite replace_here.
  rewrite (replace_skip h2 t0) by assumption. rewrite (app_assoc sig t1). rewrite (replace_skip h2 (sig ++ t1)) by assumption. rewrite replace_here.
  rewrite (replace_skip h3 t0), (replace_skip h3 (sig ++ t1)) by assumption. rewrite (app_assoc sig t2), (replace_skip h3 (sig ++ t2)), replace_here by assumption.
  rewrite (replace_skip h4 t0), (replace_skip h4 (sig ++ t1)), (replace_skip h4 (sig ++ t2)) by assumption.
  rewrite (app_assoc lang t3), (replace_skip h4 (lang ++ t3)), replace_here by assumption.
  now rewrite <- !app_assoc.
Qed.
Lemma fill_extractor sig : replace extractor hole_sig sig = x0 ++ sig ++ x1.
Proof.
  unfold extractor. change hole_sig with (l3 ++ skipn 3 hole_sig). rewrite replace_skip by (vm_compute; reflexivity). now rewrite replace_here.
Qed.

(** ** Running the template *)
Lemma until_quote_app s y : ~ In 34 s -> until_quote (s ++ 34 :: y) = (s, 34 :: y).
Proof.
  induction s as [|c s IH]; intros H; [reflexivity|]. cbn [app until_quote]. destruct (Z.eqb_spec c 34) as [->|]; [exfalso; apply H; now left|].
  rewrite IH; [reflexivity|]. intros ?. apply H. now right.
Qed.
Lemma strip_app p s : strip p (p ++ s) = Some s.
Proof. unfold strip. rewrite prefixb_app, skipn_app, skipn_all, Nat.sub_diag. reflexivity. Qed.
Definition in_quotes (s : text) : Prop := Forall (fun c => c <> 34 /\ c <> 92 /\ c <> 10) s.
Lemma in_quotes_34 s : in_quotes s -> ~ In 34 s.
Proof. intros H I. unfold in_quotes in H. rewrite Forall_forall in H. apply H in I as [I _]. congruence. Qed.
Lemma in_quotes_literal s : in_quotes s -> literal s = true.
Proof.
  intros H. apply forallb_forall. intros c I. unfold in_quotes in H. rewrite Forall_forall in H. apply H in I as (_ & A & B).
  apply Z.eqb_neq in A, B. now rewrite A, B.
Qed.
Lemma read_filled sig lang refl : in_quotes sig -> in_quotes lang -> read_template (filled t0 t1 t2 t3 t4 sig lang refl) = Some (sig, lang, refl).
Proof.
  intros Hs Hl. unfold filled, read_template. rewrite strip_app.
  assert (E1 : forall s y, in_quotes s -> until_quote (s ++ t1 ++ y) = (s, t1 ++ y)) by (intros s y I; apply (until_quote_app s (tl t1 ++ y)), in_quotes_34, I).
  assert (E2 : forall s y, in_quotes s -> until_quote (s ++ t2 ++ y) = (s, t2 ++ y)) by (intros s y I; apply (until_quote_app s (tl t2 ++ y)), in_quotes_34, I).
  assert (E3 : forall s y, in_quotes s -> until_quote (s ++ t3 ++ y) = (s, t3 ++ y)) by (intros s y I; apply (until_quote_app s (tl t3 ++ y)), in_quotes_34, I).
  rewrite E1 by assumption. rewrite strip_app, E2, strip_app, E3, strip_app by assumption.
  rewrite app_length, Nat.add_sub, firstn_app, firstn_all, Nat.sub_diag. change (firstn 0 t4) with (@nil Z). rewrite app_nil_r, eqs_refl.
  now rewrite !in_quotes_literal.
Qed.

Lemma read_extractor sig : read_template (x0 ++ sig ++ x1) = None.
Proof. reflexivity. Qed.
Lemma find_cons p c s : find p (c :: s) = if prefixb p (c :: s) then Some O else option_map S (find p s).
Proof. reflexivity. Qed.
Lemma find_suffix v z stem : ~ inside (str ".h") stem -> find (46 :: 104 :: v) (stem ++ 46 :: z) = option_map (Nat.add (length stem)) (find (46 :: 104 :: v) (46 :: z)).
Proof.
  induction stem as [|c s IH]; intros H. { cbn [app length]. destruct (find _ (46 :: z)); reflexivity. }
  rewrite <- app_comm_cons, find_cons, IH by (intros (a & b & ->); apply H; now exists (c :: a), b).
  destruct (prefixb (46 :: 104 :: v) (c :: s ++ 46 :: z)) eqn:E. 2:{ destruct (find _ (46 :: z)); reflexivity. }
  exfalso. cbn [prefixb] in E. apply andb_prop in E as [E1 E]. apply Z.eqb_eq in E1 as <-. destruct s as [|b s]; cbn [app] in E.
  - apply andb_prop in E as [E _]. discriminate.
  - apply andb_prop in E as [E _]. apply Z.eqb_eq in E as <-. apply H. now exists [], s.
Qed.
Lemma outname_header sig stem : header sig stem -> ~ inside (str ".h") stem -> outname sig = stem.
Proof.
  intros H N. unfold outname. change (str ".hpp") with [46; 104; 112; 112]. change (str ".hxx") with [46; 104; 120; 120]. change (str ".h") with [46; 104] in *.
  unfold header in H. cbn [map] in H. change (str ".hpp") with [46; 104; 112; 112] in H. change (str ".hxx") with [46; 104; 120; 120] in H. change (str ".h") with [46; 104] in H.
  cbn [cut].
  destruct H as [<- | [<- | [<- | []]]]; rewrite !find_suffix by assumption.
  - change (find [46; 104; 112; 112] [46; 104]) with (@None nat). change (find [46; 104; 120; 120] [46; 104]) with (@None nat). change (find [46; 104] [46; 104]) with (Some O).
    cbn [option_map]. rewrite Nat.add_0_r, firstn_app, firstn_all, Nat.sub_diag. cbn [firstn]. rewrite skipn_all2 by (rewrite app_length; cbn; lia). now rewrite !app_nil_r.
  - change (find [46; 104; 112; 112] [46; 104; 112; 112]) with (Some O).
    cbn [option_map]. rewrite Nat.add_0_r, firstn_app, firstn_all, Nat.sub_diag. cbn [firstn]. rewrite skipn_all2 by (rewrite app_length; cbn; lia). now rewrite !app_nil_r.
  - change (find [46; 104; 112; 112] [46; 104; 120; 120]) with (@None nat). change (find [46; 104; 120; 120] [46; 104; 120; 120]) with (Some O).
    cbn [option_map]. rewrite Nat.add_0_r, firstn_app, firstn_all, Nat.sub_diag. cbn [firstn]. rewrite skipn_all2 by (rewrite app_length; cbn; lia). now rewrite !app_nil_r.
Qed.

(** ** The command line *)
Lemma option_starts a : ~ starts (str "--") a -> option_ a = false.
Proof. intros H. unfold option_. destruct (prefixb (str "--") a) eqn:E; [|reflexivity]. apply prefixb_true in E. contradiction. Qed.
Lemma parse_opts opts sig sl : Forall (fun a => ~ starts (str "--") a) opts -> ~ starts (str "--") sig -> parse_args (opts ++ [sig]) sl = (sig, snd sl).
Proof.
  intros H Hs. revert sl. induction H as [|a l Ha _ IH]; intros sl; cbn [app parse_args].
  - now rewrite option_starts.
  - rewrite option_starts by assumption. now rewrite IH.
Qed.
Lemma parse_documented lang opts sig x : Forall (fun a => ~ starts (str "--") a) opts -> ~ starts (str "--") sig ->
  parse_args ((str "--" ++ lang) :: opts ++ [sig]) (x, []) = (sig, lang).
Proof.
  intros H Hs. cbn [parse_args]. unfold option_ at 1. rewrite prefixb_app, parse_opts by assumption. reflexivity.
Qed.
Lemma options_documented a opts sig : options (a :: opts ++ [sig]) = flat_map (fun a => str " " ++ a) opts.
Proof. unfold options. cbn [tl]. now rewrite removelast_last. Qed.

(** ** The names *)
Lemma identifier_not_space n c : identifier n -> In c n -> isspace c = false.
Proof. intros [_ H] I. rewrite Forall_forall in H. apply H in I. unfold isspace. lia. Qed.
Lemma words_name n s cur : (forall c, In c n -> isspace c = false) -> cur ++ n <> [] -> words cur (n ++ 10 :: s) = (cur ++ n) :: words [] s.
Proof.
  revert cur. induction n as [|c n IH]; intros cur H N.
  - rewrite app_nil_r in *. cbn [app words]. change (isspace 10) with true. destruct cur; [congruence | reflexivity].
  - cbn [app words]. rewrite (H c) by now left. rewrite IH; [now rewrite <- app_assoc | intros ? ?; apply H; now right | now destruct cur].
Qed.
Lemma words_lines l : Forall identifier l -> words [] (lines l) = l.
Proof.
  intros H. induction H as [|n l Hn _ IH]; [reflexivity|]. cbn [lines flat_map]. rewrite <- app_assoc. cbn [app]. rewrite words_name.
  - cbn [app]. f_equal. exact IH.
  - intros c I. eapply identifier_not_space; eassumption.
  - exact (proj1 Hn).
Qed.
Lemma reflects_services l i : reflects i l = concat (map (fun x => service (fst x) (snd x)) (combine (seq i (length l)) l)).
Proof.
  revert i. induction l as [|n l IH]; intros i; [reflexivity|]. cbn [reflects length seq combine map concat fst snd]. rewrite IH. unfold service, show_int.
  destruct (Z.ltb_spec (Z.of_nat i) 0); [lia|]. now rewrite <- !app_assoc.
Qed.
Lemma services_nonempty l : l <> [] -> services l <> [].
Proof.
  destruct l as [|n l]; [congruence|]. intros _ E. unfold services in E. cbn [length seq combine map concat fst snd] in E. unfold service in E.
  destruct n; discriminate.
Qed.

(** ** The shell *)
Lemma plain_no_blank w : shell_plain w -> ~ In 32 w.
Proof. intros [_ H] I. rewrite Forall_forall in H. apply H in I. lia. Qed.
Lemma hw_cons w s l : shell_plain w -> has_words s l -> has_words (w ++ 32 :: s) (w :: l).
Proof. intros H K. constructor; [exact (proj1 H) | now apply plain_no_blank | assumption]. Qed.
Lemma hw_blank_inv s l : has_words (32 :: s) l -> has_words s l.
Proof.
  intros H. remember (32 :: s) as x eqn:E. destruct H as [ | x l H | w N I | w x l N I H].
  - discriminate.
  - now injection E as ->.
  - subst w. exfalso. apply I. now left.
  - destruct w as [|c w]; [congruence|]. cbn in E. injection E as -> _. exfalso. apply I. now left.
Qed.
Lemma hw_opts opts s l : Forall shell_plain opts -> has_words s l -> has_words (flat_map (fun a => str " " ++ a) opts ++ 32 :: s) (opts ++ l).
Proof.
  intros H K. induction H as [|a r Ha _ IH]; [now constructor|]. cbn [flat_map app]. change (str " ") with [32]. cbn [app]. rewrite <- app_assoc. apply hw_blank.
  destruct r as [|b r].
  - cbn [flat_map app] in *. now apply hw_cons.
  - cbn [flat_map app] in *. change (str " ") with [32] in *. cbn [app] in *. apply hw_cons; [assumption|]. now apply hw_blank_inv.
Qed.
Lemma command_args t opts g : shell_plain t -> shell_plain g -> Forall shell_plain opts ->
  shell_args (command t (flat_map (fun a => str " " ++ a) opts) g) ([str "g++"; str "-xc++"; t] ++ opts ++ [str "-lpficommon"; str "-o"; g]).
Proof.
  intros Ht Hg Ho.
  assert (C : forall w, forallb (fun c => ((97 <=? c) && (c <=? 122)) || ((65 <=? c) && (c <=? 90)) || ((43 <=? c) && (c <=? 58)) || (c =? 61) || (c =? 95)) w = true ->
    Forall (fun c => 97 <= c <= 122 \/ 65 <= c <= 90 \/ 43 <= c <= 58 \/ c = 61 \/ c = 95) w).
  { intros w H. apply Forall_forall. intros c I. eapply forallb_forall in H; [|exact I]. lia. }
  assert (P : Forall shell_plain [str "g++"; str "-xc++"; str "-lpficommon"; str "-o"]) by (repeat apply Forall_cons; try apply Forall_nil; (split; [discriminate|]); apply C; reflexivity).
  inversion P as [|? ? P1 Pa]; subst. inversion Pa as [|? ? P2 Pb]; subst. inversion Pb as [|? ? P3 Pc]; subst. inversion Pc as [|? ? P4 _]; subst.
  split.
  - unfold command. change (str "g++ -xc++ ") with (str "g++" ++ 32 :: str "-xc++" ++ [32]). change (str " -lpficommon -o ") with (32 :: str "-lpficommon" ++ 32 :: str "-o" ++ [32]).
    rewrite <- !app_assoc. cbn [app]. rewrite <- !app_assoc. cbn [app]. change (str " ") with [32]. cbn [app]. rewrite <- !app_assoc. cbn [app].
    apply hw_cons; [assumption|]. apply hw_cons; [assumption|]. apply hw_cons; [assumption|]. apply (hw_opts opts _ _ Ho).
    apply hw_cons; [assumption|]. apply hw_cons; [assumption|]. constructor; [exact (proj1 Hg) | now apply plain_no_blank].
  - repeat (apply Forall_cons; [assumption|]). apply Forall_app. split; [assumption|]. repeat (apply Forall_cons; [assumption|]). apply Forall_nil.
Qed.

(** ** Evaluating a program *)
Lemma upd_same d n v : upd d n v n = v.
Proof. unfold upd. now rewrite eqs_refl. Qed.
Lemma upd_other d n v m : m <> n -> upd d n v m = d m.
Proof. intros H. unfold upd. now rewrite eqs_neq. Qed.
Definition six_ok (x : text) : Prop := length x = 6%nat /\ Forall (fun c => 97 <= c <= 122 \/ 65 <= c <= 90 \/ 48 <= c <= 57) x.
Lemma mkstemp_ok e n base d x : six e n = Some x -> six_ok x -> d (base ++ x) = None -> mkstemp e n base d = Some (base ++ x, upd d (base ++ x) (Some [])).
Proof.
  intros E [L H] N. unfold mkstemp. rewrite E, L, N. change (6 =? 6)%nat with true.
  assert (A : forallb alnum x = true). { apply forallb_forall. intros c I. rewrite Forall_forall in H. apply H in I. unfold alnum. lia. }
  now rewrite A.
Qed.
Lemma tmp_plain base x : shell_plain base -> six_ok x -> shell_plain (base ++ x).
Proof.
  intros [N B] [_ H]. split; [now destruct base|]. apply Forall_app. split; [assumption|]. eapply Forall_impl; [|exact H]. cbn. lia.
Qed.
Lemma tmp_exe x y : str "genrpctmp" ++ x <> str "genrpcexe" ++ y.
Proof. intros H. discriminate. Qed.
Lemma base_plain : shell_plain (str "genrpctmp") /\ shell_plain (str "genrpcexe").
Proof.
  assert (C : forall w, forallb (fun c => (97 <=? c) && (c <=? 122)) w = true -> Forall (fun c => 97 <= c <= 122 \/ 65 <= c <= 90 \/ 43 <= c <= 58 \/ c = 61 \/ c = 95) w).
  { intros w H. apply Forall_forall. intros c I. eapply forallb_forall in H; [|exact I]. lia. }
  split; (split; [discriminate | apply C; reflexivity]).
Qed.
Lemma eval_run e n p src opts d x y :
  six e n = Some x -> six_ok x -> d (str "genrpctmp" ++ x) = None -> six e (S n) = Some y -> six_ok y -> d (str "genrpcexe" ++ y) = None ->
  compiler e (command (str "genrpctmp" ++ x) opts (str "genrpcexe" ++ y)) src = Good -> popens e p = true ->
  exists d2, (forall m, d2 m = if eqs m (str "genrpcexe" ++ y) then Some src else d m) /\
    eval_cpp e n p src opts d = (let* (out, ok, d) := exec e src d2 in Ok (if ok : bool then Some out else None, upd d (str "genrpcexe" ++ y) None)).
Proof.
  intros Hx Gx Fx Hy Gy Fy C P. unfold eval_cpp. rewrite (mkstemp_ok e n _ d x Hx Gx Fx).
  set (t := str "genrpctmp" ++ x) in *. set (g := str "genrpcexe" ++ y) in *. assert (T : g <> t) by (intros E; symmetry in E; now apply tmp_exe in E).
  rewrite (mkstemp_ok e (S n) _ _ y Hy Gy). 2:{ fold g. now rewrite !upd_other by assumption. }
  fold g. rewrite C, P. eexists. split; [|reflexivity]. intros m. unfold upd. destruct (eqs m t) eqn:E.
  - apply eqs_eq in E as ->. rewrite (eqs_neq t g) by congruence. congruence.
  - destruct (eqs m g); reflexivity.
Qed.

(** ** The whole *)
Lemma main_documented e lang opts sig names d x0_ y0_ x1_ y1_ :
  lang <> [] -> Forall shell_plain opts -> Forall (fun a => ~ starts (str "--") a) opts -> ~ starts (str "--") sig ->
  ~ inside l3 sig -> ~ inside l3 lang -> in_quotes sig -> in_quotes lang -> Forall identifier names ->
  (forall c t g, shell_plain t -> shell_plain g -> shell_args c ([str "g++"; str "-xc++"; t] ++ opts ++ [str "-lpficommon"; str "-o"; g]) ->
     compiler e c (x0 ++ sig ++ x1) = Good /\ compiler e c (filled t0 t1 t2 t3 t4 sig lang (services names)) = Good) ->
  prints e (x0 ++ sig ++ x1) = (lines names, true) ->
  (forall n, popens e n = true) ->
  six e 0 = Some x0_ -> six e 1 = Some y0_ -> six e 2 = Some x1_ -> six e 3 = Some y1_ -> six_ok x0_ -> six_ok y0_ -> six_ok x1_ -> six_ok y1_ ->
  d (str "genrpctmp" ++ x0_) = None -> d (str "genrpcexe" ++ y0_) = None -> d (str "genrpctmp" ++ x1_) = None -> d (str "genrpcexe" ++ y1_) = None ->
  exists d2, (forall m, d2 m = if eqs m (str "genrpcexe" ++ y1_) then Some (filled t0 t1 t2 t3 t4 sig lang (services names)) else d m) /\
    main e true ((str "--" ++ lang) :: opts ++ [sig]) d =
    (let* d := template_main e sig lang (services names) d2 in Ok (0, upd d (str "genrpcexe" ++ y1_) None)).
Proof.
  intros Nl Ho Ho2 Hs Is Il Qs Ql Hn C Pr Po S0 S1 S2 S3 G0 G1 G2 G3 F0 F1 F2 F3. destruct base_plain as [B1 B2].
  unfold main. match goal with |- context [(?n <? 2)%nat] => replace (n <? 2)%nat with false end. 2:{ symmetry. apply Nat.ltb_ge. cbn [length]. rewrite app_length. cbn. lia. }
  rewrite parse_documented, options_documented, (eqs_neq lang []), fill_extractor by assumption.
  destruct (eval_run e 0 0 (x0 ++ sig ++ x1) (flat_map (fun a => str " " ++ a) opts) d x0_ y0_) as (da & Da & ->); try assumption; [|apply Po|].
  { refine (proj1 (C _ _ _ _ _ (command_args _ _ _ _ _ Ho))); now apply tmp_plain. }
  unfold exec at 1. rewrite read_extractor, Pr. cbn [obind]. rewrite words_lines, fill_template by assumption. rewrite reflects_services. fold (services names).
  set (d1 := upd da (str "genrpcexe" ++ y0_) None).
  assert (D1 : forall m, d1 m = d m). { intros m. unfold d1, upd. rewrite Da. destruct (eqs m (str "genrpcexe" ++ y0_)) eqn:E; [apply eqs_eq in E as ->; congruence | reflexivity]. }
  destruct (eval_run e 2 1 (filled t0 t1 t2 t3 t4 sig lang (services names)) (flat_map (fun a => str " " ++ a) opts) d1 x1_ y1_) as (d2 & D2 & ->); try assumption; try (rewrite D1; assumption); [|apply Po|].
  { refine (proj2 (C _ _ _ _ _ (command_args _ _ _ _ _ Ho))); now apply tmp_plain. }
  exists d2. split. { intros m. rewrite D2. now rewrite D1. }
  unfold exec. rewrite read_filled by assumption. destruct (template_main e sig lang (services names) d2); reflexivity.
Qed.
Lemma dot_not_exe n a y : six_ok y -> n = a ++ str ".php" \/ n = a ++ str ".hs" -> n <> str "genrpcexe" ++ y.
Proof.
  intros [_ H] D ->.
  assert (I : In 46 (str "genrpcexe" ++ y)). { destruct D as [-> | ->]; apply in_or_app; right; now left. }
  apply in_app_or in I as [I|I]. { vm_compute in I. intuition discriminate. }
  rewrite Forall_forall in H. apply H in I. lia.
Qed.

(** ** What is left alone *)
Definition mine (n : text) : Prop := starts (str "genrpcexe") n.
Lemma mkstemp_inv e n base d f d' : mkstemp e n base d = Some (f, d') -> (exists x, f = base ++ x) /\ d f = None /\ d' = upd d f (Some []).
Proof.
  unfold mkstemp. destruct (six e n) as [x|]; [|discriminate]. destruct ((length x =? 6)%nat && forallb alnum x); [|discriminate].
  destruct (d (base ++ x)) eqn:E; [discriminate|]. intros [= <- <-]. repeat split; [now exists x | assumption].
Qed.
Lemma eval_keeps e n p src opts d out d' m : eval_cpp e n p src opts d = Ok (out, d') -> ~ mine m ->
  d' m = d m \/ exists d2 r d3, exec e src d2 = Ok (r, d3) /\ d2 m = d m /\ d' m = d3 m.
Proof.
  intros H N. unfold eval_cpp in H. destruct (mkstemp e n (str "genrpctmp") d) as [[t d1]|] eqn:Et; [|discriminate].
  apply mkstemp_inv in Et as ([x Ex] & Ft & ->).
  assert (G : exists g d2, match mkstemp e (S n) (str "genrpcexe") (upd (upd d t (Some [])) t (Some src)) with Some x => x | None => (str "genrpcexeXXXXXX", upd (upd d t (Some [])) t (Some src)) end = (g, d2) /\
    mine g /\ forall k, ~ mine k -> d2 k = upd d t (Some src) k).
  { destruct (mkstemp e (S n) (str "genrpcexe") _) as [[g d2]|] eqn:Eg.
    - apply mkstemp_inv in Eg as ([y Ey] & Fg & ->). exists g. eexists. split; [reflexivity|]. assert (M : mine g) by (exists y; assumption). split; [assumption|].
      intros k K. rewrite upd_other by congruence. unfold upd. destruct (eqs k t); reflexivity.
    - eexists _, _. split; [reflexivity|]. split; [now exists (str "XXXXXX")|]. intros k K. unfold upd. destruct (eqs k t); reflexivity. }
  destruct G as (g & d2 & Eg & Mg & D2). rewrite Eg in H. assert (Ng : m <> g) by congruence.
  destruct (compiler e (command t opts g) src) as [|removed].
  - destruct (popens e p); [|discriminate]. destruct (exec e src (upd (upd d2 g (Some src)) t None)) as [[[o k] d3]| | |] eqn:Ex'; try discriminate.
    injection H as <- <-. right. exists (upd (upd d2 g (Some src)) t None), (o, k), d3. split; [assumption|]. split; [|now rewrite upd_other].
    unfold upd at 1. destruct (eqs m t) eqn:E; [apply eqs_eq in E; congruence|]. rewrite upd_other, D2 by assumption. unfold upd. now rewrite E.
  - injection H as <- <-. left. unfold upd at 1. destruct (eqs m t) eqn:E; [apply eqs_eq in E; congruence|].
    assert (D : d2 m = d m) by (rewrite D2 by assumption; unfold upd; now rewrite E). destruct removed; [now rewrite upd_other|assumption].
Qed.
Lemma parse_args_in l sl a b : parse_args l sl = (a, b) -> (a = fst sl \/ In a l) /\ (b = snd sl \/ In (str "--" ++ b) l).
Proof.
  revert sl. induction l as [|x l IH]; intros sl H; cbn [parse_args] in H. { subst sl. now split; left. }
  apply IH in H as [A B]. destruct (option_ x) eqn:E; cbn [fst snd] in *.
  - apply prefixb_true in E as [r ->]. change (skipn 2 (str "--" ++ r)) with r in B. split; [destruct A; [now left | right; now right]|].
    destruct B as [->|B]; [right; now left | right; now right].
  - split; [destruct A as [->|A]; [right; now left | right; now right] | destruct B; [now left | right; now right]].
Qed.
Lemma outname_cut base : exists a s b, base = a ++ s ++ b /\ outname base = a ++ b /\ In s [str ".hpp"; str ".hxx"; str ".h"; []].
Proof.
  unfold outname. cbn [cut].
  destruct (find (str ".hpp") base) as [i|] eqn:E1. { exists (firstn i base), (str ".hpp"), (skipn (i + length (str ".hpp")) base). split; [now apply find_inside | split; [reflexivity | now left]]. }
  destruct (find (str ".hxx") base) as [i|] eqn:E2. { exists (firstn i base), (str ".hxx"), (skipn (i + length (str ".hxx")) base). split; [now apply find_inside | split; [reflexivity | right; now left]]. }
  destruct (find (str ".h") base) as [i|] eqn:E3. { exists (firstn i base), (str ".h"), (skipn (i + length (str ".h")) base). split; [now apply find_inside | split; [reflexivity | right; right; now left]]. }
  exists base, [], []. cbn [app]. rewrite app_nil_r. repeat split. do 3 right. now left.
Qed.
Definition unimplemented : list text := [str "ocaml"; str "java"; str "ruby"; str "python"; str "perl"].
Lemma lookup_null lang : lookup lang infos = Some GNull -> In lang unimplemented.
Proof.
  unfold infos, unimplemented. cbn [lookup].
  destruct (eqs (str "php") lang) eqn:E1; [intros; discriminate|]. destruct (eqs (str "haskell") lang) eqn:E2; [intros; discriminate|].
  destruct (eqs (str "ocaml") lang) eqn:E3; [apply eqs_eq in E3; intros; now left|]. destruct (eqs (str "java") lang) eqn:E4; [apply eqs_eq in E4; intros; right; now left|].
  destruct (eqs (str "ruby") lang) eqn:E5; [apply eqs_eq in E5; intros; do 2 right; now left|]. destruct (eqs (str "python") lang) eqn:E6; [apply eqs_eq in E6; intros; do 3 right; now left|].
  destruct (eqs (str "perl") lang) eqn:E7; [apply eqs_eq in E7; intros; do 4 right; now left|]. intros; discriminate.
Qed.
Lemma ok_inj {A} (x y : A) : Ok x = Ok y -> y = x.
Proof. congruence. Qed.
Lemma template_keeps e base lang refl d d' m : template_main e base lang refl d = Ok d' ->
  d' m = d m \/ (exists a, m = a ++ str ".php") \/ (exists a, m = a ++ str ".hs") \/ (d' m = None /\ m = outname base /\ In lang unimplemented).
Proof.
  unfold template_main. intros H. destruct (lookup lang infos) as [[| |]|] eqn:L.
  - apply ok_inj in H as ->. unfold save. destruct (opens e _); [|now left]. destruct (eqs m (outname base ++ str ".php")) eqn:E.
    + apply eqs_eq in E as ->. right. left. now exists (outname base).
    + left. apply upd_other. intros K. apply eqs_eq in K. congruence.
  - destruct refl; [discriminate|]. apply ok_inj in H as ->. unfold save. destruct (opens e _); [|now left]. destruct (eqs m (capital (outname base ++ str ".hs"))) eqn:E.
    + apply eqs_eq in E as ->. right. right. left. destruct (outname base) as [|c r]; [now exists []|]. cbn [app capital]. eexists. rewrite app_comm_cons. reflexivity.
    + left. apply upd_other. intros K. apply eqs_eq in K. congruence.
  - apply ok_inj in H as ->. destruct (eqs m (outname base)) eqn:E.
    + apply eqs_eq in E as ->. right. right. right. rewrite upd_same. repeat split. now apply lookup_null.
    + left. apply upd_other. intros K. apply eqs_eq in K. congruence.
  - apply ok_inj in H as ->. now left.
Qed.
Lemma read_filled_or sig lang refl : ~ In 34 sig -> ~ In 34 lang ->
  read_template (filled t0 t1 t2 t3 t4 sig lang refl) = Some (sig, lang, refl) \/ read_template (filled t0 t1 t2 t3 t4 sig lang refl) = None.
Proof.
  intros Hs Hl. unfold filled, read_template. rewrite strip_app.
  assert (E1 : forall s y, ~ In 34 s -> until_quote (s ++ t1 ++ y) = (s, t1 ++ y)) by (intros s y I; apply (until_quote_app s (tl t1 ++ y)), I).
  assert (E2 : forall s y, ~ In 34 s -> until_quote (s ++ t2 ++ y) = (s, t2 ++ y)) by (intros s y I; apply (until_quote_app s (tl t2 ++ y)), I).
  assert (E3 : forall s y, ~ In 34 s -> until_quote (s ++ t3 ++ y) = (s, t3 ++ y)) by (intros s y I; apply (until_quote_app s (tl t3 ++ y)), I).
  rewrite E1 by assumption. rewrite strip_app, E2, strip_app, E3, strip_app by assumption.
  rewrite app_length, Nat.add_sub, firstn_app, firstn_all, Nat.sub_diag. change (firstn 0 t4) with (@nil Z). rewrite app_nil_r, eqs_refl.
  destruct (literal sig && literal lang) eqn:E; [left|right]; cbn [andb]; rewrite E; reflexivity.
Qed.
Lemma inside_tail p s : inside p s -> forall q, inside p (q ++ s).
Proof. intros (a & b & ->) q. exists (q ++ a), b. now rewrite <- app_assoc. Qed.
Theorem main_keeps e inst (args : list text) d st d' n :
  Forall (fun a => ~ In 34 a /\ ~ inside l3 a) args -> main e inst args d = Ok (st, d') -> ~ mine n ->
  d' n = d n \/ (exists a, n = a ++ str ".php") \/ (exists a, n = a ++ str ".hs") \/
  (d' n = None /\ exists a s b lang, n = a ++ b /\ In (a ++ s ++ b) args /\ In s [str ".hpp"; str ".hxx"; str ".h"; []] /\ In lang unimplemented /\ In (str "--" ++ lang) args).
Proof.
  intros Ha H N. unfold main in H. destruct (length args <? 2)%nat eqn:L. { injection H as _ <-. now left. }
  destruct (parse_args args (nth 0 args [], [])) as [sig lang] eqn:P. apply parse_args_in in P as [Ps Pl]. cbn [fst snd] in Ps, Pl.
  destruct (eqs lang []) eqn:El. { injection H as _ <-. now left. }
  assert (Is : In sig args). { destruct Ps as [->|]; [|assumption]. apply nth_In. apply Nat.ltb_ge in L. lia. }
  assert (Il : In (str "--" ++ lang) args). { destruct Pl as [->|]; [discriminate|assumption]. }
  pose proof Ha as Ha'. rewrite Forall_forall in Ha'. destruct (Ha' _ Is) as [Qs Hs]. destruct (Ha' _ Il) as [Ql Hl].
  assert (Ql' : ~ In 34 lang) by (intros I; apply Ql, in_or_app; now right). assert (Hl' : ~ inside l3 lang) by (intros I; now apply Hl, inside_tail).
  destruct (eval_cpp e 0 0 (replace (if inst then extractor else []) hole_sig sig) (options args) d) as [[out d1]| | |] eqn:E1; try discriminate. cbn [obind] in H.
  assert (D1 : d1 n = d n).
  { destruct (eval_keeps _ _ _ _ _ _ _ _ _ E1 N) as [|(d2 & r & d3 & X & A & B)]; [assumption|]. rewrite B, <- A. unfold exec in X.
    replace (read_template _) with (@None (text * text * text)) in X. { now injection X as _ <-. }
    destruct inst; [now rewrite fill_extractor | reflexivity]. }
  destruct out as [out|]; [|injection H as _ <-; now left].
  destruct (eval_cpp e 2 1 _ (options args) d1) as [[out2 d2]| | |] eqn:E2; try discriminate. injection H as _ <-.
  destruct (eval_keeps _ _ _ _ _ _ _ _ _ E2 N) as [A|(da & r & db & X & A & B)]; [left; congruence|].
  unfold exec in X. destruct inst.
  - rewrite fill_template in X by assumption. destruct (read_filled_or sig lang (reflects 0 (words [] out)) Qs Ql') as [R|R]; rewrite R in X.
    + destruct (template_main e sig lang (reflects 0 (words [] out)) da) as [dc| | |] eqn:T; try discriminate. injection X as _ <-.
      destruct (template_keeps _ _ _ _ _ _ n T) as [K|[K|[K|(K & -> & I)]]]; [left; congruence | right; now left | right; right; now left |].
      right. right. right. split; [congruence|]. destruct (outname_cut sig) as (a & s & b & Hb & Ho & HI). exists a, s, b, lang. rewrite <- Hb. auto.
    + injection X as _ <-. left. congruence.
  - change (read_template (fill [] sig lang (words [] out))) with (@None (text * text * text)) in X. injection X as _ <-. left. congruence.
Qed.
