(** C42: configuration files parse to the written settings. *)
From Verif Require Import Common CommonLemmas Cgi_Model Ipv4_Model Config_Spec Config_Model Ipv4_Proof Config_Proof.
Local Open Scope Z_scope.

Lemma no_nul_lines lines its : Forall (fun l => ~ In 0 l) lines -> Forall2 says lines its -> Forall2 (fun l it => says (c_str l) it) lines its.
Proof.
  intros F H. revert F. induction H as [|l it ls its H _ IH]; intros F; [constructor|]. inversion F; subst. constructor; [now rewrite c_str_id|auto].
Qed.
(** Any file of lines that say something: every (section, key) has the value that is set last, or none if it is not set; the sections are those
    opened or used; blank lines and comments change nothing. *)
Theorem C42_last_value lines its t : text_of lines t -> Forall (fun l => ~ In 0 l) lines -> Forall2 says lines its ->
  exists d, init t = Parsed d /\
  (forall sec key, last_value (settings [] its) (sec, key) (lookup d sec key)) /\
  (forall sec, find d sec <> None <-> In sec (sections [] its)).
Proof.
  intros T F H. unfold init. rewrite (getlines_text lines t T []) by auto.
  replace (match lines with [] => [] | l :: ls => (rev [] ++ l) :: ls end) with lines by (destruct lines; reflexivity).
  pose proof (parse_lines_says its lines 1 [] [] [] (no_nul_lines _ _ F H)) as P. rewrite app_nil_r in P. rewrite P.
  destruct (apply_items its [] []) as [c d] eqn:E. exists d. split; [reflexivity|]. split.
  - intros sec key. pose proof (apply_items_lookup its [] [] sec key) as L. rewrite E in L. cbn [snd] in L.
    destruct L as [(v & L & ->)|[L ->]]; [exact L|exact L].
  - intros sec. pose proof (apply_items_sections its [] [] sec) as L. rewrite E in L. cbn [snd] in L. rewrite L. cbn [find]. intuition congruence.
Qed.
(** The value determined by last_value is unique. *)
Theorem C42_last_value_unique l sk v v' : last_value l sk v -> last_value l sk v' -> v = v'.
Proof.
  assert (D : forall (a b : list Z * list Z), {a = b} + {a <> b}) by (decide equality; apply list_eq_dec, Z.eq_dec).
  revert v v'. induction l as [|[sk' u] l IH]; intros v v' H H'.
  - destruct v as [v|]; [destruct H as ([|? ?] & ? & [=] & _)|]. destruct v' as [v'|]; [destruct H' as ([|? ?] & ? & [=] & _)|]. reflexivity.
  - assert (S : forall w, last_value ((sk', u) :: l) sk w -> last_value l sk w \/ (sk' = sk /\ w = Some u /\ forall x, ~ In (sk, x) l)).
    { intros w Hw. destruct w as [w|].
      - destruct Hw as ([|a l1] & l2 & E & Hl); cbn [app] in E.
        + right. injection E as E1 E2 E3. subst. auto.
        + left. exists l1, l2. split; [congruence|exact Hl].
      - left. intros x I. apply (Hw x). now right. }
    destruct (S v H) as [L|(E1 & E2 & E3)], (S v' H') as [L'|(F1 & F2 & F3)].
    + now apply IH.
    + subst. destruct v as [v|].
      * destruct L as (l1 & l2 & -> & _). exfalso. apply (F3 v). apply in_or_app. right. now left.
      * exfalso. apply (H u). now left.
    + subst. destruct v' as [v'|].
      * destruct L' as (l1 & l2 & -> & _). exfalso. apply (E3 v'). apply in_or_app. right. now left.
      * exfalso. apply (H' u). now left.
    + congruence.
Qed.
(** The first malformed line is reported with its number, whatever follows. *)
Theorem C42_malformed_line lines its bad more t : text_of (lines ++ bad :: more) t -> Forall (fun l => ~ In 0 l) (lines ++ [bad]) ->
  Forall2 says lines its -> malformed bad -> exists pos msg, init t = Parse_error (Z.of_nat (length lines) + 1) pos msg.
Proof.
  intros T F H M. apply Forall_app in F as [F Fb]. inversion Fb as [|? ? Nb _]; subst. unfold init. rewrite (getlines_text _ t T []) by auto.
  replace (match lines ++ bad :: more with [] => [] | l :: ls => (rev [] ++ l) :: ls end) with (lines ++ bad :: more) by (destruct lines; reflexivity).
  rewrite (parse_lines_says its lines 1 [] [] (bad :: more) (no_nul_lines _ _ F H)). destruct (apply_items its [] []) as [c d].
  cbn [parse_lines]. rewrite <- (c_str_id bad Nb) in M. destruct (parse_line_malformed (1 + Z.of_nat (length lines)) bad c d M) as (pos & e & ->).
  exists pos, e. f_equal. lia.
Qed.
(** Every line says one thing or is malformed, and not both: the two theorems above cover every file without NUL. *)
Theorem C42_lines_total line : ~ In 0 line ->
  ((exists it, says line it) \/ malformed line) /\
  (forall it it', says line it -> says line it' -> it = it') /\ (forall it, says line it -> ~ malformed line).
Proof.
  intros N. split; [apply says_or_malformed|]. split.
  - intros it it' H H'. rewrite <- (c_str_id line N) in H, H'. apply (parse_line_says 0 line it [] []) in H. apply (parse_line_says 0 line it' [] []) in H'.
    rewrite H in H'. destruct it, it'; cbn in H'; congruence.
  - intros it H M. rewrite <- (c_str_id line N) in H, M. apply (parse_line_says 0 line it [] []) in H. destruct (parse_line_malformed 0 line [] [] M) as (p & e & M').
    congruence.
Qed.
Theorem C42_texts_total t : exists lines, text_of lines t.
Proof. apply text_exists. Qed.
(** A NUL ends its line. *)
Theorem C42_nul n line line' cur dat : ~ In 0 line -> 
  match parse_line n (line ++ 0 :: line') cur dat, parse_line n line cur dat with
  | Parsed a, Parsed b => a = b
  | Parse_error l _ e, Parse_error l' _ e' => l = n /\ l' = n /\ e = e'
  | _, _ => False
  end.
Proof.
  intros N. assert (E : c_str (line ++ 0 :: line') = line).
  { clear cur dat. induction line as [|c s IH]; [reflexivity|]. cbn [app c_str In] in *. destruct (Z.eqb_spec c 0); [tauto|]. now rewrite IH by tauto. }
  unfold parse_line. rewrite E, (c_str_id line N). destruct (Cast_Model.skip_ws line) as [|c p]; [reflexivity|]. destruct (c =? 59); [reflexivity|].
  destruct (c =? 91).
  - destruct (strchr 93 (c :: p)) as [[a q]|]; [|auto]. destruct (Cast_Model.skip_ws q); auto.
  - destruct (strchr 61 (c :: p)) as [[a q]|]; auto.
Qed.

Definition demo_text : list Z :=
  str "top=1" ++ [10] ++ str "; comment = no" ++ [10; 10] ++ str "[a b] " ++ [10] ++ str "  x = "" q "" " ++ [10] ++ str "x=2" ++ [10] ++ str "y = a=b" ++ [10] ++ str "[c]" ++ [10] ++ str "[a b]" ++ [10] ++ str "x=3".
Definition demo_items : list item :=
  [Setting (str "top") (str "1"); Nothing; Nothing; Section_ (str "a b"); Setting (str "x") (str " q "); Setting (str "x") (str "2");
   Setting (str "y") (str "a=b"); Section_ (str "c"); Section_ (str "a b"); Setting (str "x") (str "3")].
Example C42_last_value_nonvacuous :
  match init demo_text with
  | Parsed d => lookup d (str "a b") (str "x") = Some (str "3") /\ lookup d (str "a b") (str "y") = Some (str "a=b") /\ lookup d [] (str "top") = Some (str "1") /\
                lookup d (str "c") (str "x") = None /\ find d (str "c") = Some [] /\ at_ d (str "zz") (str "x") = []
  | _ => False
  end.
Proof. vm_compute. repeat split; reflexivity. Qed.
Example C42_says_nonvacuous : says (str "  x = "" q "" ") (Setting (str "x") (str " q ")) /\ says (str "[a b] ") (Section_ (str "a b")).
Proof.
  split.
  - apply (says_setting (str "  ") (str "x") (str " ") (str " ") (str """ q """) (str " ") (str " q "));
      try (repeat constructor; cbn [In]; tauto); try (cbn; lia); try (cbn; unfold blank; cbn [In]; lia).
    all: vm_compute; intuition discriminate.
  - apply (says_section [] (str "a b") (str " ")); try (repeat constructor; cbn [In]; tauto). vm_compute. intuition discriminate.
Qed.
Example C42_malformed_nonvacuous :
  init (str "a=1" ++ [10] ++ str "[sec" ++ [10] ++ str "b") = Parse_error 2 4 Close_missing /\
  init ([10] ++ str "a=1" ++ [10] ++ str "[sec] x" ++ [10] ++ str "b") = Parse_error 3 6 Invalid_character /\
  init (str "novalue") = Parse_error 1 7 Equals_missing /\ malformed (str "[sec] x").
Proof.
  do 3 (split; [vm_compute; reflexivity|]). apply (mal_behind [] (str "sec") [32] 120 []); try (repeat constructor; cbn [In]; tauto); vm_compute; intuition discriminate.
Qed.
(** A file that cannot be opened gives no error but a configuration without sections, as an empty file does (config_file.cpp:47-51). *)
Theorem C42_missing_file : forall sec key, exists d, load None = Parsed d /\ load (Some []) = Parsed d /\ lookup d sec key = None /\ at_ d sec key = [] /\ find d sec = None.
Proof. intros sec key. exists []. repeat split. Qed.
Example C42_missing_file_nonvacuous : load (Some (str "a=1")) = Parsed [([], [(str "a", str "1")])].
Proof. vm_compute. reflexivity. Qed.
(** A read that fails in the middle of the file gives no error either: the result is that of a file that ends with the last whole line before it. *)
Theorem C42_read_failure : forall lines part, Forall (fun l => ~ In 10 l) lines -> ~ In 10 part ->
  load_broken (flat_map (fun l => l ++ [10]) lines ++ part) = init (flat_map (fun l => l ++ [10]) lines).
Proof.
  intros lines part Hl Hp. unfold load_broken, init. f_equal.
  assert (G : forall l acc rest, ~ In 10 l -> finished acc (l ++ rest) = finished (rev l ++ acc) rest /\ getlines acc (l ++ rest) = getlines (rev l ++ acc) rest).
  { induction l as [|c l IH]; intros acc rest H; [split; reflexivity|]. cbn [In] in H. cbn [app finished getlines rev]. rewrite (proj2 (Z.eqb_neq c 10)) by tauto.
    rewrite <- app_assoc. apply IH. tauto. }
  induction Hl as [|l lines H Hl IH]; cbn [flat_map app].
  - rewrite <- (app_nil_r part), (proj1 (G part [] [] Hp)). reflexivity.
  - rewrite <- !app_assoc. rewrite (proj1 (G l [] _ H)), (proj2 (G l [] _ H)). cbn [app finished getlines]. change (10 =? 10) with true. cbv iota. now rewrite IH.
Qed.
(** So settings behind the place are missing, and the one in the line that was being read. *)
Example C42_read_failure_nonvacuous : load_broken (str "a=1" ++ [10] ++ str "b=2") = Parsed [([], [(str "a", str "1")])] /\
  init (str "a=1" ++ [10] ++ str "b=2" ++ [10]) = Parsed [([], [(str "a", str "1"); (str "b", str "2")])] /\ load_broken [] = Parsed [].
Proof. vm_compute. auto. Qed.
Print Assumptions C42_read_failure.
Print Assumptions C42_missing_file.
Print Assumptions C42_last_value.
Print Assumptions C42_last_value_unique.
Print Assumptions C42_malformed_line.
Print Assumptions C42_lines_total.
Print Assumptions C42_texts_total.
Print Assumptions C42_nul.
