(** C32, C73: what is proved about form parsing. *)
From Verif Require Import Common CommonLemmas UriCodec_Model UriCodec_Spec UriCodec_Proof Http_Model Cgi_Spec Cgi_Model Cgi_Proof CgiMulti_Proof.
Local Open Scope Z_scope.

(** Pairs of any byte strings, NUL included, in any valid encoding. *)
Theorem C32_form_pairs : forall ps text, form_text ps text ->
  exists c, parse_input text empty_cgi = Ok c /\
  forall k, find (query c) k = last_of (values k ps) /\ find (multi_query c) k = all_of (values k ps).
Proof.
  intros ps text H. exists (add_all ps empty_cgi). split; [apply parse_form; [exact H|lia]|].
  apply (queries_add_all ps empty_cgi []), queries_empty.
Qed.
Example C32_nonvacuous : form_text [(str "a", [38; 0; 61]); ([], []); (str "a", str " ")] (str "%61=%26%00%3d&=&a=+").
Proof.
  apply (ft_more (str "a") [38; 0; 61] (str "%61") (str "%26%00%3d") ([], []) [(str "a", str " ")] (str "=&a=+")).
  - apply (pf_hex 6 1 [] [] 54 49); [apply (hex_num 6); lia|apply (hex_num 1); lia|constructor].
  - apply (pf_hex 2 6 _ _ 50 54); [apply (hex_num 2); lia|apply (hex_num 6); lia|].
    apply (pf_hex 0 0 _ _ 48 48); [apply (hex_num 0); lia|apply (hex_num 0); lia|].
    apply (pf_hex 3 13 [] [] 51 100); [apply (hex_num 3); lia|apply (hex_low 13); lia|constructor].
  - apply (ft_more [] [] [] [] (str "a", str " ") [] (str "a=+")); [constructor..|].
    apply (ft_one (str "a") (str " ") (str "a") (str "+")).
    + constructor; [unfold unreserved; cbn; tauto|constructor].
    + constructor. constructor.
Qed.
(** The encoder of the library makes such a text. *)
Definition url_encoded (ps : list (list Z * list Z)) : list Z :=
  match ps with
  | [] => []
  | (k, v) :: r => uri_encode k ++ 61 :: uri_encode v ++ flat_map (fun p => 38 :: uri_encode (fst p) ++ 61 :: uri_encode (snd p)) r
  end.
Theorem C32_form_encoded : forall ps, Forall (fun p => bytes (fst p) /\ bytes (snd p)) ps ->
  exists c, parse_input (url_encoded ps) empty_cgi = Ok c /\
  forall k, find (query c) k = last_of (values k ps) /\ find (multi_query c) k = all_of (values k ps).
Proof.
  intros ps H. apply C32_form_pairs. induction H as [|(k, v) ps [Hk Hv] H IH]; [constructor|]. cbn [fst snd] in *.
  destruct ps as [|(k2, v2) ps]; cbn [url_encoded flat_map].
  - rewrite app_nil_r. constructor; now apply encode_percent_form.
  - cbn [fst snd app]. rewrite <- app_assoc. cbn [app]. constructor; [now apply encode_percent_form..|].
    cbn [url_encoded] in IH. exact IH.
Qed.
Example C32_encoded_nonvacuous : Forall (fun p => bytes (fst p) /\ bytes (snd p)) [(str "a&", str "x y"); (str "a&", [0; 255])].
Proof. constructor; [|constructor; [|constructor]]; (split; apply bytesb_spec; reflexivity). Qed.
Theorem C32_form_total : forall text c, exists c', parse_input text c = Ok c'.
Proof. intros. apply parse_loop_total. lia. Qed.

(** Multipart forms whose parts contain no line starting with two dashes. *)
Theorem C73_multipart_partial : forall bd ps pre epi, ~ In 10 bd -> preamble_ok bd pre -> Forall part_ok ps ->
  exists c, parse_multipart_input (lines pre ++ multipart_text bd ps ++ epi) bd empty_cgi = Ok c /\
  forall k, find (query c) k = last_of (values k (pairs ps)) /\ find (multi_query c) k = all_of (values k (pairs ps)) /\
            find (file c) k = last_of (values k (files ps)).
Proof.
  intros bd ps pre epi Hb Hpre Hps. exists (fold_left step ps empty_cgi). split; [now apply multipart_all|].
  destruct (steps_all ps empty_cgi [] [] queries_empty) as [Hq Hf]; [intros k; reflexivity|].
  intros k. destruct (Hq k). split; [assumption|]. split; [assumption|apply Hf].
Qed.
Lemma not_contains (x s : list Z) : find_sub x s = None -> ~ contains x s.
Proof.
  intros H (a & b & ->). revert H. induction a as [|c a IH]; cbn [app].
  - destruct x as [|y x]; [destruct b; discriminate|]. cbn [app find_sub]. 
    replace (prefix (y :: x) (y :: x ++ b)) with true by (symmetry; apply prefix_iff; now exists b). discriminate.
  - cbn [find_sub]. destruct (prefix x (c :: a ++ x ++ b)); [discriminate|].
    destruct (find_sub x (a ++ x ++ b)); [discriminate|]. intros _. now apply IH.
Qed.
Definition C73_parts : list part :=
  [Field (str "n") (str "line" ++ [13; 10] ++ str "-b"); File (str "n") (str "x.txt") (str "text/plain") [0; 10; 255; 13; 10]].
Lemma C73_plain n : forallb (fun c => negb ((c =? 34) || (c =? 59) || (c =? 10) || (c =? 13))) n = true -> plain n.
Proof.
  intros H. assert (G : forall c, In c n -> c <> 34 /\ c <> 59 /\ c <> 10 /\ c <> 13).
  { intros c Hc. rewrite forallb_forall in H. specialize (H c Hc).
    destruct (Z.eqb_spec c 34), (Z.eqb_spec c 59), (Z.eqb_spec c 10), (Z.eqb_spec c 13); cbn in H; try discriminate. auto. }
  unfold plain. repeat split; intros Hc; apply G in Hc; intuition.
Qed.
Example C73_multipart_nonvacuous : Forall part_ok C73_parts /\ preamble_ok (str "XyZ") [str "hello"; [13]].
Proof.
  split.
  - constructor; [|constructor; [|constructor]]; cbn [part_ok].
    + split; [apply C73_plain; reflexivity|apply not_contains; reflexivity].
    + split; [apply C73_plain; reflexivity|]. split; [apply C73_plain; reflexivity|].
      split; [apply not_in_lit; reflexivity|]. split; apply not_contains; reflexivity.
  - unfold preamble_ok. apply Forall_cons; [|apply Forall_cons; [|apply Forall_nil]].
    all: split; [apply not_in_lit; reflexivity|intros r H; discriminate].
Qed.
(** Lines may start with two dashes if the part goes on for the length of the boundary; and the header of each file is kept. *)
Theorem C73_dashes_partial : forall bd ps pre epi, ~ In 10 bd -> ~ In 13 bd -> preamble_ok bd pre -> Forall (part_clear bd) ps ->
  exists c, parse_multipart_input (lines pre ++ multipart_text bd ps ++ epi) bd empty_cgi = Ok c /\
  forall k, find (query c) k = last_of (values k (pairs ps)) /\ find (multi_query c) k = all_of (values k (pairs ps)) /\
            find (file c) k = last_of (values k (files ps)) /\ find (file_info c) k = last_info k (infos ps).
Proof.
  intros bd ps pre epi Hb Hr Hpre Hps. exists (fold_left step ps empty_cgi). split; [now apply multipart_all2|].
  destruct (steps_all ps empty_cgi [] [] queries_empty) as [Hq Hf]; [intros k; reflexivity|].
  intros k. destruct (Hq k). split; [assumption|]. split; [assumption|]. split; [apply Hf|].
  exact (informed_steps ps empty_cgi [] (fun k => eq_refl) k).
Qed.
Definition C73_dashed : list part :=
  [Field (str "n") (str "-----BEGIN" ++ [13; 10] ++ str "--XyA" ++ [10] ++ str "--XY"); File (str "n") (str "x.txt") (str "text/plain") (str "--Xy")].
(** Whether each line with two dashes goes on, computed. *)
Fixpoint clear_b (bd s : list Z) : bool :=
  match s with
  | [] => true
  | _ :: r => (negb (prefix (10 :: str "--") s) || ((length bd <=? S (length (skipn 3 s)))%nat && negb (prefix bd (skipn 3 s)))) && clear_b bd r
  end.
Lemma clear_by bd s : clear_b bd s = true -> clear bd s.
Proof.
  intros H a. revert s H. induction a as [|x a IH]; intros s H b ->; cbn [app clear_b] in H; apply andb_prop in H as [H1 H2].
  - clear H2. replace (prefix (10 :: str "--") (10 :: str "--" ++ b)) with true in H1 by (symmetry; apply prefix_iff; now exists b).
    change (skipn 3 (10 :: str "--" ++ b)) with b in H1. cbn [negb orb] in H1. apply andb_prop in H1 as [H1 H2]. apply Nat.leb_le in H1.
    split; [exact H1|]. intros r ->. replace (prefix bd (bd ++ r)) with true in H2 by (symmetry; apply prefix_iff; now exists r). discriminate.
  - exact (IH _ H2 b eq_refl).
Qed.
Example C73_dashes_nonvacuous : Forall (part_clear (str "XyZ")) C73_dashed /\ ~ Forall part_ok C73_dashed.
Proof.
  split.
  - constructor; [|constructor; [|constructor]]; cbn [part_clear].
    + split; [apply C73_plain; reflexivity|apply clear_by; vm_compute; reflexivity].
    + split; [apply C73_plain; reflexivity|]. split; [apply C73_plain; reflexivity|].
      split; [apply not_in_lit; reflexivity|]. split; [apply not_contains; reflexivity|apply clear_by; vm_compute; reflexivity].
  - intros H. apply Forall_inv in H. destruct H as [_ H]. apply H.
    exists (str "Content-Disposition: form-data; name=" ++ quoted (str "n") ++ crlf ++ [13]), (str "---BEGIN" ++ [13; 10] ++ str "--XyA" ++ [10] ++ str "--XY").
    vm_compute. reflexivity.
Qed.
(** Several files for one name, as RFC 2388 asks for them: the inner boundary is taken with the CR of its line, the closing line is
    not seen, and the form is refused.  With lines that end in LF only, the files are found. *)
Theorem C73_nested_refuted : exists bd bi n fs, plain bd /\ plain bi /\ plain n /\ Forall (fun p => plain (fst p) /\ plain (snd p)) fs /\
  parse_multipart_input (nested_text crlf bd bi n fs) bd empty_cgi = Throw /\
  exists c, parse_multipart_input (nested_text [10] bd bi n fs) bd empty_cgi = Ok c /\
  forall k, find (file c) k = last_of (values k fs).
Proof.
  exists (str "AaB"), (str "BbC"), (str "files"), [(str "f1", str "one"); (str "f2", str "two")].
  do 3 (split; [apply C73_plain; reflexivity|]).
  split; [repeat apply Forall_cons; try apply Forall_nil; split; apply C73_plain; reflexivity|].
  split; [vm_compute; reflexivity|]. eexists. split; [vm_compute; reflexivity|]. intros k. unfold values. cbn [file filter map fst snd find].
  unfold eq_str. change (str "f1") with [102; 49]. change (str "f2") with [102; 50].
  unfold eqs. destruct (list_eq_dec Z.eq_dec [102; 49] k) as [<-|N]; [reflexivity|].
  destruct (list_eq_dec Z.eq_dec [102; 50] k) as [<-|N2]; reflexivity.
Qed.
(** A value with a line that starts with two dashes but is not the boundary: the search for the boundary skips as many bytes as
    the boundary has, and with them the real one.  The next field is lost in the value of this one. *)
Theorem C73_multipart_refuted : exists bd ps, Forall (fun p => match p with Field n v => plain n /\ ~ contains bd v | File _ _ _ _ => False end) ps /\
  exists c, parse_multipart_input (multipart_text bd ps) bd empty_cgi = Ok c /\
  exists k, find (query c) k <> last_of (values k (pairs ps)).
Proof.
  exists (str "XyZabcdefgh"), [Field (str "a") (str "v" ++ [13; 10] ++ str "--w"); Field (str "b") (str "2")].
  split.
  - constructor; [|constructor; [|constructor]]; (split; [apply C73_plain; reflexivity|apply not_contains; reflexivity]).
  - eexists. split; [vm_compute; reflexivity|]. exists (str "b"). vm_compute. discriminate.
Qed.
(** A quoted name with a semicolon is cut: the field gets the empty name. *)
Theorem C73_semicolon_refuted : exists bd n v, ~ In 34 n /\ ~ In 10 n /\ ~ In 13 n /\
  exists c, parse_multipart_input (multipart_text bd [Field n v]) bd empty_cgi = Ok c /\ find (query c) n = None /\ find (query c) [] = Some v.
Proof.
  exists (str "XyZ"), (str "a;bcdefghijklmnopqrst"), (str "v"). split; [apply not_in_lit; reflexivity|].
  split; [apply not_in_lit; reflexivity|]. split; [apply not_in_lit; reflexivity|].
  eexists. split; [vm_compute; reflexivity|]. split; reflexivity.
Qed.
(** Whatever the text: parsed or refused, after finitely many steps. *)
Theorem C73_multipart_total : forall s bd c, (exists c', parse_multipart_input s bd c = Ok c') \/ parse_multipart_input s bd c = Throw.
Proof. intros. apply multipart_total. pose proof (weight_length s). lia. Qed.

Example C73_case_refused : parse_multipart_input (str "no boundary here") (str "XyZ") empty_cgi = Throw.
Proof. reflexivity. Qed.
Example C32_case : omap (fun c => (find (query c) (str "k"), find (multi_query c) (str "k"), find (query c) (str "e")))
  (parse_input (str "k=1&e&k=2%33") empty_cgi) = Ok (Some (str "23"), Some [str "1"; str "23"], Some []).
Proof. reflexivity. Qed.
Print Assumptions C32_form_pairs.
Print Assumptions C32_form_encoded.
Print Assumptions C32_form_total.
Print Assumptions C73_multipart_partial.
Print Assumptions C73_multipart_refuted.
Print Assumptions C73_semicolon_refuted.
Print Assumptions C73_multipart_total.
Print Assumptions C73_dashes_partial.
Print Assumptions C73_nested_refuted.
