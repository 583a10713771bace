(** C103: genrpc writes the client of a signature in the language asked for, and changes no other files. *)
From Verif Require Import Common NumText_Model Genrpc_Spec Genrpc_Model Genrpc_Proof.
Local Open Scope Z_scope.

(** genrpc --lang opts... sig, where all goes well: the words of the command line are plain, the compiler takes both programs with the options given,
    the names of the services are printed, temporary files can be made, and the client can be opened *)
Record goes_well (e : env) (lang : text) (opts : list text) (sig stem : text) (names : list text) (client : text) (d : files) : Prop := {
  gw_header : header sig stem;
  gw_stem : ~ inside (str ".h") stem;
  gw_opts : Forall shell_plain opts;
  gw_opts2 : Forall (fun a => ~ starts (str "--") a) opts;
  gw_sig : ~ starts (str "--") sig;
  gw_quotes : Forall (fun c => c <> 34 /\ c <> 92 /\ c <> 10) sig;
  gw_holes : ~ inside (str "<<<") sig;
  gw_names : Forall identifier names;
  gw_compiler : forall c t g, shell_plain t -> shell_plain g -> shell_args c ([str "g++"; str "-xc++"; t] ++ opts ++ [str "-lpficommon"; str "-o"; g]) ->
    compiler e c (x0 ++ sig ++ x1) = Good /\ compiler e c (filled t0 t1 t2 t3 t4 sig lang (services names)) = Good;
  gw_prints : prints e (x0 ++ sig ++ x1) = (lines names, true);
  gw_popens : forall n, popens e n = true;
  gw_six : forall n, exists x, six e n = Some x /\ length x = 6%nat /\ Forall (fun c => 97 <= c <= 122 \/ 65 <= c <= 90 \/ 48 <= c <= 57) x /\
    d (str "genrpctmp" ++ x) = None /\ d (str "genrpcexe" ++ x) = None;
  gw_opens : opens e client = true }.
Definition call (lang : text) (opts : list text) (sig : text) : list text := (str "--" ++ lang) :: opts ++ [sig].

Lemma well_main e lang opts sig stem names client d : lang = str "php" \/ lang = str "haskell" -> goes_well e lang opts sig stem names client d ->
  exists y d2, six_ok y /\ d (str "genrpcexe" ++ y) = None /\
    (forall m, d2 m = if eqs m (str "genrpcexe" ++ y) then Some (filled t0 t1 t2 t3 t4 sig lang (services names)) else d m) /\
    main e true (call lang opts sig) d = (let* d := template_main e sig lang (services names) d2 in Ok (0, upd d (str "genrpcexe" ++ y) None)).
Proof.
  intros Hl W. destruct W as [W1 W2 W3 W4 W5 W6 W7 W8 W9 W10 W11 W12 W13].
  destruct (W12 0%nat) as (a & A1 & A2 & A3 & A4 & A5). destruct (W12 1%nat) as (b & B1 & B2 & B3 & B4 & B5).
  destruct (W12 2%nat) as (c & C1 & C2 & C3 & C4 & C5). destruct (W12 3%nat) as (y & D1 & D2 & D3 & D4 & D5).
  assert (G : lang <> [] /\ ~ inside l3 lang /\ in_quotes lang).
  { assert (I : forall s, find l3 s = None -> ~ inside l3 s) by (intros s E K; now apply find_some_inside in K).
    destruct Hl as [-> | ->]; (split; [discriminate | split; [apply I; vm_compute; reflexivity|]]); repeat apply Forall_cons; try apply Forall_nil; repeat split; intros E; vm_compute in E; discriminate. }
  destruct G as (G1 & G2 & G3).
  destruct (main_documented e lang opts sig names d a b c y) as (d2 & E2 & E); try assumption; try (split; assumption).
  exists y, d2. repeat split; try assumption; apply E2.
Qed.

(** The PHP client is written beside the header, and nothing else is changed. *)
Theorem C103_php_partial : forall e opts sig stem names d,
  goes_well e (str "php") opts sig stem names (stem ++ str ".php") d ->
  exists d', main e true (call (str "php") opts sig) d = Ok (0, d') /\ written d (stem ++ str ".php") (php_client e sig (services names)) d'.
Proof.
  intros e opts sig stem names d W. destruct (well_main _ _ _ _ _ _ _ _ (or_introl eq_refl) W) as (y & d2 & Hy & Fy & D2 & E).
  destruct W as [W1 W2 _ _ _ _ _ _ _ _ _ _ W3].
  rewrite E. unfold template_main. change (lookup (str "php") infos) with (Some GPhp). cbn [obind]. rewrite (outname_header _ _ W1 W2). unfold save. rewrite W3.
  eexists. split; [reflexivity|]. pose proof (dot_not_exe (stem ++ str ".php") stem y Hy (or_introl eq_refl)) as N. split.
  - rewrite upd_other by assumption. apply upd_same.
  - intros m Hm. unfold upd. rewrite (eqs_neq m (stem ++ str ".php")) by assumption. destruct (eqs m (str "genrpcexe" ++ y)) eqn:Em.
    + apply eqs_eq in Em as ->. congruence.
    + rewrite D2, Em. reflexivity.
Qed.
(** So is the Haskell client, if there is a service; its name begins with a large letter. *)
Theorem C103_haskell_partial : forall e opts sig stem names d, names <> [] ->
  goes_well e (str "haskell") opts sig stem names (large stem ++ str ".hs") d ->
  exists d', main e true (call (str "haskell") opts sig) d = Ok (0, d') /\ written d (large stem ++ str ".hs") (hs_client e sig (services names)) d'.
Proof.
  intros e opts sig stem names d Nn W. destruct (well_main _ _ _ _ _ _ _ _ (or_intror eq_refl) W) as (y & d2 & Hy & Fy & D2 & E).
  destruct W as [W1 W2 _ _ _ _ _ _ _ _ _ _ W3].
  rewrite E. unfold template_main. change (lookup (str "haskell") infos) with (Some GHs). apply services_nonempty in Nn. destruct (services names) as [|c0 r0] eqn:Sv; [congruence|].
  cbn [obind]. rewrite (outname_header _ _ W1 W2).
  assert (C : capital (stem ++ str ".hs") = large stem ++ str ".hs") by (destruct stem; reflexivity). rewrite C. unfold save. rewrite W3.
  eexists. split; [reflexivity|]. pose proof (dot_not_exe (large stem ++ str ".hs") (large stem) y Hy (or_intror eq_refl)) as N. split.
  - rewrite upd_other by assumption. apply upd_same.
  - intros m Hm. unfold upd. rewrite (eqs_neq m (large stem ++ str ".hs")) by assumption. destruct (eqs m (str "genrpcexe" ++ y)) eqn:Em.
    + apply eqs_eq in Em as ->. congruence.
    + rewrite D2, Em. reflexivity.
Qed.
(** Whatever the command line (without double quotes and "<<<") and whatever happens: files other than clients and genrpc's own executables are only changed by the
    languages that are not implemented, and then only the file that is named like an argument without the suffix of a header; it is deleted. *)
Theorem C103_keeps_partial : forall e inst (args : list text) d st d' n,
  Forall (fun a => ~ In 34 a /\ ~ inside (str "<<<") a) args -> main e inst args d = Ok (st, d') -> ~ starts (str "genrpcexe") n ->
  d' n = d n \/ (exists a, n = a ++ str ".php") \/ (exists a, n = a ++ str ".hs") \/
  (d' n = None /\ exists a s b lang, n = a ++ b /\ In (a ++ s ++ b) args /\ In s [str ".hpp"; str ".hxx"; str ".h"; []] /\
     In lang [str "ocaml"; str "java"; str "ruby"; str "python"; str "perl"] /\ In (str "--" ++ lang) args).
Proof. exact main_keeps. Qed.
(** If the exit status is not 0, nothing was changed. *)
Theorem C103_status_partial : forall e inst (args : list text) d st d', main e inst args d = Ok (st, d') -> st <> 0 -> same d d'.
Proof.
  intros e inst args d st d' H N n. unfold main in H. destruct (length args <? 2)%nat. { injection H as <- _. congruence. }
  destruct (parse_args args (nth 0 args [], [])) as [sig lang]. destruct (eqs lang []). { injection H as _ <-. reflexivity. }
  destruct (eval_cpp e 0 0 _ (options args) d) as [[[out|] d1]| | |]; try discriminate; cbn [obind] in H.
  - destruct (eval_cpp e 2 1 _ (options args) d1) as [[o d2]| | |]; try discriminate. cbn [obind] in H. injection H as <- _. congruence.
  - injection H as <- _. congruence.
Qed.

(** An environment in which all goes well *)
Definition fine : env := {|
  six := fun _ => Some (str "abcdef"); compiler := fun _ _ => Good; popens := fun _ => true; prints := fun _ => (str "Calc" ++ [10], true);
  php_client := fun _ _ => str "<?"; hs_client := fun _ _ => str "module"; opens := fun n => negb (prefixb (str "Sub/") n) |}.
Definition only (l : list (text * text)) : files := fun n => match List.find (fun x => eqs (fst x) n) l with Some x => Some (snd x) | None => None end.
Definition here : files := only [(str "calc.h", str "RPC_GEN"); (str "calc", str "ELF")].
Definition c (s : list String.string) : list text := map str s.
(** The files of these names after it *)
Definition look (r : outcome (Z * files)) (l : list text) : outcome (Z * list (option text)) := omap (fun x => (fst x, map (snd x) l)) r.

Lemma C103_fine lang client : lang = str "php" \/ lang = str "haskell" -> opens fine client = true ->
  goes_well fine lang (c ["-I."; "-O2"]%string) (str "calc.h") (str "calc") (c ["Calc"]%string) client here.
Proof.
  intros Hl Hc.
  assert (I : forall p s, find p s = None -> ~ inside p s) by (intros p s E K; now apply find_some_inside in K).
  assert (B : forall p s, prefixb p s = false -> ~ starts p s) by (intros p s E [r ->]; now rewrite prefixb_app in E).
  assert (P : forall w, w <> [] -> forallb (fun c => ((97 <=? c) && (c <=? 122)) || ((65 <=? c) && (c <=? 90)) || ((43 <=? c) && (c <=? 58)) || (c =? 61) || (c =? 95)) w = true -> shell_plain w).
  { intros w N H. split; [assumption|]. apply Forall_forall. intros x Ix. eapply forallb_forall in H; [|exact Ix]. lia. }
  split.
  - now left.
  - apply I. vm_compute. reflexivity.
  - repeat apply Forall_cons; try apply Forall_nil; (apply P; [discriminate | reflexivity]).
  - repeat apply Forall_cons; try apply Forall_nil; apply B; reflexivity.
  - apply B. reflexivity.
  - repeat apply Forall_cons; try apply Forall_nil; repeat split; intros E; vm_compute in E; discriminate.
  - apply I. vm_compute. reflexivity.
  - repeat apply Forall_cons; try apply Forall_nil. split; [discriminate|]. apply Forall_forall. intros x Ix. vm_compute in Ix. intuition lia.
  - intros. now split.
  - vm_compute. reflexivity.
  - reflexivity.
  - intros n. exists (str "abcdef"). split; [reflexivity|]. split; [reflexivity|]. split; [|split; vm_compute; reflexivity].
    apply Forall_forall. intros x Ix. vm_compute in Ix. intuition lia.
  - assumption.
Qed.
Example C103_nonvacuous : goes_well fine (str "php") (c ["-I."; "-O2"]%string) (str "calc.h") (str "calc") (c ["Calc"]%string) (str "calc" ++ str ".php") here /\
  goes_well fine (str "haskell") (c ["-I."; "-O2"]%string) (str "calc.h") (str "calc") (c ["Calc"]%string) (large (str "calc") ++ str ".hs") here /\
  look (main fine true (c ["--php"; "-I."; "-O2"; "calc.h"]%string) here) (c ["calc.h"; "calc"; "calc.php"; "genrpctmpabcdef"; "genrpcexeabcdef"]%string)
    = Ok (0, [Some (str "RPC_GEN"); Some (str "ELF"); Some (str "<?"); None; None]) /\
  look (main fine true (c ["--haskell"; "calc.h"]%string) here) (c ["calc.h"; "calc"; "Calc.hs"]%string) = Ok (0, [Some (str "RPC_GEN"); Some (str "ELF"); Some (str "module")]).
Proof.
  split; [apply C103_fine; [now left | reflexivity]|]. split; [apply C103_fine; [now right | reflexivity]|]. split; vm_compute; reflexivity.
Qed.
(** genrpc --ruby calc.h deletes the file calc, and genrpc --ruby calc deletes the signature itself; both end with status 0. *)
Theorem C103_deletes_refuted : exists e d,
  look (main e true (c ["--ruby"; "calc.h"]%string) d) (c ["calc.h"; "calc"]%string) = Ok (0, [Some (str "RPC_GEN"); None]) /\ d (str "calc") = Some (str "ELF") /\
  look (main e true (c ["--ruby"; "calc"]%string) d) (c ["calc.h"; "calc"]%string) = Ok (0, [Some (str "RPC_GEN"); None]).
Proof. exists fine, here. split; [|split]; vm_compute; reflexivity. Qed.
(** The exit status is 0 though no client is there: the program could not be compiled, the client could not be opened, or nobody knows the language.
    After a failed compilation the file for the executable is left. *)
Definition no_compiler : env := {|
  six := six fine; compiler := fun _ _ => Failed false; popens := popens fine; prints := prints fine; php_client := php_client fine; hs_client := hs_client fine; opens := opens fine |}.
Definition read_only : env := {|
  six := six fine; compiler := compiler fine; popens := popens fine; prints := prints fine; php_client := php_client fine; hs_client := hs_client fine; opens := fun _ => false |}.
Theorem C103_status_refuted :
  look (main no_compiler true (c ["--php"; "calc.h"]%string) here) (c ["calc.php"; "genrpcexeabcdef"]%string) = Ok (0, [None; Some []]) /\
  look (main read_only true (c ["--php"; "calc.h"]%string) here) (c ["calc.php"; "genrpcexeabcdef"]%string) = Ok (0, [None; None]) /\
  look (main fine true (c ["--PHP"; "calc.h"]%string) here) (c ["calc.php"; "genrpcexeabcdef"]%string) = Ok (0, [None; None]).
Proof. split; [|split]; vm_compute; reflexivity. Qed.
(** An option of the compiler with two dashes is taken for the language. *)
Theorem C103_option_refuted : look (main fine true (c ["--php"; "--std=c++11"; "calc.h"]%string) here) (c ["calc.php"]%string) = Ok (0, [None]).
Proof. vm_compute. reflexivity. Qed.
(** The first ".h" is cut out, not the one at the end; and of the name of a directory the first letter is made large for Haskell. *)
Theorem C103_name_refuted :
  look (main fine true (c ["--php"; "web.host/calc.h"]%string) here) (c ["web.host/calc.php"; "webost/calc.h.php"]%string) = Ok (0, [None; Some (str "<?")]) /\
  look (main fine true (c ["--haskell"; "sub/calc.h"]%string) here) (c ["sub/calc.hs"; "sub/Calc.hs"; "Sub/calc.hs"]%string) = Ok (0, [None; None; None]).
Proof. split; vm_compute; reflexivity. Qed.
(** Undefined behaviour: no temporary file can be made; Haskell without a service. *)
Definition full_disk : env := {|
  six := fun _ => None; compiler := compiler fine; popens := popens fine; prints := prints fine; php_client := php_client fine; hs_client := hs_client fine; opens := opens fine |}.
Definition no_service : env := {|
  six := six fine; compiler := compiler fine; popens := popens fine; prints := fun _ => ([], true); php_client := php_client fine; hs_client := hs_client fine; opens := opens fine |}.
Theorem C103_undefined_refuted :
  main full_disk true (c ["--php"; "calc.h"]%string) here = UB /\ main no_service true (c ["--haskell"; "calc.h"]%string) here = UB.
Proof. split; vm_compute; reflexivity. Qed.
(** An option with a blank reaches the compiler as two. *)
Theorem C103_blank_refuted :
  has_words (command (str "t") (options (c ["--php"; "-DT=unsigned int"; "calc.h"]%string)) (str "g")) (c ["g++"; "-xc++"; "t"; "-DT=unsigned"; "int"; "-lpficommon"; "-o"; "g"]%string).
Proof.
  assert (I : forall s, existsb (Z.eqb 32) s = false -> ~ In 32 s). { intros s E K. assert (existsb (Z.eqb 32) s = true) by (apply existsb_exists; now exists 32). congruence. }
  change (has_words (str "g++" ++ 32 :: str "-xc++" ++ 32 :: str "t" ++ 32 :: 32 :: str "-DT=unsigned" ++ 32 :: str "int" ++ 32 :: str "-lpficommon" ++ 32 :: str "-o" ++ 32 :: str "g")
    (c ["g++"; "-xc++"; "t"; "-DT=unsigned"; "int"; "-lpficommon"; "-o"; "g"]%string)).
  repeat (first [apply hw_blank | apply hw_more; [discriminate | apply I; reflexivity |] | apply hw_last; [discriminate | apply I; reflexivity]]).
Qed.

Print Assumptions C103_php_partial.
Print Assumptions C103_haskell_partial.
Print Assumptions C103_keeps_partial.
Print Assumptions C103_status_partial.
Print Assumptions C103_deletes_refuted.
Print Assumptions C103_status_refuted.
Print Assumptions C103_option_refuted.
Print Assumptions C103_name_refuted.
Print Assumptions C103_undefined_refuted.
Print Assumptions C103_blank_refuted.
