(** C101: statements and connection strings of PostgreSQL. *)
From Verif Require Import Common CommonLemmas NumText_Model NumText_Proof PgConn_Spec PgConn_Model PgConn_Proof.
From Coq Require Import Lia.
Local Open Scope Z_scope.

Section claims.
Context {V D : Type} (sent : text -> text) (param : V -> option text) (conv : option text -> Z -> outcome V)
        (parse : D -> text -> D * bool) (exec : D -> text -> list (option text) -> D * answer) (missing again : D -> D).
Notation step := (@step V D sent param conv parse exec missing again).
Notation steps := (@steps V D sent param conv parse exec missing again).

(** fetch_row of a statement gives the rows of its latest successful execution in order, each once and complete, and false only behind the last one, whatever is done on the
    connection and with other statements in between. *)
Theorem C101_rows d os c : steps (opened d) os = Ok c -> fetched conv (log c).
Proof. intros E. exact (i_fetched _ _ _ (inv_steps sent param conv parse exec missing again os (opened d) c (inv_opened sent conv d) E)). Qed.
(** Every fetch_row gives one of the three. *)
Theorem C101_fetch d os c h c' : steps (opened d) os = Ok c -> (h < length (stmts c))%nat -> step c (Fetch h) = Ok c' ->
  (snd (pending h (log c)) = [] /\ log c' = End_ h :: log c) \/ (snd (pending h (log c)) <> [] /\ exists e, log c' = e :: log c /\ (e = Bad h \/ exists vs, e = Got h vs)).
Proof.
  intros E Hh Es. pose proof (i_res _ _ _ (inv_steps sent param conv parse exec missing again os (opened d) c (inv_opened sent conv d) E) h) as P. cbn [PgConn_Model.step] in Es.
  rewrite (proj2 (Nat.ltb_lt _ _) Hh) in Es. unfold fetch_row in Es. destruct (nth h (stmts c) None) as [r|]; [|injection Es as <-; left; now split].
  rewrite nth_error_skipn in Es. rewrite P. cbn [snd]. destruct (skipn (cur r) (rows r)) as [|cells rest]; cbn [hd_error] in Es; [injection Es as <-; left; now split|]. right. split; [discriminate|].
  destruct (fields conv (types r) 0 cells) as [vs| | |]; try discriminate Es; injection Es as <-; cbn; eexists; (split; [reflexivity|]); [right; now exists vs|now left].
Qed.
(** execute() runs, with its arguments, the query that was prepared latest on the connection; it throws without running anything only if there is none, or the connection broke,
    or there are more than 65535 parameters. *)
Theorem C101_execute d os c h args c' : steps (opened d) os = Ok c -> (h < length (stmts c))%nat -> step c (Execute h args) = Ok c' ->
  (log c' = Threw h :: log c /\ (65535 < Z.of_nat (length args) \/ current (log c) = None)) \/
  exists k q a, current (log c) = Some (k, q) /\ log c' = Ran h (sent q) (map param args) a :: log c /\ snd (exec (db c) (sent q) (map param args)) = a.
Proof.
  intros E Hh Es. pose proof (inv_steps sent param conv parse exec missing again os (opened d) c (inv_opened sent conv d) E) as I. cbn [PgConn_Model.step] in Es. rewrite (proj2 (Nat.ltb_lt _ _) Hh) in Es. injection Es as <-.
  exact (execute_log sent param conv exec missing again c h args I).
Qed.
(** run() runs the query that it is given. *)
Theorem C101_run d os c q args c' : steps (opened d) os = Ok c -> step c (Run q args) = Ok c' ->
  exists es, log c' = es ++ log c /\ forall h t ps a, In (Ran h t ps a) es -> t = sent q /\ ps = map param args.
Proof.
  intros E Es. pose proof (inv_steps sent param conv parse exec missing again os (opened d) c (inv_opened sent conv d) E) as I. cbn [PgConn_Model.step] in Es. injection Es as <-.
  destruct (closed c); [exists []; split; [reflexivity|]; intros h t ps a []|]. destruct (run_log sent param conv parse exec missing again c q args I) as (es & H1 & _ & H3). now exists es.
Qed.
(** Statements run their own queries if each is executed only before the next is prepared (run(), begin_transaction(), commit(), rollback() prepare). *)
Fixpoint disciplined (c : @conn V D) (os : list op) : Prop :=
  match os with
  | [] => True
  | o :: r => (match o with Execute h _ => forall k q, current (log c) = Some (k, q) -> k = h | _ => True end) /\ forall c', step c o = Ok c' -> disciplined c' r
  end.
Theorem C101_own_partial d os c : disciplined (opened d) os -> steps (opened d) os = Ok c -> own sent (log c).
Proof.
  assert (G : forall os c0, inv sent conv c0 -> own sent (log c0) -> disciplined c0 os -> steps c0 os = Ok c -> own sent (log c)).
  { clear. induction os as [|o os IH]; intros c0 I O Di E; [now injection E as <-|]. cbn [PgConn_Model.steps] in E. destruct (step c0 o) as [c1| | |] eqn:E1; try discriminate E. destruct Di as (D1 & D2).
    apply (IH c1 (inv_step sent param conv parse exec missing again c0 o c1 I E1)); [|exact (D2 c1 E1)|exact E]. clear D2 E IH.
    assert (R : forall q args, own sent (log (PgConn_Model.run sent param parse exec missing again c0 q args))).
    { intros q args. destruct (run_log sent param conv parse exec missing again c0 q args I) as (es & -> & H & _). now apply H. }
    destruct o as [q|h args|h|q args| | | | | |b].
    - injection E1 as <-. destruct (closed c0); [exact O|]. destruct (prepare sent parse again c0 q) as [c2 oh] eqn:Ep. pose proof (prepare_log sent conv parse again _ _ _ _ I Ep) as L. cbn [fst].
      destruct oh as [h|]; [rewrite L; exact O|]. destruct L as [L|L]; rewrite L; exact O.
    - injection E1 as <-. destruct (Nat.ltb h (length (stmts c0))); [|exact O]. destruct (execute_log sent param conv exec missing again c0 h args I) as [(-> & _)|(k & q & a & Ec & -> & _)]; [exact O|]. cbn [own].
      split; [|exact O]. exists q. split; [|reflexivity]. rewrite <- (D1 k q Ec). exact (current_in _ _ _ Ec).
    - cbn [PgConn_Model.step] in E1. destruct (Nat.ltb h (length (stmts c0))); [|now injection E1 as <-]. unfold fetch_row in E1. destruct (nth h (stmts c0) None) as [r|]; [|now injection E1 as <-]. destruct (nth_error (rows r) (cur r)); [|now injection E1 as <-].
      destruct (fields conv (types r) 0 l); try discriminate E1; injection E1 as <-; exact O.
    - injection E1 as <-. destruct (closed c0); [exact O|apply R].
    - injection E1 as <-. destruct (closed c0); [exact O|apply R].
    - injection E1 as <-. destruct (closed c0); [exact O|apply R].
    - injection E1 as <-. destruct (closed c0); [exact O|apply R].
    - injection E1 as <-. destruct (closed c0); [exact O|]. exact (R (str "ROLLBACK") []).
    - injection E1 as <-. exact O.
    - injection E1 as <-. exact O. }
  intros Di E. exact (G os (opened d) (inv_opened sent conv d) I Di E).
Qed.
(** A row that cannot be read is not passed: the next fetch_row fails the same way. *)
Theorem C101_bad_row c h c' : (h < length (stmts c))%nat -> step c (Fetch h) = Ok c' -> log c' = Bad h :: log c -> exists c'', step c' (Fetch h) = Ok c'' /\ log c'' = Bad h :: log c'.
Proof.
  intros Hh E L. cbn [PgConn_Model.step] in *. rewrite (proj2 (Nat.ltb_lt _ _) Hh) in E. unfold fetch_row in E. destruct (nth h (stmts c) None) as [r|] eqn:N; [|injection E as <-; discriminate L].
  destruct (nth_error (rows r) (cur r)) as [cells|] eqn:Nr; [|injection E as <-; discriminate L]. destruct (fields conv (types r) 0 cells) as [vs| | |] eqn:F; try discriminate E; injection E as <-; [discriminate L|].
  exists (note (note c (Bad h)) (Bad h)). split; [|reflexivity]. cbn [stmts note]. rewrite (proj2 (Nat.ltb_lt _ _) Hh). unfold fetch_row. cbn [stmts note]. now rewrite N, Nr, F.
Qed.
(** While the server can be reached, a lost session costs one call: of two statements made one after the other, the second reaches the server, in a new session if the
    old one was lost, and there it is the statement that runs. *)
Theorem C101_restored d os c q r c1 c2 : steps (opened d) os = Ok c -> closed c = false -> reachable c = true -> step c (Prepare q) = Ok c1 -> step c1 (Prepare r) = Ok c2 ->
  alive c2 = true /\ (log c2 = Unparsed :: log c1 \/ (log c2 = Parsed (length (stmts c1)) r :: log c1 /\ unnamed c2 = Some (sent r))).
Proof.
  intros E Cl Re E1 E2. cbn [PgConn_Model.step] in E1, E2. rewrite Cl in E1. injection E1 as E1. unfold PgConn_Model.prepare at 1, PgConn_Model.get at 1 in E1.
  assert (K : closed c1 = false /\ reachable c1 = true /\ (good c1 = true -> alive c1 = true)).
  { destruct (good c) eqn:G.
    - destruct (alive c) eqn:A; [|subst c1; cbn; intuition congruence]. destruct (parse (db c) (sent q)) as [d' [|]]; subst c1; cbn; intuition congruence.
    - rewrite Re in E1. cbn [alive db] in E1. destruct (parse (again (db c)) (sent q)) as [d' [|]]; subst c1; cbn; intuition congruence. }
  destruct K as (Cl1 & Re1 & A1). rewrite Cl1 in E2. injection E2 as E2. unfold PgConn_Model.prepare at 1, PgConn_Model.get at 1 in E2. rewrite Re1 in E2. destruct (good c1) eqn:G.
  - rewrite (A1 eq_refl) in E2. destruct (parse (db c1) (sent r)) as [d' [|]]; subst c2; cbn; intuition congruence.
  - cbn [alive db] in E2. destruct (parse (again (db c1)) (sent r)) as [d' [|]]; subst c2; cbn; intuition congruence.
Qed.
End claims.

(** *** A server that accepts everything, answers SELECT with two rows, and other commands by doing them *)
Definition echo (d : unit) (t : text) (ps : list (option text)) : unit * answer := (tt, if hd 0 t =? 83 then Rows [25] [[Some [1]]; [Some [2]]] else Complete).
Definition demo := @steps text unit (fun q => q) (fun v => Some v) (fun o _ => match o with Some v => Ok v | None => Throw end) (fun d _ => (d, true)) echo (fun d => d) (fun d => d).
Definition history (os : list op) : outcome (list (event text)) := omap log (demo (opened tt) os).
Example C101_nonvacuous : history [Prepare (str "SELECT"); Execute 0 []; Fetch 0; Run (str "INSERT") [str "x"]; Fetch 0; Fetch 0; Lose; Fetch 0; Execute 0 []; Prepare (str "SELECT"); Execute 2 []] =
  Ok [Ran 2 (str "SELECT") [] (Rows [25] [[Some [1]]; [Some [2]]]); Parsed 2 (str "SELECT"); Threw 0; End_ 0; Lost; End_ 0; Got 0 [[2]]; Ran 1 (str "INSERT") [Some (str "x")] Complete; Parsed 1 (str "INSERT"); Got 0 [[1]];
      Ran 0 (str "SELECT") [] (Rows [25] [[Some [1]]; [Some [2]]]); Parsed 0 (str "SELECT")].
Proof. vm_compute. reflexivity. Qed.
(** [disciplined] is satisfied by any number of statements one after the other. *)
Example C101_disciplined_nonvacuous : @disciplined text unit (fun q => q) (fun v => Some v) (fun o _ => match o with Some v => Ok v | None => Throw end) (fun d _ => (d, true)) echo (fun d => d) (fun d => d)
  (opened tt) [Prepare (str "INSERT"); Execute 0 []; Execute 0 []; Begin; Prepare (str "SELECT"); Execute 2 []; Fetch 2; Fetch 2; Commit].
Proof.
  repeat (apply conj; [solve [exact I | intros k q H; vm_compute in H; congruence]|]; let c' := fresh "c" in let E := fresh "E" in intros c' E; vm_compute in E; injection E as <-). exact I.
Qed.
(** A statement that was prepared before the transaction in which it is executed runs BEGIN: the classical use of prepared statements. *)
Theorem C101_own_refuted : ~ (forall os l, history os = Ok l -> own (fun q => q) l).
Proof.
  intros H. assert (E : history [Prepare (str "INSERT"); Begin; Execute 0 []] = Ok [Ran 0 (str "BEGIN") [] Complete; Ran 1 (str "BEGIN") [] Complete; Parsed 1 (str "BEGIN"); Parsed 0 (str "INSERT")]) by (vm_compute; reflexivity).
  destruct (H _ _ E) as ((q & H1 & H2) & _). subst q.
  destruct H1 as [H1|[H1|[H1|[]]]]; discriminate H1.
Qed.
(** After the connection object is gone, a statement runs ROLLBACK instead of failing. *)
Theorem C101_closed_refuted : ~ (forall os l h t ps a r, history (os ++ [Close; Execute h []]) = Ok l -> l = Ran h t ps a :: r -> exists q, In (Parsed h q) r /\ t = q).
Proof.
  intros H. assert (E : history ([Prepare (str "INSERT")] ++ [Close; Execute 0 []]) = Ok [Ran 0 (str "ROLLBACK") [] Complete; Ran 1 (str "ROLLBACK") [] Complete; Parsed 1 (str "ROLLBACK"); Parsed 0 (str "INSERT")]) by (vm_compute; reflexivity).
  destruct (H _ _ 0%nat (str "ROLLBACK") [] Complete _ E eq_refl) as (q & H1 & H2). subst q.
  destruct H1 as [H1|[H1|[H1|[]]]]; discriminate H1.
Qed.

(** *** connect(host, port, dbname, user, password) *)
Definition five (host : text) (port : Z) (dbname user password : text) : list (text * text) :=
  [(str "host", host); (str "port", show_int port); (str "dbname", dbname); (str "user", user); (str "password", password)].
Definition word (v : text) : Prop := v <> [] /\ simple v.
Lemma settings_until host port dbname user password : 0 <= port -> word host -> word dbname -> word user ->
  settings (conninfo host port dbname user password) =
  also (str "host", host) (also (str "port", show_int port) (also (str "dbname", dbname) (also (str "user", user) (lex (Before (str "password")) (upto_nul password))))).
Proof.
  intros Hp (H1 & H2) (H3 & H4) (H5 & H6). destruct (show_port_simple port Hp) as (H7 & H8). unfold settings, conninfo.
  assert (Z1 : forall v, simple v -> Forall (fun c => c <> 0) v) by (intros v (F & _); apply (Forall_impl _ (P := fun c => c <> 0 /\ blank c = false /\ c <> 92)); [now intros c (K & _)|exact F]).
  assert (Z2 : forall s, Forall (fun c => (0 <? c) = true) s -> Forall (fun c => c <> 0) s) by (intros s F; apply (Forall_impl _ (P := fun c => (0 <? c) = true)); [intros c K; apply Z.ltb_lt in K; lia|exact F]).
  rewrite !upto_nul_app by (first [apply Z1; assumption | apply Z2; vm_compute; repeat constructor]).
  assert (N : forall n r st, n <> [] -> Forall (fun c => blank c = false /\ c <> 61) n -> st = Between -> lex st (n ++ 61 :: r) = lex (Before n) r).
  { intros [|c n] r st Hn F ->; [congruence|]. destruct (Forall_inv F) as (B & E). cbn [app lex]. rewrite B. destruct (Z.eqb_spec c 61); [contradiction|]. now rewrite lex_name by exact (Forall_inv_tail F). }
  assert (P : forall n v r, n <> [] -> Forall (fun c => (blank c || (c =? 61)) = false) n -> word v -> lex Between ((n ++ [61]) ++ v ++ str " " ++ r) = also (n, v) (lex Between r)).
  { intros n v r Hn F (W1 & W2). rewrite <- app_assoc. cbn [app]. rewrite N; [|exact Hn| |reflexivity]; [|apply (Forall_impl _ (P := fun c => (blank c || (c =? 61)) = false)); [|exact F]].
    - change (str " ") with [32]. cbn [app]. now apply lex_value.
    - intros c K. apply Bool.orb_false_elim in K. destruct K as (K1 & K2). split; [exact K1|]. now apply Z.eqb_neq in K2. }
  change (str "host=") with (str "host" ++ [61]). change (str "port=") with (str "port" ++ [61]). change (str "dbname=") with (str "dbname" ++ [61]). change (str "user=") with (str "user" ++ [61]). change (str "password=") with (str "password" ++ [61]).
  rewrite (P (str "host") host); [|discriminate|vm_compute; repeat constructor|now split]. f_equal.
  rewrite (P (str "port") (show_int port)); [|discriminate|vm_compute; repeat constructor|now split]. f_equal.
  rewrite (P (str "dbname") dbname); [|discriminate|vm_compute; repeat constructor|now split]. f_equal.
  rewrite (P (str "user") user); [|discriminate|vm_compute; repeat constructor|now split]. f_equal.
Qed.
(** The five settings are what was meant, for words; and the password is right only if it is empty or a word. *)
Theorem C101_connect host port dbname user password : 0 <= port < 65536 -> word host -> word dbname -> word user ->
  (settings (conninfo host port dbname user password) = Some (five host port dbname user password) <-> password = [] \/ simple password).
Proof.
  intros Hp H1 H2 H3. rewrite settings_until by (try assumption; lia). split.
  - destruct (lex (Before (str "password")) (upto_nul password)) as [l|] eqn:E; [|discriminate]. cbn [also]. unfold five. intros [= El]. subst l. exact (last_exact _ _ E).
  - intros H. assert (E : upto_nul password = password).
    { destruct H as [->|(F & _)]; [reflexivity|]. rewrite <- (app_nil_r password) at 1. rewrite upto_nul_app; [now rewrite app_nil_r|]. apply (Forall_impl _ (P := fun c => c <> 0 /\ blank c = false /\ c <> 92)); [now intros c (K & _)|exact F]. }
    rewrite E, lex_last by exact H. reflexivity.
Qed.
Example C101_connect_nonvacuous : settings (conninfo (str "db.example.com") 5432 (str "shop") (str "o'hara") (str "p'w=1")) = Some (five (str "db.example.com") 5432 (str "shop") (str "o'hara") (str "p'w=1")) /\
  word (str "db.example.com") /\ word (str "o'hara").
Proof. split; [vm_compute; reflexivity|]. split; (split; [discriminate|]); (split; [|discriminate]); repeat constructor; try discriminate. Qed.
(** A password may say where to connect; an empty host takes the port for a host. *)
Theorem C101_connect_refuted : ~ (forall host port dbname user password, 0 <= port < 65536 -> settings (conninfo host port dbname user password) = Some (five host port dbname user password)).
Proof. intros H. specialize (H (str "db") 5432 (str "shop") (str "me") (str "x host=evil") ltac:(lia)). vm_compute in H. discriminate H. Qed.
Example C101_case_password : settings (conninfo (str "db") 5432 (str "shop") (str "me") (str "x host=evil")) =
  Some [(str "host", str "db"); (str "port", str "5432"); (str "dbname", str "shop"); (str "user", str "me"); (str "password", str "x"); (str "host", str "evil")].
Proof. vm_compute. reflexivity. Qed.
Example C101_case_empty : settings (conninfo [] 5432 (str "shop") (str "me") []) = Some [(str "host", str "port=5432"); (str "dbname", str "shop"); (str "user", str "me"); (str "password", [])].
Proof. vm_compute. reflexivity. Qed.

Print Assumptions C101_rows.
Print Assumptions C101_fetch.
Print Assumptions C101_execute.
Print Assumptions C101_run.
Print Assumptions C101_own_partial.
Print Assumptions C101_restored.
Print Assumptions C101_bad_row.
Print Assumptions C101_own_refuted.
Print Assumptions C101_closed_refuted.
Print Assumptions C101_connect.
Print Assumptions C101_connect_refuted.
