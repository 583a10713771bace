(** Proofs about statements on a PostgreSQL connection. *)
From Verif Require Import Common CommonLemmas NumText_Model NumText_Proof PgConn_Spec PgConn_Model.
From Coq Require Import Lia.
Local Open Scope Z_scope.

Lemma nth_put {T} (l : list T) : forall i x d k, (i < length l)%nat -> nth k (put l i x) d = if Nat.eqb i k then x else nth k l d.
Proof.
  induction l as [|y l IH]; intros i x d k H; [cbn in H; lia|]. destruct i as [|i]; cbn [put]; [destruct k; reflexivity|]. destruct k as [|k]; [reflexivity|]. cbn [nth Nat.eqb]. apply IH. cbn in H. lia.
Qed.
Lemma put_length {T} (l : list T) : forall i x, length (put l i x) = length l.
Proof. induction l as [|y l IH]; intros i x; [reflexivity|]. destruct i; cbn [put length]; [reflexivity|]. now rewrite IH. Qed.
Lemma nth_app_none {T} (l : list (option T)) k : nth k (l ++ [None]) None = nth k l None.
Proof.
  destruct (Nat.lt_ge_cases k (length l)) as [H|H]; [now apply app_nth1|]. rewrite app_nth2 by exact H. rewrite (nth_overflow l) by exact H. destruct (k - length l)%nat as [|[|]]; reflexivity.
Qed.
Lemma nth_error_skipn {T} (l : list T) : forall k, nth_error l k = hd_error (skipn k l).
Proof. induction l as [|x l IH]; intros [|k]; try reflexivity. cbn [nth_error skipn]. apply IH. Qed.
Lemma skipn_tl {T} (l : list T) : forall k, skipn (S k) l = tl (skipn k l).
Proof. induction l as [|x l IH]; intros [|k]; try reflexivity. cbn [skipn]. rewrite <- IH. destruct l; reflexivity. Qed.

Section proofs.
Context {V D : Type} (sent : text -> text) (param : V -> option text) (conv : option text -> Z -> outcome V)
        (parse : D -> text -> D * bool) (exec : D -> text -> list (option text) -> D * answer) (missing again : D -> D).
Notation conn := (@conn V D).
Notation get := (@get V D again).
Notation prepare := (@prepare V D sent parse again).
Notation execute := (@execute V D param exec missing again).
Notation fetch_row := (@fetch_row V D conv).
Notation run := (@PgConn_Model.run V D sent param parse exec missing again).
Notation step := (@step V D sent param conv parse exec missing again).
Notation steps := (@steps V D sent param conv parse exec missing again).

Definition left (o : option result) : list (list (option text)) := match o with None => [] | Some r => skipn (cur r) (rows r) end.
Record inv (c : conn) : Prop := {
  i_alive : unnamed c = option_map (fun x => sent (snd x)) (current (log c));
  i_dead : alive c = false -> current (log c) = None;
  i_bad : good c = false -> alive c = false;
  i_res : forall h, match nth h (stmts c) None with Some r => pending h (log c) = (types r, skipn (cur r) (rows r)) | None => snd (pending h (log c)) = [] end;
  i_fetched : fetched conv (log c) }.

Lemma inv_opened d : inv (opened d).
Proof. split; try reflexivity; [discriminate|intros [|h]; reflexivity]. Qed.
Lemma inv_get c c' : inv c -> get c = Some c' -> inv c' /\ log c' = log c /\ stmts c' = stmts c /\ (closed c' = closed c).
Proof.
  intros [I1 I2 I3 I4 I5]. unfold PgConn_Model.get. destruct (good c) eqn:G; [intros [= <-]; split; [split; auto; congruence|auto]|]. destruct (reachable c); [|discriminate]. intros [= <-]. cbn. rewrite (I2 (I3 eq_refl)) in I1.
  split; [|auto]. split; cbn; auto; try discriminate. now rewrite (I2 (I3 eq_refl)).
Qed.
Lemma inv_prepare c q c' o : inv c -> prepare c q = (c', o) -> inv c'.
Proof.
  intros I. unfold PgConn_Model.prepare. destruct (get c) as [c1|] eqn:G; [|intros [= <- <-]; exact I]. destruct (inv_get _ _ I G) as ([I1 I2 I3 I4 I5] & _). destruct (alive c1) eqn:A.
  - destruct (parse (db c1) (sent q)) as [d [|]]; intros [= <- <-]; split; cbn; rewrite ?A; try discriminate; auto.
    intros h. rewrite nth_app_none. apply I4.
  - intros [= <- <-]. split; cbn; auto.
Qed.
Lemma inv_execute c h args : inv c -> (h < length (stmts c))%nat -> inv (execute c h args).
Proof.
  intros I Hh. unfold PgConn_Model.execute. destruct (get c) as [c1|] eqn:G; [|destruct I as [I1 I2 I3 I4 I5]; split; cbn; auto]. destruct (inv_get _ _ I G) as ([I1 I2 I3 I4 I5] & _ & Es & _). rewrite <- Es in Hh.
  destruct (65535 <? _); [split; cbn; auto|]. destruct (alive c1) eqn:A; [|split; cbn; auto]. destruct (unnamed c1) as [t|] eqn:U; [|split; cbn; rewrite ?U, ?A; auto].
  cbv zeta. destruct (exec (db c1) t (map param args)) as [d a]. destruct a as [ts rs| | |].
  - split; cbn; rewrite ?U, ?A; auto. intros k. rewrite nth_put by exact Hh. destruct (Nat.eqb h k); [reflexivity|]. apply I4.
  - split; cbn; rewrite ?U, ?A; auto. intros k. rewrite nth_put by exact Hh. destruct (Nat.eqb h k); [reflexivity|]. apply I4.
  - split; cbn; rewrite ?U, ?A; auto.
  - split; cbn; auto.
Qed.
Lemma fields_ok ts : forall i cells vs, fields conv ts i cells = Ok vs -> length vs = length ts /\ forall k t, nth_error ts k = Some t -> exists v, nth_error vs k = Some v /\ conv (nth (i + k) cells None) t = Ok v.
Proof.
  induction ts as [|t ts IH]; intros i cells vs H; cbn [fields] in H; [injection H as <-; split; [reflexivity|]; intros [|k] u Hu; discriminate Hu|].
  destruct (conv (nth i cells None) t) as [v| | |] eqn:Ev; cbn [obind] in H; try discriminate H. destruct (fields conv ts (S i) cells) as [ws| | |] eqn:Ew; cbn [obind] in H; try discriminate H. injection H as <-.
  destruct (IH _ _ _ Ew) as (L & F). split; [cbn [length]; now rewrite L|]. intros [|k] u Hu; cbn [nth_error] in *.
  - injection Hu as <-. exists v. split; [reflexivity|]. now rewrite Nat.add_0_r.
  - destruct (F k u Hu) as (w & H1 & H2). exists w. split; [exact H1|]. now replace (i + S k)%nat with (S i + k)%nat by lia.
Qed.
Lemma inv_fetch c h c' : inv c -> (h < length (stmts c))%nat -> fetch_row c h = Ok c' -> inv c'.
Proof.
  intros [I1 I2 I3 I4 I5] Hh. unfold PgConn_Model.fetch_row. pose proof (I4 h) as P. destruct (nth h (stmts c) None) as [r|] eqn:N.
  - rewrite nth_error_skipn. destruct (skipn (cur r) (rows r)) as [|cells rest] eqn:Er; cbn [hd_error].
    + intros [= <-]. split; cbn; auto. split; [|exact I5]. rewrite P. reflexivity.
    + destruct (fields conv (types r) 0 cells) as [vs| | |] eqn:Ef; try discriminate; intros [= <-]; split; cbn; auto.
      * intros k. rewrite nth_put by exact Hh. destruct (Nat.eqb_spec h k) as [<-|Hk].
        -- rewrite P. cbn [types rows cur]. now rewrite skipn_tl, Er.
        -- pose proof (I4 k) as Q. destruct (pending k (log c)) as [ts rs]. exact Q.
      * split; [|exact I5]. exists cells. rewrite P. split; [reflexivity|]. exact (fields_ok _ _ _ _ Ef).
  - intros [= <-]. split; cbn; auto.
Qed.
Lemma prepare_handle c q c' h : prepare c q = (c', Some h) -> (h < length (stmts c'))%nat.
Proof.
  unfold PgConn_Model.prepare. destruct (get c) as [c1|]; [|discriminate]. destruct (alive c1); [|discriminate]. destruct (parse _ _) as [d [|]]; [|discriminate]. intros [= <- <-]. cbn. rewrite app_length. cbn. lia.
Qed.
Lemma inv_run c q args : inv c -> inv (run c q args).
Proof.
  intros I. unfold PgConn_Model.run. destruct (prepare c q) as [c1 [h|]] eqn:E; [|exact (inv_prepare _ _ _ _ I E)]. apply inv_execute; [exact (inv_prepare _ _ _ _ I E)|exact (prepare_handle _ _ _ _ E)].
Qed.
Lemma inv_step c o c' : inv c -> step c o = Ok c' -> inv c'.
Proof.
  intros I. unfold PgConn_Model.step. destruct o as [q|h args|h|q args| | | | | |b].
  - intros [= <-]. destruct (closed c); [exact I|]. destruct (prepare c q) as [c1 oh] eqn:E. exact (inv_prepare _ _ _ _ I E).
  - intros [= <-]. destruct (Nat.ltb_spec h (length (stmts c))); [now apply inv_execute|exact I].
  - destruct (Nat.ltb_spec h (length (stmts c))); [now apply inv_fetch|now intros [= <-]].
  - intros [= <-]. destruct (closed c); [exact I|]. now apply inv_run.
  - intros [= <-]. destruct (closed c); [exact I|]. now apply inv_run.
  - intros [= <-]. destruct (closed c); [exact I|]. now apply inv_run.
  - intros [= <-]. destruct (closed c); [exact I|]. now apply inv_run.
  - intros [= <-]. destruct (closed c); [exact I|]. destruct (inv_run c (str "ROLLBACK") [] I) as [I1 I2 I3 I4 I5]. split; cbn; auto.
  - intros [= <-]. destruct I as [I1 I2 I3 I4 I5]. split; cbn; auto.
  - intros [= <-]. destruct I as [I1 I2 I3 I4 I5]. split; cbn; auto.
Qed.
Lemma inv_steps os : forall c c', inv c -> steps c os = Ok c' -> inv c'.
Proof.
  induction os as [|o os IH]; intros c c' I E; [now injection E as <-|]. cbn [PgConn_Model.steps] in E. destruct (step c o) as [c1| | |] eqn:E1; try discriminate E. exact (IH c1 c' (inv_step _ _ _ I E1) E).
Qed.

(** What an execute adds to the history *)
Lemma execute_log c h args : inv c -> (log (execute c h args) = Threw h :: log c /\ (65535 < Z.of_nat (length args) \/ current (log c) = None)) \/
  exists k q a, current (log c) = Some (k, q) /\ log (execute c h args) = Ran h (sent q) (map param args) a :: log c /\ snd (exec (db c) (sent q) (map param args)) = a.
Proof.
  intros I. unfold PgConn_Model.execute. destruct (get c) as [c1|] eqn:G.
  2:{ left. split; [reflexivity|]. right. unfold PgConn_Model.get in G. destruct (good c) eqn:Gd; [discriminate G|]. exact (i_dead _ I (i_bad _ I Gd)). }
  destruct (inv_get _ _ I G) as ([I1 I2 I3 I4 I5] & El & _ & _). destruct (Z.ltb_spec 65535 (Z.of_nat (length args))) as [H|H]; [left; cbn; rewrite El; auto|]. destruct (alive c1) eqn:A.
  - rewrite El in I1. destruct (current (log c)) as [[k q]|] eqn:Ec; cbn [option_map snd] in I1; rewrite I1; [|left; cbn; rewrite El; auto].
    right. cbv zeta. assert (Ed : db c1 = db c).
    { unfold PgConn_Model.get in G. destruct (good c) eqn:Gd; [now injection G as <-|]. rewrite (i_dead _ I (i_bad _ I Gd)) in Ec. discriminate Ec. }
    rewrite Ed. destruct (exec (db c) (sent q) (map param args)) as [d a] eqn:Ex. exists k, q, a. split; [reflexivity|]. split; [destruct a; cbn; now rewrite El|now rewrite Ex].
  - left. cbn. rewrite El. split; [reflexivity|]. right. rewrite <- El. now apply I2.
Qed.
Lemma current_in (l : list (event V)) : forall h q, current l = Some (h, q) -> In (Parsed h q) l.
Proof.
  induction l as [|e l IH]; intros h q H; [discriminate H|]. destruct e; cbn [current] in H; try discriminate H; try (right; now apply IH); [injection H as -> ->; now left|]. destruct a; try discriminate H; right; now apply IH.
Qed.
(** What a preparation adds *)
Lemma prepare_log c q c' o : inv c -> prepare c q = (c', o) ->
  match o with Some h => log c' = Parsed h q :: log c | None => log c' = log c \/ log c' = Unparsed :: log c end.
Proof.
  intros I. unfold PgConn_Model.prepare. destruct (get c) as [c1|] eqn:G; [|intros [= <- <-]; now left]. destruct (inv_get _ _ I G) as (_ & El & _).
  destruct (alive c1); [|intros [= <- <-]; left; exact El]. destruct (parse _ _) as [d [|]]; intros [= <- <-]; cbn; rewrite El; auto.
Qed.
Lemma own_app (l : list (event V)) e : own sent l -> match e with Ran h t _ _ => exists q, In (Parsed h q) l /\ t = sent q | _ => True end -> own sent (e :: l).
Proof. intros H K. destruct e; cbn [own]; auto. Qed.
Lemma run_log c q args : inv c -> exists es, log (run c q args) = es ++ log c /\ (own sent (log c) -> own sent (es ++ log c)) /\ (forall h t ps a, In (Ran h t ps a) es -> t = sent q /\ ps = map param args).
Proof.
  intros I. unfold PgConn_Model.run. destruct (prepare c q) as [c1 [h|]] eqn:E; pose proof (prepare_log _ _ _ _ I E) as L; cbn beta iota in L.
  - pose proof (inv_prepare _ _ _ _ I E) as I1. destruct (execute_log c1 h args I1) as [(E2 & _)|(k & q' & a & Ec & E2 & _)]; rewrite E2, L.
    + exists [Threw h; Parsed h q]. split; [reflexivity|]. split; [now cbn|]. intros h0 t ps a [H|[H|[]]]; discriminate H.
    + rewrite L in Ec. cbn [current] in Ec. injection Ec as <- <-. exists [Ran h (sent q) (map param args) a; Parsed h q]. split; [reflexivity|]. split; [cbn; intros O; split; [exists q; auto|exact O]|].
      intros h0 t ps a0 [H|[H|[]]]; [|discriminate H]. injection H as <- <- <- <-. now split.
  - destruct L as [L|L]; rewrite L; [exists []|exists [Unparsed]]; (split; [reflexivity|]); (split; [now cbn|]); intros h t ps a H; [destruct H|destruct H as [H|[]]; discriminate H].
Qed.
End proofs.

(** ** Connection strings *)
Lemma upto_nul_app a b : Forall (fun c => c <> 0) a -> upto_nul (a ++ b) = a ++ upto_nul b.
Proof. induction 1 as [|c a H Ha IH]; [reflexivity|]. cbn [app upto_nul]. destruct (Z.eqb_spec c 0); [contradiction|]. now rewrite IH. Qed.
Lemma lex_name s : forall n r, Forall (fun c => blank c = false /\ c <> 61) s -> lex (Name n) (s ++ 61 :: r) = lex (Before (n ++ s)) r.
Proof.
  induction s as [|c s IH]; intros n r H; [rewrite app_nil_r; reflexivity|]. destruct (Forall_inv H) as (H1 & H2). cbn [app lex]. destruct (Z.eqb_spec c 61); [contradiction|]. rewrite H1.
  rewrite (IH _ _ (Forall_inv_tail H)), <- app_assoc. reflexivity.
Qed.
Lemma lex_bare v : forall n w r, Forall (fun c => c <> 0 /\ blank c = false /\ c <> 92) v -> lex (Bare n w) (v ++ r) = lex (Bare n (w ++ v)) r.
Proof.
  induction v as [|c v IH]; intros n w r H; [now rewrite app_nil_r|]. destruct (Forall_inv H) as (_ & H1 & H2). cbn [app lex]. rewrite H1. destruct (Z.eqb_spec c 92); [contradiction|].
  rewrite (IH _ _ _ (Forall_inv_tail H)), <- app_assoc. reflexivity.
Qed.
Lemma lex_value n v r : v <> [] -> simple v -> lex (Before n) (v ++ 32 :: r) = also (n, v) (lex Between r).
Proof.
  intros Hv (H1 & H2). destruct v as [|c v]; [congruence|]. destruct (Forall_inv H1) as (_ & B & E). cbn [app lex]. rewrite B. cbn [hd] in H2. destruct (Z.eqb_spec c 39); [contradiction|].
  destruct (Z.eqb_spec c 92); [contradiction|]. rewrite lex_bare by exact (Forall_inv_tail H1). reflexivity.
Qed.
Lemma lex_last n v : v = [] \/ simple v -> lex (Before n) v = Some [(n, v)].
Proof.
  intros [->|(H1 & H2)]; [reflexivity|]. destruct v as [|c v]; [reflexivity|]. destruct (Forall_inv H1) as (_ & B & E). cbn [lex]. rewrite B. cbn [hd] in H2. destruct (Z.eqb_spec c 39); [contradiction|].
  destruct (Z.eqb_spec c 92); [contradiction|]. rewrite <- (app_nil_r v) at 1. rewrite lex_bare by exact (Forall_inv_tail H1). reflexivity.
Qed.
Lemma show_port_simple p : 0 <= p -> show_int p <> [] /\ simple (show_int p).
Proof.
  intros H. unfold show_int. destruct (Z.ltb_spec p 0); [lia|]. pose proof (dec_text_nonempty p H) as N. pose proof (dec_text_digits p H) as F. split; [exact N|].
  assert (Q : forall c, isdigit c = true -> c <> 0 /\ blank c = false /\ c <> 92 /\ c <> 39).
  { intros c Hc. unfold isdigit in Hc. apply andb_prop in Hc. destruct Hc as (A & B). apply Z.leb_le in A. apply Z.leb_le in B. unfold blank. repeat split; lia. }
  split; [apply (Forall_impl _ (P := fun c => isdigit c = true)); [|exact F]; intros c Hc; destruct (Q c Hc) as (? & ? & ? & ?); auto|]. destruct (dec_text p) as [|c r]; [congruence|]. cbn [hd]. exact (proj2 (proj2 (proj2 (Q c (Forall_inv F))))).
Qed.
(** The first value that is read is not longer than what it is read from, and shorter if something in it is special. *)
Definition read_so_far (st : lexer) : option (text * text) := match st with Between | Name _ | Named _ => None | Before n => Some (n, []) | Bare n v | Bare_esc n v | Quoted n v | Quoted_esc n v => Some (n, v) end.
Lemma lex_first s : forall st n v l, read_so_far st = Some (n, v) -> lex st s = Some l -> exists w r, l = (n, w) :: r /\ (length w <= length v + length s)%nat.
Proof.
  induction s as [|c s IH]; intros st n v l Hst E.
  - destruct st; try discriminate Hst; cbn in *; try discriminate E; injection Hst as <- <-; injection E as <-; do 2 eexists; (split; [reflexivity|]); cbn; lia.
  - assert (G : forall st' v', read_so_far st' = Some (n, v') -> (length v' <= length v + 1)%nat -> lex st' s = Some l -> exists w r, l = (n, w) :: r /\ (length w <= length v + length (c :: s))%nat).
    { intros st' v' H1 H2 H3. destruct (IH st' n v' l H1 H3) as (w & r & -> & L). exists w, r. split; [reflexivity|]. cbn [length]. lia. }
    assert (A : forall x, also (n, v) x = Some l -> exists w r, l = (n, w) :: r /\ (length w <= length v + length (c :: s))%nat).
    { intros [x|] H; [|discriminate H]. injection H as <-. exists v, x. split; [reflexivity|]. lia. }
    destruct st as [|n0|n0|n0|n0 v0|n0 v0|n0 v0|n0 v0]; try discriminate Hst; cbn [read_so_far] in Hst; injection Hst as <- <-; cbn [lex] in E.
    + destruct (blank c); [apply (G (Before n0) []); [reflexivity|cbn; lia|exact E]|]. destruct (c =? 39); [apply (G (Quoted n0 []) []); [reflexivity|cbn; lia|exact E]|].
      destruct (c =? 92); [apply (G (Bare_esc n0 []) []); [reflexivity|cbn; lia|exact E]|]. apply (G (Bare n0 [c]) [c]); [reflexivity|cbn; lia|exact E].
    + destruct (blank c); [exact (A _ E)|]. destruct (c =? 92); [apply (G (Bare_esc n0 v0) v0); [reflexivity|lia|exact E]|]. apply (G (Bare n0 (v0 ++ [c])) (v0 ++ [c])); [reflexivity|rewrite app_length; cbn; lia|exact E].
    + apply (G (Bare n0 (v0 ++ [c])) (v0 ++ [c])); [reflexivity|rewrite app_length; cbn; lia|exact E].
    + destruct (c =? 92); [apply (G (Quoted_esc n0 v0) v0); [reflexivity|lia|exact E]|]. destruct (c =? 39); [exact (A _ E)|]. apply (G (Quoted n0 (v0 ++ [c])) (v0 ++ [c])); [reflexivity|rewrite app_length; cbn; lia|exact E].
    + apply (G (Quoted n0 (v0 ++ [c])) (v0 ++ [c])); [reflexivity|rewrite app_length; cbn; lia|exact E].
Qed.
Lemma lex_exact s : forall n v w r, lex (Bare n v) s = Some ((n, w) :: r) -> length w = (length v + length s)%nat -> Forall (fun c => blank c = false /\ c <> 92) s.
Proof.
  induction s as [|c s IH]; intros n v w r E L; [constructor|]. cbn [lex] in E. destruct (blank c) eqn:B.
  - destruct (lex Between s); [|discriminate E]. injection E as <- <-. cbn in L. lia.
  - destruct (Z.eqb_spec c 92) as [->|H].
    + destruct (lex_first s (Bare_esc n v) n v _ eq_refl E) as (w' & r' & [= <- <-] & L'). cbn [length] in L. lia.
    + constructor; [now split|]. apply (IH n (v ++ [c]) w r E). rewrite app_length. cbn [length] in *. lia.
Qed.
Lemma upto_nul_le s : (length (upto_nul s) <= length s)%nat.
Proof. induction s as [|c s IH]; [reflexivity|]. cbn [upto_nul]. destruct (c =? 0); cbn [length]; lia. Qed.
Lemma upto_nul_same s : length (upto_nul s) = length s -> Forall (fun c => c <> 0) s /\ upto_nul s = s.
Proof.
  induction s as [|c s IH]; intros H; [now split|]. cbn [upto_nul] in *. destruct (Z.eqb_spec c 0); [discriminate H|]. cbn [length] in H. destruct IH as (I1 & I2); [lia|]. split; [now constructor|]. now rewrite I2.
Qed.
Lemma last_exact n p : lex (Before n) (upto_nul p) = Some [(n, p)] -> p = [] \/ simple p.
Proof.
  intros E. destruct (lex_first _ (Before n) n [] _ eq_refl E) as (w & r & [= <- <-] & L). pose proof (upto_nul_le p). cbn [length] in L. destruct (upto_nul_same p ltac:(lia)) as (Z0 & Ep). rewrite Ep in E.
  destruct p as [|c p]; [now left|right]. cbn [lex] in E.
  assert (G : forall st, read_so_far st = Some (n, []) -> lex st p = Some [(n, c :: p)] -> False).
  { intros st H1 H2. destruct (lex_first _ st n [] _ H1 H2) as (w & r & [= <- <-] & L'). cbn [length] in L'. lia. }
  destruct (blank c) eqn:B; [destruct (G (Before n) eq_refl E)|]. destruct (Z.eqb_spec c 39); [destruct (G (Quoted n []) eq_refl E)|]. destruct (Z.eqb_spec c 92); [destruct (G (Bare_esc n []) eq_refl E)|].
  pose proof (lex_exact _ _ _ _ _ E eq_refl) as F. split; [|exact n0]. apply Forall_forall. intros x Hx. rewrite Forall_forall in F, Z0. split; [now apply Z0|]. destruct Hx as [<-|Hx]; [now split|now apply F].
Qed.
