(** Invariants of MySQL connections. *)
From Verif Require Import Common CommonLemmas MyConn_Spec MyConn_Model.
Local Open Scope Z_scope.

Lemma nth_put {T} (l : list T) : forall i x j, nth_error (put l i x) j = if Nat.eqb i j then (if Nat.ltb i (length l) then Some x else None) else nth_error l j.
Proof.
  induction l as [|y l IH]; intros i x j; cbn [put].
  - destruct (Nat.eqb_spec i j) as [->|]; [destruct j; reflexivity|reflexivity].
  - destruct i as [|i], j as [|j]; cbn [nth_error Nat.eqb]; try reflexivity. rewrite IH. reflexivity.
Qed.
Lemma len_put {T} (l : list T) : forall i x, length (put l i x) = length l.
Proof. induction l as [|y l IH]; intros [|i] x; cbn; auto. Qed.
Lemma put_some {T} (l : list T) i (s x : T) j y : nth_error l i = Some s -> nth_error (put l i x) j = Some y -> (j = i /\ y = x) \/ (j <> i /\ nth_error l j = Some y).
Proof.
  intros H. rewrite nth_put. destruct (Nat.eqb_spec i j) as [->|N].
  - destruct (Nat.ltb_spec j (length l)); [|discriminate]. intros [= <-]. auto.
  - intros E. right. split; [congruence|exact E].
Qed.

Section proof.
Context {A R V D : Type} (conv : R -> option V) (parse : D -> text -> D * said) (exec : D -> text -> list A -> D * answer R)
        (command : D -> text -> D * said) (again : D -> D).
Notation conn := (@conn A R V D).
Notation stmt := (@stmt R).
Notation event := (event A R V).

(** * Statements and the history *)
Definition fits_ (h : nat) (s : stmt) (g : list event) : Prop := match res s with Some rs => pending h g = rs /\ (open_ s = false -> rs = []) | None => open_ s = false end.
Record Inv (l : list stmt) (g : list event) : Prop := {
  i_own : own g;
  i_prep : forall h s, nth_error l h = Some s -> In (Prepared h (query_ s)) g;
  i_new : forall h q, In (Prepared h q) g -> (h < length l)%nat;
  i_fetched : fetched conv g;
  i_res : forall h s, nth_error l h = Some s -> fits_ h s g }.
Definition inv (c : conn) : Prop := Inv (stmts c) (log c).

(** replacing a statement by one with the same query *)
Lemma inv_put l g h s s' : Inv l g -> nth_error l h = Some s -> query_ s' = query_ s -> fits_ h s' g -> Inv (put l h s') g.
Proof.
  intros [I1 I2 I3 I4 I5] E Q F. split; [exact I1| | |exact I4|].
  - intros j y H. destruct (put_some _ _ _ _ _ _ E H) as [[-> ->]|[_ H2]]; [rewrite Q|]; now apply I2.
  - intros j q H. rewrite len_put. now apply (I3 j q).
  - intros j y H. destruct (put_some _ _ _ _ _ _ E H) as [[-> ->]|[_ H2]]; [exact F|now apply I5].
Qed.
(** an event of h, which changes only what h has to give *)
Definition of_h (h : nat) (e : event) : Prop := match e with Ran k _ _ _ | Got k _ | Bad k => k = h | End_ _ | Asked _ => True | Prepared _ _ => False end.
Lemma pending_other h e g j : of_h h e -> j <> h -> pending j (e :: g) = pending j g.
Proof.
  intros H N. assert (E : Nat.eqb h j = false) by (apply Nat.eqb_neq; congruence).
  destruct e as [k q|k q a [rs| | |]|k v|k|k|q]; cbn [of_h] in H; cbn [pending]; try contradiction; try subst k; try rewrite E; reflexivity.
Qed.
Lemma inv_event l g h s s' e : Inv l g -> nth_error l h = Some s -> query_ s' = query_ s -> of_h h e ->
  (match e with Ran _ q _ _ => In (Prepared h q) g | _ => True end) ->
  (match e with Got _ v => exists x, hd_error (pending h g) = Some x /\ conv x = Some v | Bad _ => exists x, hd_error (pending h g) = Some x /\ conv x = None | End_ k => pending k g = [] | _ => True end) ->
  fits_ h s' (e :: g) -> Inv (put l h s') (e :: g).
Proof.
  intros I E Q O P1 P2 F. assert (I' := I). destruct I' as [I1 I2 I3 I4 I5]. split.
  - destruct e as [k q|k q a r|k v|k|k|q]; cbn [of_h] in O; cbn [own]; try contradiction; try exact I1. subst k. split; assumption.
  - intros j y H. right. destruct (put_some _ _ _ _ _ _ E H) as [[-> ->]|[_ H2]]; [rewrite Q|]; now apply I2.
  - intros j q [H|H]; [destruct e; cbn [of_h] in O; try contradiction; discriminate|]. rewrite len_put. now apply (I3 j q).
  - destruct e as [k q|k q a r|k v|k|k|q]; cbn [of_h] in O; cbn [fetched]; try contradiction; try exact I4; try subst k; split; assumption.
  - intros j y H. destruct (put_some _ _ _ _ _ _ E H) as [[-> ->]|[N H2]]; [exact F|]. apply I5 in H2. unfold fits_ in *. destruct (res y); [|exact H2]. now rewrite (pending_other h e g j O N).
Qed.
Lemma inv_asked l g q : Inv l g -> Inv l (Asked q :: g).
Proof.
  intros [I1 I2 I3 I4 I5]. split; cbn [own fetched]; try assumption.
  - intros h s H. right. now apply I2.
  - intros h q' [H|H]; [discriminate|now apply (I3 h q')].
Qed.
Lemma inv_end l g h : Inv l g -> pending h g = [] -> Inv l (End_ h :: g).
Proof.
  intros [I1 I2 I3 I4 I5] P. split; cbn [own fetched]; auto.
  - intros j s H. right. now apply I2.
  - intros j q' [H|H]; [discriminate|now apply (I3 j q')].
Qed.
Lemma inv_new l g k q n : Inv l g -> Inv (l ++ [mkS k q n None false false]) (Prepared (length l) q :: g).
Proof.
  intros [I1 I2 I3 I4 I5]. split; cbn [own fetched].
  - split; [|exact I1]. intros q' H. apply I3 in H. lia.
  - intros h s H. destruct (Nat.lt_ge_cases h (length l)) as [L|L].
    + rewrite nth_error_app1 in H by lia. right. now apply I2.
    + rewrite nth_error_app2 in H by lia. destruct (h - length l)%nat as [|m] eqn:Em; [|destruct m; discriminate]. injection H as <-. cbn [query_]. left. f_equal. lia.
  - intros h q' [H|H]; rewrite app_length; cbn [length]; [injection H as <- _; lia|apply I3 in H; lia].
  - exact I4.
  - intros h s H. destruct (Nat.lt_ge_cases h (length l)) as [L|L].
    + rewrite nth_error_app1 in H by lia. exact (I5 h s H).
    + rewrite nth_error_app2 in H by lia. destruct (h - length l)%nat as [|m] eqn:Em; [|destruct m; discriminate]. injection H as <-. reflexivity.
Qed.

Lemma reconnect_same (c : conn) : stmts (fst (reconnect again c)) = stmts c /\ log (fst (reconnect again c)) = log c /\ closed (fst (reconnect again c)) = closed c.
Proof.
  unfold reconnect, fresh. destruct (cur c) as [k|]; [destruct (ping c); [auto|]|]; cbn [reachable]; destruct (reachable c); auto.
Qed.
Lemma ctor_inv c q c' r : inv c -> ctor parse c q = Ok (c', r) -> inv c'.
Proof.
  unfold inv, ctor. intros I H. destruct (cur c) as [k|]; [|discriminate]. destruct (busy c (length (stmts c))); [injection H as <- <-; exact I|].
  destruct (alive c); [|injection H as <- <-; exact I]. destruct (parse (db c) q) as [d a]. destruct a as [n| |]; injection H as <- <-; cbn; [|exact I|exact I]. now apply inv_new.
Qed.
Lemma reconnect_inv c : inv c -> inv (fst (reconnect again c)).
Proof. unfold inv. destruct (reconnect_same c) as [-> [-> _]]. auto. Qed.
Lemma prepare_inv c q c' r : inv c -> prepare parse again c q = Ok (c', r) -> inv c'.
Proof.
  unfold prepare. intros I H. destruct (ctor parse c q) as [[c1 r1]| | |] eqn:E; cbn [obind] in H; try discriminate. apply (ctor_inv _ _ _ _ I) in E.
  destruct r1 as [h| |]; try (injection H as <- <-; exact E). assert (R1 := reconnect_inv c1 E). destruct (reconnect again c1) as [c2 r2]. cbn [fst] in R1.
  destruct r2 as [u| |]; try (injection H as <- <-; exact R1). exact (ctor_inv _ _ _ _ R1 H).
Qed.
Lemma put_put {T} (l : list T) : forall i x y, put (put l i x) i y = put l i y.
Proof. induction l as [|z l IH]; intros [|i] x y; cbn; congruence. Qed.
Lemma execute_inv c h args : inv c -> inv (fst (execute exec c h args)).
Proof.
  unfold inv, execute. intros I. destruct (nth_error (stmts c) h) as [s|] eqn:E; [|exact I]. destruct (negb (Nat.eqb (params s) (length args))); [exact I|].
  set (was := mkS (on s) (query_ s) (params s) None false (gone s)).
  destruct (negb (here c s) || busy c h || negb (alive c)); [cbn; now apply (inv_put _ _ _ s)|].
  destruct (exec (db c) (query_ s) args) as [d a]. assert (P := i_prep _ _ I h s E).
  destruct a as [rs| | |]; cbn [fst stmts log note set_stmts set_db set_alive].
  - rewrite put_put. apply (inv_event _ _ _ s); try assumption; try reflexivity; try exact Logic.I. unfold fits_. cbn [res open_ pending]. rewrite Nat.eqb_refl. split; [reflexivity|discriminate].
  - apply (inv_event _ _ _ s); try assumption; try reflexivity; exact Logic.I.
  - apply (inv_event _ _ _ s); try assumption; try reflexivity; exact Logic.I.
  - apply (inv_event _ _ _ s); try assumption; try reflexivity; exact Logic.I.
Qed.
Lemma fetch_inv c h : inv c -> inv (fst (fetch_row conv c h)).
Proof.
  unfold inv, fetch_row. intros I. destruct (nth_error (stmts c) h) as [s|] eqn:E; [|exact I]. assert (F := i_res _ _ I h s E). unfold fits_ in F.
  destruct (res s) as [rs|]; [|exact I]. destruct F as [F1 F2]. destruct (open_ s).
  - destruct (here c s && alive c); [|cbn; now apply (inv_put _ _ _ s)]. destruct rs as [|x rs].
    + cbn. apply (inv_event _ _ _ s); try assumption; try reflexivity; try exact Logic.I. unfold fits_. cbn [res open_ pending]. auto.
    + destruct (conv x) as [v|] eqn:Ec; cbn; apply (inv_event _ _ _ s); try assumption; try reflexivity; try exact Logic.I.
      * exists x. rewrite F1. auto.
      * unfold fits_. cbn [res open_ pending]. rewrite Nat.eqb_refl, F1. split; [reflexivity|discriminate].
      * exists x. rewrite F1. auto.
      * unfold fits_. cbn [res open_ pending]. rewrite Nat.eqb_refl, F1. split; [reflexivity|discriminate].
  - cbn. apply inv_end; [exact I|]. rewrite F1. auto.
Qed.
Lemma release_same (c : conn) : stmts (release c) = stmts c /\ log (release c) = log c.
Proof. unfold release. destruct (all_gone c); [|auto]. destruct (cur c); auto. Qed.
Lemma drop_inv c h : inv c -> inv (drop c h).
Proof.
  unfold inv, drop. intros I. destruct (nth_error (stmts c) h) as [s|] eqn:E; [|exact I].
  match goal with |- context[release ?x] => destruct (release_same x) as [-> ->] end. cbn. now apply (inv_put _ _ _ s).
Qed.
Lemma send_inv c q : inv c -> inv (fst (send command c q)).
Proof.
  unfold inv, send. intros I. destruct (busy c (length (stmts c))); [exact I|]. destruct (alive c); [|exact I]. destruct (command (db c) q) as [d a].
  destruct a; cbn; now apply inv_asked.
Qed.
Lemma query_inv c q : inv c -> inv (fst (query command again c q)).
Proof.
  unfold query. intros I. assert (J : inv (fst (match cur c with Some _ => (c, Fine tt) | None => reconnect again c end))) by (destruct (cur c); [exact I|now apply reconnect_inv]).
  destruct (match cur c with Some _ => (c, Fine tt) | None => reconnect again c end) as [c1 r1]. cbn [fst] in J. destruct r1 as [u| |]; try exact J.
  assert (K := send_inv c1 q J). destruct (send command c1 q) as [c2 lost]. cbn [fst] in K. destruct lost; [|exact K].
  assert (L := reconnect_inv c2 K). destruct (reconnect again c2) as [c3 r3]. cbn [fst] in L. destruct r3; try exact L. cbn [fst]. now apply send_inv.
Qed.
Lemma run_once_inv c q args c' r : inv c -> run_once parse exec again c q args = Ok (c', r) -> inv c'.
Proof.
  unfold run_once. intros I H. destruct (prepare parse again c q) as [[c1 r1]| | |] eqn:E; cbn [obind] in H; try discriminate. apply (prepare_inv _ _ _ _ I) in E.
  destruct r1 as [h| |]; try (injection H as <- <-; exact E). assert (K := execute_inv c1 h args E). destruct (execute exec c1 h args) as [c2 r2]. injection H as <- <-. now apply drop_inv.
Qed.
Lemma run_inv c q args c' r : inv c -> run parse exec again c q args = Ok (c', r) -> inv c'.
Proof.
  unfold run. intros I H. assert (J : inv (fst (match cur c with Some _ => (c, Fine tt) | None => reconnect again c end))) by (destruct (cur c); [exact I|now apply reconnect_inv]).
  destruct (match cur c with Some _ => (c, Fine tt) | None => reconnect again c end) as [c1 r1]. cbn [fst] in J. destruct r1 as [u| |]; try (injection H as <- <-; exact J).
  destruct (run_once parse exec again c1 q args) as [[c2 r2]| | |] eqn:E; cbn [obind] in H; try discriminate. apply (run_once_inv _ _ _ _ _ J) in E.
  destruct r2 as [u2| |]; try (injection H as <- <-; exact E). assert (L := reconnect_inv c2 E). destruct (reconnect again c2) as [c3 r3]. cbn [fst] in L.
  destruct r3; try (injection H as <- <-; exact L). exact (run_once_inv _ _ _ _ _ L H).
Qed.
Notation step := (step conv parse exec command again).
Notation steps := (steps conv parse exec command again).
Lemma step_inv c o c' b : inv c -> step c o = Ok (c', b) -> inv c'.
Proof.
  intros I H. destruct o as [q|h args|h|h|q args| | | | | |r]; cbn [MyConn_Model.step] in H.
  - destruct (closed c); [injection H as <- <-; exact I|]. destruct (prepare parse again c q) as [[c1 r]| | |] eqn:E; cbn [obind] in H; try discriminate. injection H as <- <-. exact (prepare_inv _ _ _ _ I E).
  - destruct (usable c h); [|injection H as <- <-; exact I]. assert (K := execute_inv c h args I). destruct (execute exec c h args). injection H as <- <-. exact K.
  - destruct (usable c h); [|injection H as <- <-; exact I]. assert (K := fetch_inv c h I). destruct (fetch_row conv c h). injection H as <- <-. exact K.
  - destruct (usable c h); injection H as <- <-; [now apply drop_inv|exact I].
  - destruct (closed c); [injection H as <- <-; exact I|]. destruct (run parse exec again c q args) as [[c1 r]| | |] eqn:E; cbn [obind] in H; try discriminate. injection H as <- <-. exact (run_inv _ _ _ _ _ I E).
  - destruct (closed c); [injection H as <- <-; exact I|]. assert (K := query_inv c (str "BEGIN") I). destruct (query command again c (str "BEGIN")). injection H as <- <-. exact K.
  - destruct (closed c); [injection H as <- <-; exact I|]. assert (K := query_inv c (str "COMMIT") I). destruct (query command again c (str "COMMIT")). injection H as <- <-. exact K.
  - destruct (closed c); [injection H as <- <-; exact I|]. assert (K := query_inv c (str "ROLLBACK") I). destruct (query command again c (str "ROLLBACK")). injection H as <- <-. exact K.
  - destruct (closed c); injection H as <- <-; [exact I|]. unfold close. assert (K := query_inv c (str "ROLLBACK") I). unfold inv in *.
    match goal with |- context[release ?x] => destruct (release_same x) as [-> ->] end. exact K.
  - injection H as <- <-. exact I.
  - injection H as <- <-. exact I.
Qed.
Lemma steps_inv os : forall c c', inv c -> steps c os = Ok c' -> inv c'.
Proof.
  induction os as [|o os IH]; intros c c' I H; cbn [MyConn_Model.steps] in H; [injection H as <-; exact I|].
  destruct (step c o) as [[c1 b]| | |] eqn:E; cbn [obind] in H; try discriminate. exact (IH _ _ (step_inv _ _ _ _ I E) H).
Qed.
Lemma opened_inv d : inv (opened d).
Proof. split; cbn; auto; try tauto. all: intros [|h]; discriminate. Qed.

(** * Handles *)
Definition cnt (x : bool * nat) (l : list (bool * nat)) : nat := length (filter (fun y => Bool.eqb (fst x) (fst y) && Nat.eqb (snd x) (snd y)) l).
Definition is_cur (c : option nat) (k : nat) : bool := match c with Some j => Nat.eqb j k | None => false end.
Record H (c : conn) : Prop := {
  h_open : forall k, cnt (true, k) (handles c) = if Nat.ltb k (made c) then 1%nat else 0%nat;
  h_close : forall k, cnt (false, k) (handles c) = if Nat.ltb k (made c) && negb (is_cur (cur c) k) then 1%nat else 0%nat;
  h_cur : forall k, cur c = Some k -> (k < made c)%nat;
  h_on : forall h s, nth_error (stmts c) h = Some s -> (on s < made c)%nat;
  h_end : closed c = true -> forallb gone (stmts c) = true -> cur c = None }.
Lemma cnt_cons x y l : cnt x (y :: l) = ((if Bool.eqb (fst x) (fst y) && Nat.eqb (snd x) (snd y) then 1 else 0) + cnt x l)%nat.
Proof. unfold cnt. cbn [filter]. destruct (Bool.eqb (fst x) (fst y) && Nat.eqb (snd x) (snd y)); reflexivity. Qed.
(** what does not touch the handles *)
Lemma H_same (c c' : conn) : H c -> handles c' = handles c -> made c' = made c -> cur c' = cur c -> closed c' = closed c ->
  (forall h s, nth_error (stmts c') h = Some s -> (on s < made c)%nat) -> (closed c = true -> forallb gone (stmts c') = forallb gone (stmts c)) -> H c'.
Proof.
  intros [A1 A2 A3 A4 A5] E1 E2 E3 E4 E5 E6. split; rewrite ?E1, ?E2, ?E3, ?E4; auto. intros Hc Hg. apply A5; [exact Hc|]. now rewrite <- E6.
Qed.
Ltac counts := cbn [fst snd Bool.eqb andb is_cur];
  repeat match goal with |- context[Nat.ltb ?a ?b] => destruct (Nat.ltb_spec a b) | |- context[Nat.eqb ?a ?b] => destruct (Nat.eqb_spec a b) end; cbn [andb negb]; try lia.
Lemma fresh_H (c : conn) : H c -> cur c = None -> closed c = false -> H (fst (fresh again c)) /\ (forall u, snd (fresh again c) = Fine u -> cur (fst (fresh again c)) <> None) /\ closed (fst (fresh again c)) = false.
Proof.
  intros [A1 A2 A3 A4 A5] Ec Cl. unfold fresh. destruct (reachable c); cbn [fst snd closed cur].
  - split; [|split; [intros; discriminate|exact Cl]]. split; cbn [handles made cur stmts closed].
    + intros k. specialize (A1 k). rewrite cnt_cons, A1. counts.
    + intros k. specialize (A2 k). rewrite Ec in A2. cbn [is_cur negb] in A2. rewrite cnt_cons, A2. counts.
    + intros k [= <-]. lia.
    + intros h s E. apply A4 in E. lia.
    + congruence.
  - split; [|split; [intros; discriminate|exact Cl]]. split; cbn [handles made cur stmts closed].
    + intros k. specialize (A1 k). rewrite !cnt_cons, A1. counts.
    + intros k. specialize (A2 k). rewrite Ec in A2. cbn [is_cur negb] in A2. rewrite !cnt_cons, A2. counts.
    + discriminate.
    + intros h s E. apply A4 in E. lia.
    + reflexivity.
Qed.
Lemma reconnect_H (c : conn) : H c -> closed c = false -> H (fst (reconnect again c)) /\ (forall u, snd (reconnect again c) = Fine u -> cur (fst (reconnect again c)) <> None) /\ closed (fst (reconnect again c)) = false.
Proof.
  intros I Cl. unfold reconnect. destruct (cur c) as [k|] eqn:Ec; [|now apply fresh_H]. destruct (ping c); [split; [exact I|]; split; [intros; cbn; congruence|exact Cl]|].
  apply fresh_H; [|reflexivity|exact Cl]. destruct I as [A1 A2 A3 A4 A5]. split; cbn [handles made cur stmts closed]; auto.
  - intros j. specialize (A2 j). specialize (A3 k Ec). rewrite Ec in A2. cbn [is_cur] in A2. rewrite cnt_cons, A2. counts.
  - discriminate.
Qed.
Lemma ctor_H (c : conn) q c' r : H c -> closed c = false -> ctor parse c q = Ok (c', r) -> H c' /\ closed c' = false /\ cur c' = cur c.
Proof.
  intros I Cl E. unfold ctor in E. destruct (cur c) as [k|] eqn:Ec; [|discriminate]. destruct (busy c (length (stmts c))); [injection E as <- <-; auto|].
  assert (S : forall d b, H (set_alive (set_db c d) b)). { intros d b. apply (H_same c); auto. exact (h_on _ I). }
  destruct (alive c) eqn:Ea; [|injection E as <- <-; auto]. destruct (parse (db c) q) as [d a]. destruct a as [n| |]; injection E as <- <-; cbn [closed cur note set_stmts set_db set_alive]; split; auto; try apply (S d).
  - apply (H_same c); auto; cbn [stmts note set_stmts set_db]; [|rewrite Cl; discriminate]. intros h s E. destruct (Nat.lt_ge_cases h (length (stmts c))) as [L|L].
    + rewrite nth_error_app1 in E by lia. exact (h_on _ I h s E).
    + rewrite nth_error_app2 in E by lia. destruct (h - length (stmts c))%nat as [|m]; [|destruct m; discriminate]. injection E as <-. exact (h_cur _ I k Ec).
Qed.
(** prepare: undefined only with a null connection *)
Lemma prepare_H (c : conn) q : H c -> closed c = false -> cur c <> None -> exists c' r, prepare parse again c q = Ok (c', r) /\ H c' /\ closed c' = false.
Proof.
  intros I Cl Ec. assert (T : forall c : conn, cur c <> None -> exists c' r, ctor parse c q = Ok (c', r)).
  { intros x Ex. unfold ctor. destruct (cur x) as [k|]; [|congruence]. destruct (busy x (length (stmts x))); [eauto|]. destruct (alive x); [|eauto]. destruct (parse (db x) q) as [d [n| |]]; eauto. }
  unfold prepare. destruct (T c Ec) as [c1 [r1 E]]. rewrite E. cbn [obind]. destruct (ctor_H _ _ _ _ I Cl E) as [I1 [Cl1 _]].
  destruct r1 as [h| |]; [eauto|eauto|]. destruct (reconnect_H c1 I1 Cl1) as [I2 [F2 Cl2]]. destruct (reconnect again c1) as [c2 r2]. cbn [fst snd] in *.
  destruct r2 as [u| |]; [|eauto|eauto]. destruct (T c2 (F2 u eq_refl)) as [c3 [r3 E3]]. rewrite E3. destruct (ctor_H _ _ _ _ I2 Cl2 E3) as [I3 [Cl3 _]]. eauto.
Qed.
Lemma forallb_put {T} (f : T -> bool) (l : list T) : forall h s s', nth_error l h = Some s -> f s' = f s -> forallb f (put l h s') = forallb f l.
Proof. induction l as [|x l IH]; intros [|h] s s' E Ef; cbn in *; try discriminate; [injection E as ->; now rewrite Ef|now rewrite (IH h s s' E Ef)]. Qed.
Lemma H_put (c c' : conn) h s s' : H c -> nth_error (stmts c) h = Some s -> on s' = on s -> gone s' = gone s ->
  handles c' = handles c -> made c' = made c -> cur c' = cur c -> closed c' = closed c -> stmts c' = put (stmts c) h s' -> H c'.
Proof.
  intros I E O G E1 E2 E3 E4 E5. apply (H_same c); auto; rewrite E5.
  - intros j y Ey. destruct (put_some _ _ _ _ _ _ E Ey) as [[-> ->]|[_ Ej]]; [rewrite O; exact (h_on _ I h s E)|exact (h_on _ I j y Ej)].
  - intros _. now apply (forallb_put gone _ h s).
Qed.
Lemma execute_H (c : conn) h args : H c -> H (fst (execute exec c h args)) /\ closed (fst (execute exec c h args)) = closed c.
Proof.
  intros I. unfold execute. destruct (nth_error (stmts c) h) as [s|] eqn:E; [|auto]. destruct (negb (Nat.eqb (params s) (length args))); [auto|].
  destruct (negb (here c s) || busy c h || negb (alive c)).
  - cbn [fst]. split; [|reflexivity]. now apply (H_put c _ h s (mkS (on s) (query_ s) (params s) None false (gone s))).
  - destruct (exec (db c) (query_ s) args) as [d [rs| | |]]; cbn [fst]; (split; [|reflexivity]).
    + apply (H_put c _ h s (mkS (on s) (query_ s) (params s) (Some rs) true (gone s))); auto. cbn. now rewrite put_put.
    + now apply (H_put c _ h s (mkS (on s) (query_ s) (params s) None false (gone s))).
    + now apply (H_put c _ h s (mkS (on s) (query_ s) (params s) None false (gone s))).
    + now apply (H_put c _ h s (mkS (on s) (query_ s) (params s) None false (gone s))).
Qed.
Lemma fetch_H (c : conn) h : H c -> H (fst (fetch_row conv c h)).
Proof.
  intros I. unfold fetch_row. destruct (nth_error (stmts c) h) as [s|] eqn:E; [|exact I]. destruct (res s) as [rs|]; [|exact I].
  assert (P : forall r o es, H (mk (db c) (cur c) (made c) (alive c) (reachable c) (put (stmts c) h (mkS (on s) (query_ s) (params s) r o (gone s))) (closed c) (handles c) es)).
  { intros r o es. now apply (H_put c _ h s (mkS (on s) (query_ s) (params s) r o (gone s))). }
  destruct (open_ s); [|apply (H_same c); auto; exact (h_on _ I)]. destruct (here c s && alive c); [|apply P]. destruct rs as [|x rs]; [apply P|]. destruct (conv x); apply P.
Qed.
Lemma release_H (c : conn) :
  (forall k, cnt (true, k) (handles c) = if Nat.ltb k (made c) then 1%nat else 0%nat) ->
  (forall k, cnt (false, k) (handles c) = if Nat.ltb k (made c) && negb (is_cur (cur c) k) then 1%nat else 0%nat) ->
  (forall k, cur c = Some k -> (k < made c)%nat) -> (forall h s, nth_error (stmts c) h = Some s -> (on s < made c)%nat) -> H (release c) /\ closed (release c) = closed c.
Proof.
  intros A1 A2 A3 A4. unfold release, all_gone. destruct (closed c && forallb gone (stmts c)) eqn:G.
  - destruct (cur c) as [k|] eqn:Ec; [|split; [split; auto; intros; now rewrite ?Ec in *|reflexivity]]. cbn [closed]. split; [|reflexivity]. split; cbn [handles made cur stmts closed]; auto.
    + intros j. specialize (A2 j). specialize (A3 k eq_refl). cbn [is_cur] in A2. rewrite cnt_cons, A2. counts.
    + discriminate.
  - split; [|reflexivity]. split; auto; try congruence. intros H1 H2. rewrite H1, H2 in G. discriminate.
Qed.
Lemma drop_H (c : conn) h : H c -> H (drop c h) /\ closed (drop c h) = closed c.
Proof.
  intros I. unfold drop. destruct (nth_error (stmts c) h) as [s|] eqn:E; [|auto]. match goal with |- H (release ?x) /\ _ => change (H (release x) /\ closed (release x) = closed x) end. apply release_H; auto; try exact (h_open _ I); try exact (h_close _ I); try exact (h_cur _ I).
  cbn [stmts set_stmts made]. intros j y Ey. destruct (put_some _ _ _ _ _ _ E Ey) as [[-> ->]|[_ Ej]]; [exact (h_on _ I h s E)|exact (h_on _ I j y Ej)].
Qed.
Lemma send_H (c : conn) q : H c -> H (fst (send command c q)) /\ closed (fst (send command c q)) = closed c.
Proof.
  intros I. unfold send. destruct (busy c (length (stmts c))); [auto|]. destruct (alive c); [|auto]. destruct (command (db c) q) as [d [n| |]]; cbn [fst]; split; auto; apply (H_same c); auto; exact (h_on _ I).
Qed.
Lemma ensure_H (c : conn) : H c -> closed c = false ->
  let x := match cur c with Some _ => (c, Fine tt) | None => reconnect again c end in
  H (fst x) /\ closed (fst x) = false /\ forall u, snd x = Fine u -> cur (fst x) <> None.
Proof.
  intros I Cl x. unfold x. destruct (cur c) as [k|] eqn:Ec; cbn [fst snd]; [|destruct (reconnect_H c I Cl) as [K1 [K2 K3]]; auto]. split; [exact I|]. split; [exact Cl|]. intros _ _. congruence.
Qed.
Lemma query_H (c : conn) q : H c -> closed c = false -> H (fst (query command again c q)) /\ closed (fst (query command again c q)) = false.
Proof.
  intros I Cl. unfold query. destruct (ensure_H c I Cl) as [I1 [Cl1 _]]. destruct (match cur c with Some _ => (c, Fine tt) | None => reconnect again c end) as [c1 r1]. cbn [fst] in *.
  destruct r1 as [u| |]; auto. destruct (send_H c1 q I1) as [I2 Cl2]. destruct (send command c1 q) as [c2 lost]. cbn [fst] in *. rewrite Cl1 in Cl2. destruct lost; auto.
  destruct (reconnect_H c2 I2 Cl2) as [I3 [_ Cl3]]. destruct (reconnect again c2) as [c3 r3]. cbn [fst] in *. destruct r3; auto. cbn [fst]. destruct (send_H c3 q I3) as [I4 Cl4]. split; [exact I4|congruence].
Qed.
Lemma run_once_H (c : conn) q args : H c -> closed c = false -> cur c <> None -> exists c' r, run_once parse exec again c q args = Ok (c', r) /\ H c' /\ closed c' = false.
Proof.
  intros I Cl Ec. unfold run_once. destruct (prepare_H c q I Cl Ec) as [c1 [r1 [E [I1 Cl1]]]]. rewrite E. cbn [obind]. destruct r1 as [h| |]; [|eauto|eauto].
  destruct (execute_H c1 h args I1) as [I2 Cl2]. destruct (execute exec c1 h args) as [c2 r2]. cbn [fst] in *. destruct (drop_H c2 h I2) as [I3 Cl3]. exists (drop c2 h), r2. split; [reflexivity|]. split; [exact I3|congruence].
Qed.
Lemma run_H (c : conn) q args : H c -> closed c = false -> exists c' r, run parse exec again c q args = Ok (c', r) /\ H c' /\ closed c' = false.
Proof.
  intros I Cl. unfold run. destruct (ensure_H c I Cl) as [I1 [Cl1 F1]]. destruct (match cur c with Some _ => (c, Fine tt) | None => reconnect again c end) as [c1 r1]. cbn [fst snd] in *.
  destruct r1 as [u| |]; [|eauto|eauto]. destruct (run_once_H c1 q args I1 Cl1 (F1 u eq_refl)) as [c2 [r2 [E [I2 Cl2]]]]. rewrite E. cbn [obind].
  destruct r2 as [u2| |]; [eauto|eauto|]. destruct (reconnect_H c2 I2 Cl2) as [I3 [F3 Cl3]]. destruct (reconnect again c2) as [c3 r3]. cbn [fst snd] in *.
  destruct r3 as [u3| |]; [|eauto|eauto]. exact (run_once_H c3 q args I3 Cl3 (F3 u3 eq_refl)).
Qed.
(** Only preparing on a null connection is undefined. *)
Lemma step_H (c : conn) o : H c -> match step c o with Ok (c', _) => H c' | UB => cur c = None /\ closed c = false /\ exists q, o = Prepare q | _ => False end.
Proof.
  intros I. destruct o as [q|h args|h|h|q args| | | | | |b]; cbn [MyConn_Model.step].
  - destruct (closed c) eqn:Cl; [exact I|]. destruct (cur c) as [k|] eqn:Ec.
    + destruct (prepare_H c q I Cl) as [c1 [r1 [E [I1 _]]]]; [congruence|]. rewrite E. exact I1.
    + unfold prepare, ctor. rewrite Ec. cbn [obind]. eauto.
  - destruct (usable c h); [|exact I]. destruct (execute_H c h args I) as [K _]. destruct (execute exec c h args). exact K.
  - destruct (usable c h); [|exact I]. assert (K := fetch_H c h I). destruct (fetch_row conv c h). exact K.
  - destruct (usable c h); [|exact I]. now apply drop_H.
  - destruct (closed c) eqn:Cl; [exact I|]. destruct (run_H c q args I Cl) as [c1 [r1 [E [I1 _]]]]. rewrite E. exact I1.
  - destruct (closed c) eqn:Cl; [exact I|]. destruct (query_H c (str "BEGIN") I Cl) as [K _]. destruct (query command again c (str "BEGIN")). exact K.
  - destruct (closed c) eqn:Cl; [exact I|]. destruct (query_H c (str "COMMIT") I Cl) as [K _]. destruct (query command again c (str "COMMIT")). exact K.
  - destruct (closed c) eqn:Cl; [exact I|]. destruct (query_H c (str "ROLLBACK") I Cl) as [K _]. destruct (query command again c (str "ROLLBACK")). exact K.
  - destruct (closed c) eqn:Cl; [exact I|]. unfold close. destruct (query_H c (str "ROLLBACK") I Cl) as [K _]. cbv zeta. apply release_H; auto; [exact (h_open _ K)|exact (h_close _ K)|exact (h_cur _ K)|exact (h_on _ K)].
  - apply (H_same c); auto. exact (h_on _ I).
  - apply (H_same c); auto. exact (h_on _ I).
Qed.
Lemma opened_H d : H (opened d).
Proof.
  split; cbn [opened handles made cur stmts closed]; try discriminate.
  - intros [|k]; reflexivity.
  - intros [|k]; reflexivity.
  - intros k [= <-]. lia.
  - intros [|h]; discriminate.
Qed.
Lemma steps_H os : forall c c', H c -> steps c os = Ok c' -> H c'.
Proof.
  induction os as [|o os IH]; intros c c' I E; cbn [MyConn_Model.steps] in E; [injection E as <-; exact I|].
  assert (K := step_H c o I). destruct (step c o) as [[c1 b]| | |]; cbn [obind] in E; try discriminate. exact (IH _ _ K E).
Qed.

(** * A connection that was replaced does not come back *)
Definition later (c c' : conn) : Prop :=
  (made c <= made c')%nat /\ (forall k, cur c' = Some k -> cur c = Some k \/ (made c <= k)%nat) /\
  forall h s, nth_error (stmts c) h = Some s -> exists s', nth_error (stmts c') h = Some s' /\ on s' = on s /\ query_ s' = query_ s.
Lemma later_refl c : later c c.
Proof. split; [lia|]. split; [auto|]. eauto. Qed.
Lemma later_trans a b c : later a b -> later b c -> later a c.
Proof.
  intros [A1 [A2 A3]] [B1 [B2 B3]]. split; [lia|]. split.
  - intros k E. apply B2 in E as [E|E]; [now apply A2|]. right. lia.
  - intros h s E. destruct (A3 h s E) as [s1 [E1 [O1 Q1]]]. destruct (B3 h s1 E1) as [s2 [E2 [O2 Q2]]]. exists s2. repeat split; congruence.
Qed.
Lemma later_same (c c' : conn) : made c' = made c -> cur c' = cur c \/ cur c' = None -> stmts c' = stmts c -> later c c'.
Proof. intros E1 E2 E3. split; [lia|]. split; [|rewrite E3; eauto]. intros k E. destruct E2 as [E2|E2]; rewrite E2 in E; [auto|discriminate]. Qed.
Lemma later_put (c c' : conn) h s s' : nth_error (stmts c) h = Some s -> on s' = on s -> query_ s' = query_ s -> made c' = made c -> cur c' = cur c \/ cur c' = None -> stmts c' = put (stmts c) h s' -> later c c'.
Proof.
  intros E O Q E1 E2 E3. split; [lia|]. split; [intros k Ek; destruct E2 as [E2|E2]; rewrite E2 in Ek; [auto|discriminate]|].
  intros j y Ey. rewrite E3, nth_put. destruct (Nat.eqb_spec h j) as [->|N]; [|eauto]. rewrite Ey in E. injection E as ->.
  assert (L : (j < length (stmts c))%nat) by (apply nth_error_Some; congruence). rewrite (proj2 (Nat.ltb_lt _ _) L). eauto.
Qed.
Lemma later_fresh (c : conn) : later c (fst (fresh again c)).
Proof.
  unfold fresh. destruct (reachable c); (split; [cbn; lia|]); (split; [|cbn; eauto]); cbn; [intros k [= <-]; right; lia|discriminate].
Qed.
Lemma later_reconnect (c : conn) : later c (fst (reconnect again c)).
Proof.
  unfold reconnect. destruct (cur c) as [k|] eqn:Ec; [|apply later_fresh]. destruct (ping c); [apply later_refl|]. eapply later_trans; [|apply later_fresh]. apply later_same; auto.
Qed.
Lemma later_ctor (c : conn) q c' r : ctor parse c q = Ok (c', r) -> later c c'.
Proof.
  unfold ctor. destruct (cur c) as [k|] eqn:Ec; [|discriminate]. destruct (busy c (length (stmts c))); [intros [= <- <-]; apply later_refl|]. destruct (alive c); [|intros [= <- <-]; apply later_refl].
  destruct (parse (db c) q) as [d [n| |]]; intros [= <- <-]; try solve [apply later_same; auto].
  split; [cbn; lia|]. split; [cbn; auto|]. cbn. intros h s E. exists s. split; [|auto]. rewrite nth_error_app1; [exact E|]. apply nth_error_Some. congruence.
Qed.
Lemma later_prepare (c : conn) q c' r : prepare parse again c q = Ok (c', r) -> later c c'.
Proof.
  unfold prepare. destruct (ctor parse c q) as [[c1 r1]| | |] eqn:E; cbn [obind]; try discriminate. apply later_ctor in E. destruct r1 as [h| |]; try (intros [= <- <-]; exact E).
  assert (L := later_reconnect c1). destruct (reconnect again c1) as [c2 r2]. cbn [fst] in L. assert (M := later_trans _ _ _ E L). destruct r2; try (intros [= <- <-]; exact M).
  intros E3. apply later_ctor in E3. now apply (later_trans _ c2).
Qed.
Lemma later_execute (c : conn) h args : later c (fst (execute exec c h args)).
Proof.
  unfold execute. destruct (nth_error (stmts c) h) as [s|] eqn:E; [|apply later_refl]. destruct (negb (Nat.eqb (params s) (length args))); [apply later_refl|].
  assert (P : forall c', made c' = made c -> cur c' = cur c -> stmts c' = put (stmts c) h (mkS (on s) (query_ s) (params s) None false (gone s)) -> later c c').
  { intros c' H1 H2 H3. apply (later_put c c' h s (mkS (on s) (query_ s) (params s) None false (gone s))); auto. }
  destruct (negb (here c s) || busy c h || negb (alive c)); [now apply P|]. destruct (exec (db c) (query_ s) args) as [d [rs| | |]]; try (now apply P).
  apply (later_put c _ h s (mkS (on s) (query_ s) (params s) (Some rs) true (gone s))); auto. cbn. now rewrite put_put.
Qed.
Lemma later_fetch (c : conn) h : later c (fst (fetch_row conv c h)).
Proof.
  unfold fetch_row. destruct (nth_error (stmts c) h) as [s|] eqn:E; [|apply later_refl]. destruct (res s) as [rs|]; [|apply later_refl].
  assert (P : forall r o c', made c' = made c -> cur c' = cur c -> stmts c' = put (stmts c) h (mkS (on s) (query_ s) (params s) r o (gone s)) -> later c c').
  { intros r o c' H1 H2 H3. apply (later_put c c' h s (mkS (on s) (query_ s) (params s) r o (gone s))); auto. }
  destruct (open_ s); [|apply later_same; auto]. destruct (here c s && alive c); [|now apply (P None false)]. destruct rs as [|x rs]; [now apply (P (Some []) false)|].
  destruct (conv x); now apply (P (Some rs) true).
Qed.
Lemma later_release (c : conn) : later c (release c).
Proof. unfold release. destruct (all_gone c); [|apply later_refl]. destruct (cur c) eqn:Ec; [|apply later_refl]. apply later_same; auto. Qed.
Lemma later_drop (c : conn) h : later c (drop c h).
Proof.
  unfold drop. destruct (nth_error (stmts c) h) as [s|] eqn:E; [|apply later_refl]. eapply later_trans; [|apply later_release].
  apply (later_put c _ h s (mkS (on s) (query_ s) (params s) None false true)); auto.
Qed.
Lemma later_send (c : conn) q : later c (fst (send command c q)).
Proof. unfold send. destruct (busy c (length (stmts c))); [apply later_refl|]. destruct (alive c); [|apply later_refl]. destruct (command (db c) q) as [d [n| |]]; apply later_same; auto. Qed.
Lemma later_ensure (c : conn) : later c (fst (match cur c with Some _ => (c, Fine tt) | None => reconnect again c end)).
Proof. destruct (cur c); [apply later_refl|apply later_reconnect]. Qed.
Lemma later_query (c : conn) q : later c (fst (query command again c q)).
Proof.
  unfold query. assert (L := later_ensure c). destruct (match cur c with Some _ => (c, Fine tt) | None => reconnect again c end) as [c1 r1]. cbn [fst] in L. destruct r1; try exact L.
  assert (L2 := later_send c1 q). destruct (send command c1 q) as [c2 lost]. cbn [fst] in L2. assert (L3 := later_trans _ _ _ L L2). destruct lost; [|exact L3].
  assert (L4 := later_reconnect c2). destruct (reconnect again c2) as [c3 r3]. cbn [fst] in L4. assert (L5 := later_trans _ _ _ L3 L4). destruct r3; try exact L5. cbn [fst]. eapply later_trans; [exact L5|apply later_send].
Qed.
Lemma later_run_once (c : conn) q args c' r : run_once parse exec again c q args = Ok (c', r) -> later c c'.
Proof.
  unfold run_once. destruct (prepare parse again c q) as [[c1 r1]| | |] eqn:E; cbn [obind]; try discriminate. apply later_prepare in E. destruct r1 as [h| |]; try (intros [= <- <-]; exact E).
  assert (L := later_execute c1 h args). destruct (execute exec c1 h args) as [c2 r2]. cbn [fst] in L. intros [= <- <-]. eapply later_trans; [exact E|]. eapply later_trans; [exact L|apply later_drop].
Qed.
Lemma later_run (c : conn) q args c' r : run parse exec again c q args = Ok (c', r) -> later c c'.
Proof.
  unfold run. assert (L := later_ensure c). destruct (match cur c with Some _ => (c, Fine tt) | None => reconnect again c end) as [c1 r1]. cbn [fst] in L. destruct r1; try (intros [= <- <-]; exact L).
  destruct (run_once parse exec again c1 q args) as [[c2 r2]| | |] eqn:E; cbn [obind]; try discriminate. apply later_run_once in E. assert (L2 := later_trans _ _ _ L E). destruct r2; try (intros [= <- <-]; exact L2).
  assert (L3 := later_reconnect c2). destruct (reconnect again c2) as [c3 r3]. cbn [fst] in L3. assert (L4 := later_trans _ _ _ L2 L3). destruct r3; try (intros [= <- <-]; exact L4).
  intros E3. apply later_run_once in E3. now apply (later_trans _ c3).
Qed.
Lemma later_step (c : conn) o c' b : step c o = Ok (c', b) -> later c c'.
Proof.
  destruct o as [q|h args|h|h|q args| | | | | |r]; cbn [MyConn_Model.step].
  - destruct (closed c); [intros [= <- <-]; apply later_refl|]. destruct (prepare parse again c q) as [[c1 r]| | |] eqn:E; cbn [obind]; try discriminate. intros [= <- <-]. exact (later_prepare _ _ _ _ E).
  - destruct (usable c h); [|intros [= <- <-]; apply later_refl]. assert (L := later_execute c h args). destruct (execute exec c h args). intros [= <- <-]. exact L.
  - destruct (usable c h); [|intros [= <- <-]; apply later_refl]. assert (L := later_fetch c h). destruct (fetch_row conv c h). intros [= <- <-]. exact L.
  - destruct (usable c h); intros [= <- <-]; [apply later_drop|apply later_refl].
  - destruct (closed c); [intros [= <- <-]; apply later_refl|]. destruct (run parse exec again c q args) as [[c1 r]| | |] eqn:E; cbn [obind]; try discriminate. intros [= <- <-]. exact (later_run _ _ _ _ _ E).
  - destruct (closed c); [intros [= <- <-]; apply later_refl|]. assert (L := later_query c (str "BEGIN")). destruct (query command again c (str "BEGIN")). intros [= <- <-]. exact L.
  - destruct (closed c); [intros [= <- <-]; apply later_refl|]. assert (L := later_query c (str "COMMIT")). destruct (query command again c (str "COMMIT")). intros [= <- <-]. exact L.
  - destruct (closed c); [intros [= <- <-]; apply later_refl|]. assert (L := later_query c (str "ROLLBACK")). destruct (query command again c (str "ROLLBACK")). intros [= <- <-]. exact L.
  - destruct (closed c); intros [= <- <-]; [apply later_refl|]. unfold close. cbv zeta. eapply later_trans; [apply (later_query c (str "ROLLBACK"))|]. eapply later_trans; [|apply later_release]. apply later_same; auto.
  - intros [= <- <-]. apply later_same; auto.
  - intros [= <- <-]. apply later_same; auto.
Qed.
Lemma later_steps os : forall c c', steps c os = Ok c' -> later c c'.
Proof.
  induction os as [|o os IH]; intros c c'; cbn [MyConn_Model.steps]; [intros [= <-]; apply later_refl|].
  destruct (step c o) as [[c1 b]| | |] eqn:E; cbn [obind]; try discriminate. intros E2. eapply later_trans; [exact (later_step _ _ _ _ E)|exact (IH _ _ E2)].
Qed.

(** * Reading a whole result *)
Lemma fetch_all c h s rs : forall vs, nth_error (stmts c) h = Some s -> gone s = false -> res s = Some rs -> open_ s = true -> here c s = true -> alive c = true -> map conv rs = map Some vs ->
  exists c', steps c (repeat (Fetch h) (length rs + 1)) = Ok c' /\ log c' = End_ h :: rev (map (Got h) vs) ++ log c.
Proof.
  revert c s. induction rs as [|x rs IH]; intros c s vs E G Hr Ho Hh Ha Hm.
  - destruct vs; [|discriminate]. cbn [length Nat.add repeat MyConn_Model.steps MyConn_Model.step]. unfold usable. rewrite E, G. cbn [negb]. unfold fetch_row. rewrite E, Hr, Ho, Hh, Ha. cbn [andb obind].
    eexists. split; reflexivity.
  - destruct vs as [|v vs]; [discriminate|]. cbn [map] in Hm. injection Hm as Hx Hm. cbn [length Nat.add repeat MyConn_Model.steps MyConn_Model.step]. unfold usable. rewrite E, G. cbn [negb]. unfold fetch_row. rewrite E, Hr, Ho, Hh, Ha. cbn [andb]. rewrite Hx. cbn [obind].
    match goal with |- context[MyConn_Model.steps _ _ _ _ _ ?c1 _] => destruct (IH c1 (mkS (on s) (query_ s) (params s) (Some rs) true (gone s)) vs) as [c' [E1 E2]] end; auto.
    + cbn. rewrite nth_put, Nat.eqb_refl. assert (L : (h < length (stmts c))%nat) by (apply nth_error_Some; congruence). now rewrite (proj2 (Nat.ltb_lt _ _) L).
    + exists c'. split; [exact E1|]. rewrite E2. cbn [map rev log note set_stmts]. rewrite <- app_assoc. reflexivity.
Qed.
End proof.
