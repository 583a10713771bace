(** C122: statements on a MySQL connection (MyConn_Model.v), for every server, every conversion of rows and every history of calls, of sessions that
    end and of a server that comes and goes. *)
From Verif Require Import Common MyConn_Spec MyConn_Model MyConn_Proof.
Local Open Scope Z_scope.

Section props.
Context {A R V D : Type} (conv : R -> option V) (parse : D -> text -> D * said) (exec : D -> text -> list A -> D * answer R)
        (command : D -> text -> D * said) (again : D -> D).
Notation conn := (@conn A R V D).
Notation step := (@step A R V D conv parse exec command again).
Notation steps := (@steps A R V D conv parse exec command again).

(** Whatever the server runs for a statement is the one query the statement was made from. *)
Theorem C122_own d os (c : conn) : steps (opened d) os = Ok c -> own (log c).
Proof. intros E. exact (i_own _ _ _ (steps_inv _ _ _ _ _ _ _ _ (opened_inv conv parse exec command again d) E)). Qed.

(** Every row a statement gives is the next row of its latest execution, converted; false means that none is left; an exception from the conversion
    loses that row only. *)
Theorem C122_rows d os (c : conn) : steps (opened d) os = Ok c -> fetched conv (log c).
Proof. intros E. exact (i_fetched _ _ _ (steps_inv _ _ _ _ _ _ _ _ (opened_inv conv parse exec command again d) E)). Qed.

(** execute: the server runs the query the statement was made from with these arguments, and the call returns normally if the server does; or nothing is
    sent and an exception is thrown, because the arguments are too many or too few, the connection was replaced, the session has ended, or another
    statement still has rows on the way. *)
Theorem C122_execute d os (c : conn) h s args c' b : steps (opened d) os = Ok c -> nth_error (stmts c) h = Some s -> gone s = false -> step c (Execute h args) = Ok (c', b) ->
  (params s = length args /\ here c s = true /\ alive c = true /\ busy c h = false /\
   exists q a, In (Prepared h q) (log c) /\ exec (db c) q args = (db c', a) /\ log c' = Ran h q args a :: log c /\ b = match a with Rows _ | Complete => true | _ => false end) \/
  (~ (params s = length args /\ here c s = true /\ alive c = true /\ busy c h = false) /\ log c' = log c /\ db c' = db c /\ b = false).
Proof.
  intros E Es G. assert (P := i_prep _ _ _ (steps_inv _ _ _ _ _ _ _ _ (opened_inv conv parse exec command again d) E) h s Es). cbn [MyConn_Model.step]. unfold usable. rewrite Es, G. cbn [negb]. unfold execute. rewrite Es.
  destruct (Nat.eqb_spec (params s) (length args)) as [N|N]; cbn [negb]; [|intros [= <- <-]; right; repeat split; tauto].
  destruct (here c s); [|intros [= <- <-]; right; repeat split; intuition discriminate]. destruct (busy c h); [intros [= <- <-]; right; repeat split; intuition discriminate|].
  destruct (alive c); [|intros [= <- <-]; right; repeat split; intuition discriminate]. cbn [negb orb].
  destruct (exec (db c) (query_ s) args) as [d' a] eqn:Ee. intros E2. left. repeat split; [exact N|]. exists (query_ s), a. destruct a; injection E2 as <- <-; repeat split; auto.
Qed.

(** A statement with rows on the way gives them all, in order, and then false. *)
Theorem C122_result (c : conn) h s rs vs : nth_error (stmts c) h = Some s -> gone s = false -> res s = Some rs -> open_ s = true -> here c s = true -> alive c = true ->
  map conv rs = map Some vs -> exists c', steps c (repeat (Fetch h) (length rs + 1)) = Ok c' /\ log c' = End_ h :: rev (map (Got h) vs) ++ log c.
Proof. intros. eapply fetch_all; eauto. Qed.

Lemma busy_of (c : conn) k s : nth_error (stmts c) k = Some s -> here c s = true -> open_ s = true -> busy c (length (stmts c)) = true.
Proof.
  intros E Hh Ho. unfold busy. assert (L : (k < length (stmts c))%nat) by (apply nth_error_Some; congruence).
  assert (G : forall l i, nth_error l (k - i) = Some s -> (i <= k)%nat -> busy_from c (length (stmts c)) i l = true).
  { induction l as [|y l IH]; intros i El Hi; [destruct (k - i)%nat; discriminate|]. cbn [busy_from]. destruct (Nat.eq_dec i k) as [->|N].
    - rewrite Nat.sub_diag in El. injection El as ->. rewrite Hh, Ho. rewrite (proj2 (Nat.eqb_neq _ _)) by lia. reflexivity.
    - rewrite (IH (S i)); [apply orb_true_r| |lia]. replace (k - i)%nat with (S (k - S i)) in El by lia. exact El. }
  apply (G (stmts c) 0%nat); [now rewrite Nat.sub_0_r|lia].
Qed.
(** What a user expects of begin, commit and rollback: a normal return means that the server was asked.  It does not: while a statement has rows on the
    way - and it has until fetch_row has returned false - nothing is sent, and the call returns normally. *)
Theorem C122_commit_refuted (c : conn) k s : closed c = false -> nth_error (stmts c) k = Some s -> here c s = true -> open_ s = true ->
  step c Begin = Ok (c, true) /\ step c Commit = Ok (c, true) /\ step c Rollback = Ok (c, true).
Proof.
  intros Hc E Hh Ho. assert (B := busy_of c k s E Hh Ho). assert (exists j, cur c = Some j) as [j Ej] by (unfold here in Hh; destruct (cur c); [eauto|discriminate]).
  cbn [MyConn_Model.step]. rewrite Hc. unfold query, send. rewrite Ej, B. auto.
Qed.
(** What a user expects of prepare: a connection or an exception.  After a reconnection that failed it follows the null pointer, and nothing else does. *)
Theorem C122_null_refuted d os (c : conn) o : steps (opened d) os = Ok c -> (step c o = UB <-> cur c = None /\ closed c = false /\ exists q, o = Prepare q).
Proof.
  intros E. assert (Hc := steps_H _ _ _ _ _ _ _ _ (opened_H parse exec command again d) E). assert (S := step_H conv parse exec command again c o Hc). split.
  - intros E1. rewrite E1 in S. exact S.
  - intros [Ec [Hcl [q ->]]]. cbn [MyConn_Model.step]. rewrite Hcl. unfold prepare, ctor. now rewrite Ec.
Qed.
Theorem C122_no_other d os (c : conn) o : steps (opened d) os = Ok c -> step c o <> Fuel /\ step c o <> Throw.
Proof.
  intros E. assert (Hc := steps_H _ _ _ _ _ _ _ _ (opened_H parse exec command again d) E). assert (S := step_H conv parse exec command again c o Hc). split; intros E1; rewrite E1 in S; exact S.
Qed.

(** A statement whose connection was replaced never reaches the server again: every execute of it throws, and nothing is sent. *)
Theorem C122_stale d os (c : conn) h s os' c' args c'' b : steps (opened d) os = Ok c -> nth_error (stmts c) h = Some s -> here c s = false -> steps c os' = Ok c' ->
  usable c' h = true -> step c' (Execute h args) = Ok (c'', b) -> b = false /\ log c'' = log c' /\ db c'' = db c'.
Proof.
  intros E Es Hh E' U. assert (Hc := steps_H _ _ _ _ _ _ _ _ (opened_H parse exec command again d) E). destruct (later_steps _ _ _ _ _ _ _ _ E') as [_ [L2 L3]]. destruct (L3 h s Es) as [s' [Es' [On _]]].
  assert (Hh' : here c' s' = false).
  { unfold here. destruct (cur c') as [k|] eqn:Ek; [|reflexivity]. apply Nat.eqb_neq. rewrite On. destruct (L2 k eq_refl) as [L|L].
    - unfold here in Hh. rewrite L in Hh. now apply Nat.eqb_neq.
    - assert (N := h_on _ Hc h s Es). lia. }
  cbn [MyConn_Model.step]. rewrite U. unfold execute. rewrite Es', Hh'. cbn [negb orb]. destruct (negb (Nat.eqb (params s') (length args))); intros [= <- <-]; auto.
Qed.

(** Every MYSQL is opened once and closed at most once; those that are not the current one are closed; and when the connection object and its statements
    are gone, all are. *)
Theorem C122_handles d os (c : conn) k : steps (opened d) os = Ok c ->
  (cnt (true, k) (handles c) <= 1)%nat /\ (cnt (false, k) (handles c) <= cnt (true, k) (handles c))%nat /\
  (cur c <> Some k \/ (closed c = true /\ forallb gone (stmts c) = true) -> cnt (false, k) (handles c) = cnt (true, k) (handles c)).
Proof.
  intros E. destruct (steps_H _ _ _ _ _ _ _ _ (opened_H parse exec command again d) E) as [H1 H2 H3 _ H5]. rewrite H1, H2. repeat split.
  - destruct (Nat.ltb k (made c)); lia.
  - destruct (Nat.ltb k (made c)); [destruct (negb (is_cur (cur c) k))|]; cbn; lia.
  - intros N. assert (X : is_cur (cur c) k = false).
    { destruct N as [N|[N1 N2]]; [|now rewrite (H5 N1 N2)]. unfold is_cur. destruct (cur c) as [j|]; [|reflexivity]. apply Nat.eqb_neq. congruence. }
    rewrite X. destruct (Nat.ltb k (made c)); reflexivity.
Qed.
End props.

(** A server for examples: queries that begin with S give the rows 7 and 8, X is refused, and the others are done; 8 becomes 80 and 7 becomes 70. *)
Definition x_conv (x : Z) : option Z := if x <? 9 then Some (x * 10) else None.
Definition x_parse (n : Z) (q : text) : Z * said := (n, if hd 0 q =? 83 then Accepted 0 else Accepted 1).
Definition x_exec (n : Z) (q : text) (args : list Z) : Z * answer Z :=
  match q with x :: _ => if x =? 83 then (n, Rows [7; 8]) else if x =? 88 then (n, Refused) else (n + 1, Complete) | [] => (n, Refused) end.
Definition x_command (n : Z) (q : text) : Z * said := (n, Accepted 0).
Definition x_steps := steps x_conv x_parse x_exec x_command (fun n : Z => n).
Definition x_step := step x_conv x_parse x_exec x_command (fun n : Z => n).
Definition x_open := @opened Z Z Z Z 0.
Definition x_ok (o : outcome (@conn Z Z Z Z)) : @conn Z Z Z Z := match o with Ok c => c | _ => x_open end.
Definition x_returned (o : outcome (@conn Z Z Z Z * bool)) : option bool := match o with Ok (_, b) => Some b | _ => None end.
(** a state by computing it *)
Ltac state := match goal with |- exists c, ?e = Ok c /\ _ => let v := eval vm_compute in (x_ok e) in exists v; split; [vm_compute; reflexivity|]
  | |- exists c s, ?e = Ok c /\ nth_error _ ?h = _ /\ _ => let v := eval vm_compute in (x_ok e) in exists v;
      let s := eval vm_compute in (nth h (stmts v) (mkS 0 [] 0 None false false)) in exists s; split; [vm_compute; reflexivity|]; split; [vm_compute; reflexivity|] end.
Definition sel := str "SELECT". Definition ins := str "INSERT".

Example C122_own_nonvacuous : exists c, x_steps x_open [Prepare ins; Prepare sel; Execute 1 []; Execute 0 [5]; Fetch 1; Fetch 1; Fetch 1; Execute 0 [5]] = Ok c /\
  log c = [Ran 0 ins [5] Complete; End_ 1; Got 1 80; Got 1 70; Ran 1 sel [] (Rows [7; 8]); Prepared 1 sel; Prepared 0 ins] /\ db c = 1.
Proof. state. vm_compute. auto 10. Qed.
Example C122_execute_nonvacuous : exists c s, x_steps x_open [Prepare ins] = Ok c /\ nth_error (stmts c) 0 = Some s /\ gone s = false /\
  x_returned (x_step c (Execute 0 [5])) = Some true /\ x_returned (x_step c (Execute 0 [])) = Some false.
Proof. state. vm_compute. auto 10. Qed.
Example C122_result_nonvacuous : exists c s, x_steps x_open [Prepare sel; Execute 0 []] = Ok c /\ nth_error (stmts c) 0 = Some s /\ gone s = false /\ res s = Some [7; 8] /\
  open_ s = true /\ here c s = true /\ alive c = true /\ map x_conv [7; 8] = map Some [70; 80].
Proof. state. vm_compute. auto 10. Qed.
(** What a user expects: two statements of one connection can be read in turn.  The second execute throws, and the prepare of a third too. *)
Theorem C122_two_refuted : exists c, x_steps x_open [Prepare sel; Prepare ins; Execute 0 []; Fetch 0] = Ok c /\
  x_returned (x_step c (Execute 1 [5])) = Some false /\ x_returned (x_step c (Prepare ins)) = Some false /\ x_returned (x_step c (Run ins [5])) = Some false.
Proof. state. vm_compute. auto 10. Qed.
(** An INSERT, a SELECT of which both rows were read, and a commit that returns normally although the server was not asked; deleting the connection asks
    the server for nothing either. *)
Example C122_commit_nonvacuous : exists c,
  x_steps x_open [Begin; Run ins [5]; Prepare sel; Execute 1 []; Fetch 1; Fetch 1] = Ok c /\ x_step c Commit = Ok (c, true) /\ ~ In (Asked (str "COMMIT")) (log c) /\
  log (x_ok (x_steps c [Commit; Close])) = log c.
Proof. state. vm_compute. repeat split. intuition discriminate. Qed.
Example C122_null_nonvacuous : exists c, x_steps x_open [Lose; Reach false; Prepare sel] = Ok c /\ x_step c (Prepare sel) = UB /\ x_returned (x_step c (Run sel [])) = Some false.
Proof. state. vm_compute. auto 10. Qed.
Example C122_stale_nonvacuous : exists c s, x_steps x_open [Prepare ins; Lose; Prepare sel] = Ok c /\ nth_error (stmts c) 0 = Some s /\ here c s = false /\ usable c 0 = true /\
  x_returned (x_step c (Execute 0 [5])) = Some false /\ x_returned (x_step c (Execute 1 [])) = Some true.
Proof. state. vm_compute. auto 10. Qed.
Example C122_handles_nonvacuous : exists c, x_steps x_open [Prepare ins; Lose; Prepare sel; Close; Drop 1; Drop 0] = Ok c /\ closed c = true /\ forallb gone (stmts c) = true /\
  handles c = [(false, 1%nat); (true, 1%nat); (false, 0%nat); (true, 0%nat)].
Proof. state. vm_compute. auto 10. Qed.

Print Assumptions C122_own.
Print Assumptions C122_rows.
Print Assumptions C122_execute.
Print Assumptions C122_result.
Print Assumptions C122_commit_refuted.
Print Assumptions C122_null_refuted.
Print Assumptions C122_no_other.
Print Assumptions C122_stale.
Print Assumptions C122_handles.
Print Assumptions C122_two_refuted.
