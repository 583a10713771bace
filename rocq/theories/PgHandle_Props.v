(** C124: the objects of libpq, for every history of calls on any number of connections and statements, whatever libpq answers. *)
From Verif Require Import Common PgHandle_Spec PgHandle_Model PgHandle_Proof.
Local Open Scope nat_scope.

(** No PGconn and no PGresult is used before it was got or after it was given back, and none is given back twice. *)
Theorem C124_protocol os s : steps start os = Ok s -> proper (trace s).
Proof. intros E. destruct (steps_inv _ _ _ _ start_inv E) as (l & I & _). exact (i_tr _ _ _ I). Qed.
(** What a connection or a statement needs is there as long as it lives, also when the connection object is gone before its statements. *)
Theorem C124_there os s : steps start os = Ok s ->
  (forall c i, nth_error (conns s) c = Some (Some i) -> takes (handle s i) (trace s) = 1 /\ releases (handle s i) (trace s) = 0) /\
  (forall j i r, nth_error (stmts s) j = Some (Some (i, r)) -> takes (handle s i) (trace s) = 1 /\ releases (handle s i) (trace s) = 0 /\
     forall h, r = Some h -> takes h (trace s) = 1 /\ releases h (trace s) = 0).
Proof.
  intros E. destruct (steps_inv _ _ _ _ start_inv E) as (l & I & _).
  assert (G : forall h, In h (owners s) -> takes h (trace s) = 1 /\ releases h (trace s) = 0).
  { intros h H. apply cnt_in in H. pose proof (i_own _ _ _ I h) as O. pose proof (i_made _ _ _ I h) as M. rewrite !cnt_app in O. destruct (h <? made s); lia. }
  split.
  - intros c i H. apply G, handle_owned. now apply (conn_counted _ _ _ _ _ I H).
  - intros j i r H. destruct (G _ (handle_owned _ _ (stmt_counted _ _ _ _ _ _ I H))) as (G1 & G2). repeat split; try assumption; subst; now apply G, (result_owned _ _ _ _ H).
Qed.
(** While memory lasts: what is not given back are at most one PGconn for every connection and statement that lives, and one PGresult for every statement; *)
Theorem C124_bounded_partial os s : steps start os = Ok s -> Forall enough os -> taken (trace s) <= released (trace s) + living (conns s) + 2 * living (stmts s).
Proof.
  intros E F. destruct (steps_inv _ _ _ _ start_inv E) as (l & I & H). specialize (H F). subst l. pose proof (i_tot _ _ _ I) as N. pose proof (i_sum _ _ _ I) as S. cbn [app] in *. rewrite app_nil_r in N, S.
  pose proof (owners_bound s). pose proof (refs_living s). lia.
Qed.
(** and when all of them are gone, everything is given back. *)
Theorem C124_all_partial os s : steps start os = Ok s -> Forall enough os -> living (conns s) = 0 -> living (stmts s) = 0 -> forall h, takes h (trace s) = releases h (trace s).
Proof.
  intros E F L1 L2 h. destruct (steps_inv _ _ _ _ start_inv E) as (l & I & H). specialize (H F). subst l. pose proof (i_own _ _ _ I h) as O. pose proof (i_sum _ _ _ I) as S. cbn [app] in *. rewrite app_nil_r in O, S.
  pose proof (owners_bound s) as B. pose proof (refs_living s). destruct (owners s) as [|x o]; [cbn in O; lia|]. cbn [length] in B. lia.
Qed.
(** connect gives a connection exactly if libpq is safe for threads, has memory, and is connected, and there is memory; otherwise an exception, and nothing is left behind. *)
Theorem C124_connect s t n g m s' b : connect s t n g m = (s', b) ->
  (b = true <-> t = true /\ n = true /\ g = true /\ m = Enough) /\
  (b = true -> exists i, conns s' = conns s ++ [Some i] /\ takes (handle s' i) (trace s') = S (takes (handle s' i) (trace s)) /\ releases (handle s' i) (trace s') = releases (handle s' i) (trace s)) /\
  (b = false -> conns s' = conns s /\ impls s' = impls s /\ forall h, takes h (trace s') + releases h (trace s) = takes h (trace s) + releases h (trace s')).
Proof.
  unfold connect. assert (W : forall x y, x + y = x + y) by reflexivity.
  destruct m, t, n, g; cbn [negb orb]; intros [= <- <-]; (split; [split; [intros; try discriminate; auto|intros (? & ? & ? & ?); congruence]|split; [intros; try discriminate|intros; try discriminate; repeat split; intros; cbn [note take trace takes releases]; try lia]]).
  exists (length (impls s)). unfold handle. cbn [note take trace takes releases conns impls made]. rewrite nth_middle. cbn [fst]. rewrite Nat.eqb_refl. auto.
Qed.
(** What a user expects is all that was got is given back.  The result of a query that succeeded is lost if there is no memory for the object that holds it. *)
Definition calm : asked := mkA Good false Success false Good Success Enough.
Theorem C124_lost_refuted : ~ (forall os s, steps start os = Ok s -> living (conns s) = 0 -> living (stmts s) = 0 -> forall h, takes h (trace s) = releases h (trace s)).
Proof.
  intros H. pose (os := [Connect true true true Enough; Prepare 0 Good false Success; Execute 0 false Good Success No_object; Drop 0; Close 0 calm]).
  destruct (steps start os) as [s| | |] eqn:E; try (vm_compute in E; discriminate). specialize (H os s E). vm_compute in E. injection E as <-. specialize (H eq_refl eq_refl 2). vm_compute in H. discriminate.
Qed.

Example C124_nonvacuous : exists s, steps start [Connect true true true Enough; Prepare 0 Back false Success; Execute 0 false Good Success Enough; Fetch 0; Close 0 calm; Execute 0 false Good Error Enough; Fetch 0;
    Execute 0 false Good Success Enough; Drop 0; Connect true true false Enough] = Ok s /\
  living (conns s) = 0 /\ living (stmts s) = 0 /\ taken (trace s) = 8 /\ released (trace s) = 8 /\
  exists s2, steps start [Connect true true true Enough; Prepare 0 Good false Success; Execute 0 false Good Success Enough; Close 0 calm] = Ok s2 /\ living (conns s2) = 0 /\ living (stmts s2) = 1 /\ taken (trace s2) = released (trace s2) + 2.
Proof. eexists. split; [vm_compute; reflexivity|]. do 4 (split; [vm_compute; reflexivity|]). eexists. split; [vm_compute; reflexivity|]. vm_compute. auto. Qed.
Example C124_enough_nonvacuous : Forall enough [Connect true true true Enough; Run 0 calm; Close 0 calm].
Proof. repeat constructor; discriminate. Qed.

Print Assumptions C124_protocol.
Print Assumptions C124_there.
Print Assumptions C124_bounded_partial.
Print Assumptions C124_all_partial.
Print Assumptions C124_connect.
Print Assumptions C124_lost_refuted.
