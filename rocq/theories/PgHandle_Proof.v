(** Proofs for C124: every handle is owned by an impl that is counted, by a statement, or by the call in progress. *)
From Verif Require Import Common CommonLemmas PgHandle_Spec PgHandle_Model.
Local Open Scope nat_scope.

Notation cnt h l := (count_occ Nat.eq_dec l h).
Definition own_impl (p : nat * nat) : list nat := match snd p with O => [] | S _ => [fst p] end.
Definition opt {T} (o : option T) : list T := match o with Some x => [x] | None => [] end.
Definition own_stmt (x : option (nat * option nat)) : list nat := match x with Some (_, r) => opt r | None => [] end.
Definition ref_stmt (x : option (nat * option nat)) : list nat := match x with Some (i, _) => [i] | None => [] end.
Definition owners (s : state) : list nat := flat_map own_impl (impls s) ++ flat_map own_stmt (stmts s).
Definition refs (s : state) : list nat := flat_map opt (conns s) ++ flat_map ref_stmt (stmts s).
Definition count (l : list (nat * nat)) (i : nat) : nat := snd (nth i l (0, 0)).
Definition total (l : list (nat * nat)) : nat := fold_right (fun p n => snd p + n) 0 l.

(** lk: handles held by the call in progress, or lost; ex: impls it holds *)
Record inv (s : state) (lk ex : list nat) : Prop := mkI {
  i_tr : proper (trace s);
  i_made : forall h, takes h (trace s) = if h <? made s then 1 else 0;
  i_own : forall h, cnt h (owners s ++ lk) + releases h (trace s) = takes h (trace s);
  i_ref : forall i, cnt i (refs s ++ ex) = count (impls s) i;
  i_sum : total (impls s) = length (refs s ++ ex);
  i_tot : length (owners s ++ lk) + released (trace s) = taken (trace s) }.

Lemma nth_some {T} (l : list (option T)) j x : nth j l None = Some x -> nth_error l j = Some (Some x).
Proof. intros H. destruct (nth_error l j) as [y|] eqn:E; [now rewrite (nth_error_nth _ _ _ E) in H; subst|]. rewrite nth_overflow in H by (now apply nth_error_None). discriminate. Qed.
Lemma put_split {T} (l : list T) : forall i x y, nth_error l i = Some x -> exists a b, l = a ++ x :: b /\ put l i y = a ++ y :: b /\ length a = i.
Proof.
  induction l as [|z l IH]; intros [|i] x y E; cbn in E; try discriminate; [injection E as ->; exists [], l; auto|].
  destruct (IH i x y E) as (a & b & -> & P & L). exists (z :: a), b. cbn. rewrite P, L. auto.
Qed.
Lemma cnt_app h a b : cnt h (a ++ b) = cnt h a + cnt h b.
Proof. apply count_occ_app. Qed.
Lemma cnt_cons h x l : cnt h (x :: l) = (if Nat.eqb x h then 1 else 0) + cnt h l.
Proof. cbn [count_occ]. destruct (Nat.eq_dec x h), (Nat.eqb_spec x h); lia. Qed.
Lemma cnt_in h l : In h l <-> 0 < cnt h l.
Proof. rewrite (count_occ_In Nat.eq_dec). lia. Qed.
Lemma total_app a b : total (a ++ b) = total a + total b.
Proof. unfold total. induction a as [|x a IH]; cbn; [reflexivity|]. rewrite IH. lia. Qed.
Lemma count_app a p b i : count (a ++ p :: b) i = if Nat.eqb (length a) i then snd p else if i <? length a then count a i else count b (i - length a - 1).
Proof.
  unfold count. destruct (Nat.eqb_spec (length a) i) as [<-|N]; [now rewrite nth_middle|]. destruct (Nat.ltb_spec i (length a)); [now rewrite app_nth1|].
  rewrite app_nth2 by lia. destruct (i - length a) as [|k] eqn:E; [lia|]. cbn. now rewrite Nat.sub_0_r.
Qed.
Lemma cnt_nil h : cnt h [] = 0.
Proof. reflexivity. Qed.
Ltac norm := rewrite ?flat_map_app, ?app_length, ?cnt_app, ?cnt_cons, ?total_app in *; cbn [flat_map app length own_impl own_stmt ref_stmt opt fst snd fold_right total] in *;
  repeat (rewrite ?app_length, ?cnt_app, ?cnt_cons, ?cnt_nil in *; cbn [length app] in *).

Lemma inv_use s lk ex h : inv s lk ex -> In h (owners s ++ lk) -> inv (note s (Use h)) lk ex.
Proof.
  intros [T M O R S N] H. split; try assumption. cbn [note trace proper]. apply cnt_in in H. specialize (O h). specialize (M h). destruct (h <? made s); repeat split; try assumption; lia.
Qed.
Lemma inv_take s lk ex : inv s lk ex -> inv (take s) (made s :: lk) ex.
Proof.
  intros [T M O R S N]. split; try assumption; unfold take; cbn [trace made proper takes releases taken released].
  - split; [|assumption]. now rewrite M, Nat.ltb_irrefl.
  - intros h. rewrite M. destruct (Nat.eqb_spec (made s) h), (Nat.ltb_spec h (made s)), (Nat.ltb_spec h (Datatypes.S (made s))); lia.
  - intros h. specialize (O h). change (owners (mkS _ _ _ _ _)) with (owners s). norm. lia.
  - change (owners (mkS _ _ _ _ _)) with (owners s). norm. lia.
Qed.
Lemma inv_release s lk ex h : inv s (h :: lk) ex -> inv (note s (Release h)) lk ex.
Proof.
  intros [T M O R S N]. split; try assumption; cbn [note trace proper takes releases taken released].
  - specialize (O h). specialize (M h). norm. rewrite Nat.eqb_refl in O. destruct (h <? made s); repeat split; try assumption; lia.
  - intros k. specialize (O k). change (owners (note _ _)) with (owners s). norm. lia.
  - change (owners (note _ _)) with (owners s). norm. lia.
Qed.
Lemma held s lk ex i : inv s lk (i :: ex) -> 0 < count (impls s) i.
Proof. intros I. rewrite <- (i_ref _ _ _ I). norm. rewrite Nat.eqb_refl. lia. Qed.
Lemma counted l i : 0 < count l i -> exists h n, nth_error l i = Some (h, S n).
Proof.
  unfold count. destruct (nth_error l i) as [[h n]|] eqn:E; [rewrite (nth_error_nth _ _ _ E); cbn; destruct n; [lia|eauto]|]. rewrite nth_overflow by (now apply nth_error_None). cbn. lia.
Qed.
Lemma handle_owned s i : 0 < count (impls s) i -> In (handle s i) (owners s).
Proof.
  intros H. destruct (counted _ _ H) as (h & n & E). unfold handle. rewrite (nth_error_nth _ _ _ E). apply in_or_app. left. apply in_flat_map. exists (h, S n). split; [now apply nth_error_In in E|]. now left.
Qed.
Lemma inv_use_conn s lk ex i : inv s lk ex -> 0 < count (impls s) i -> inv (note s (Use (handle s i))) lk ex.
Proof. intros I H. apply inv_use; [exact I|]. apply in_or_app. left. now apply handle_owned. Qed.
Lemma inv_acquire s lk ex i : inv s lk ex -> 0 < count (impls s) i -> inv (acquire s i) lk (i :: ex).
Proof.
  intros [T M O R S N] H. destruct (counted _ _ H) as (h & n & E). unfold acquire. rewrite E. destruct (put_split _ i _ (h, Datatypes.S (Datatypes.S n)) E) as (a & b & Ea & Ep & L).
  assert (Q : owners (set_impl s i (h, Datatypes.S (Datatypes.S n))) = owners s) by (unfold owners; cbn [set_impl impls stmts]; rewrite Ep, Ea, !flat_map_app; reflexivity).
  split; try assumption.
  - rewrite Q. exact O.
  - intros k. specialize (R k). cbn [set_impl impls]. change (refs (set_impl _ _ _)) with (refs s). rewrite Ep. rewrite Ea in R. rewrite count_app in *. norm. subst i. destruct (length a =? k); lia.
  - cbn [set_impl impls]. change (refs (set_impl _ _ _)) with (refs s). rewrite Ep. rewrite Ea in S. norm. lia.
  - rewrite Q. exact N.
Qed.
Lemma inv_drop s lk ex i : inv s lk (i :: ex) -> inv (drop s i) lk ex.
Proof.
  intros I. destruct (counted _ _ (held _ _ _ _ I)) as (h & n & E). destruct I as [T M O R S N]. unfold drop. rewrite E. destruct (put_split _ i _ (h, n) E) as (a & b & Ea & Ep & L). cbv zeta.
  assert (R' : forall k, cnt k (refs s ++ ex) = count (put (impls s) i (h, n)) k).
  { intros k. specialize (R k). rewrite Ep. rewrite Ea in R. rewrite count_app in *. norm. subst i. destruct (length a =? k); lia. }
  assert (S' : total (put (impls s) i (h, n)) = length (refs s ++ ex)) by (rewrite Ep; rewrite Ea in S; norm; lia).
  destruct n as [|n].
  - apply inv_release. split; try assumption.
    + intros k. specialize (O k). unfold owners in *. cbn [set_impl impls stmts trace] in *. rewrite Ep. rewrite Ea in O. norm. lia.
    + unfold owners in *. cbn [set_impl impls stmts trace] in *. rewrite Ep. rewrite Ea in N. norm. lia.
  - assert (Q : owners (set_impl s i (h, Datatypes.S n)) = owners s) by (unfold owners; cbn [set_impl impls stmts]; rewrite Ep, Ea, !flat_map_app; reflexivity).
    split; try assumption; rewrite Q; assumption.
Qed.
Lemma inv_push s lk ex i : inv s lk (i :: ex) -> inv (set_stmts s (stmts s ++ [Some (i, None)])) lk ex.
Proof.
  intros [T M O R S N]. split; try assumption; unfold owners, refs in *; cbn [set_stmts impls conns stmts trace] in *.
  - intros h. specialize (O h). norm. lia.
  - intros k. specialize (R k). norm. lia.
  - norm. lia.
  - norm. lia.
Qed.
Lemma inv_swap s lk ex j i old r : inv s (r :: lk) ex -> nth_error (stmts s) j = Some (Some (i, old)) -> inv (set_stmts s (put (stmts s) j (Some (i, Some r)))) (opt old ++ lk) ex.
Proof.
  intros [T M O R S N] E. destruct (put_split _ j _ (Some (i, Some r)) E) as (a & b & Ea & Ep & _).
  split; try assumption; unfold owners, refs in *; cbn [set_stmts impls conns stmts trace] in *; rewrite Ep; rewrite Ea in *.
  - intros h. specialize (O h). norm. lia.
  - intros k. specialize (R k). norm. lia.
  - norm. lia.
  - norm. lia.
Qed.
Lemma inv_unstmt s lk ex j i r : inv s lk ex -> nth_error (stmts s) j = Some (Some (i, r)) -> inv (set_stmts s (put (stmts s) j None)) (opt r ++ lk) (i :: ex).
Proof.
  intros [T M O R S N] E. destruct (put_split _ j _ None E) as (a & b & Ea & Ep & _).
  split; try assumption; unfold owners, refs in *; cbn [set_stmts impls conns stmts trace] in *; rewrite Ep; rewrite Ea in *.
  - intros h. specialize (O h). norm. lia.
  - intros k. specialize (R k). norm. lia.
  - norm. lia.
  - norm. lia.
Qed.
Lemma inv_unconn s lk ex c i : inv s lk ex -> nth_error (conns s) c = Some (Some i) -> inv (set_conns s (put (conns s) c None)) lk (i :: ex).
Proof.
  intros [T M O R S N] E. destruct (put_split _ c _ None E) as (a & b & Ea & Ep & _).
  split; try assumption; unfold owners, refs in *; cbn [set_conns impls conns stmts trace] in *; rewrite Ep; rewrite Ea in *.
  - intros k. specialize (R k). norm. lia.
  - norm. lia.
Qed.
Lemma conn_counted s lk ex c i : inv s lk ex -> nth_error (conns s) c = Some (Some i) -> 0 < count (impls s) i.
Proof. intros I E. rewrite <- (i_ref _ _ _ I). apply nth_error_In in E. apply cnt_in. apply in_or_app. left. apply in_or_app. left. apply in_flat_map. exists (Some i). split; [exact E|now left]. Qed.
Lemma stmt_counted s lk ex j i r : inv s lk ex -> nth_error (stmts s) j = Some (Some (i, r)) -> 0 < count (impls s) i.
Proof. intros I E. rewrite <- (i_ref _ _ _ I). apply nth_error_In in E. apply cnt_in. apply in_or_app. left. apply in_or_app. right. apply in_flat_map. exists (Some (i, r)). split; [exact E|now left]. Qed.
Lemma result_owned s j i r : nth_error (stmts s) j = Some (Some (i, Some r)) -> In r (owners s).
Proof. intros E. apply nth_error_In in E. apply in_or_app. right. apply in_flat_map. exists (Some (i, Some r)). split; [exact E|now left]. Qed.

(** the calls *)
Lemma get_inv s lk ex i g : inv s lk ex -> 0 < count (impls s) i -> inv (fst (get s i g)) lk ex /\ impls (fst (get s i g)) = impls s /\ stmts (fst (get s i g)) = stmts s /\ made (fst (get s i g)) = made s /\ conns (fst (get s i g)) = conns s.
Proof. intros I H. destruct g; cbn [get fst]; (split; [repeat (apply inv_use_conn; [|exact H]); exact I|auto]). Qed.
Lemma use_tmp s lk ex h : inv s (h :: lk) ex -> inv (note s (Use h)) (h :: lk) ex.
Proof. intros I. apply inv_use; [exact I|]. apply in_or_app. right. now left. Qed.
Lemma prepare_inv s lk ex i g m a : inv s lk ex -> 0 < count (impls s) i -> inv (fst (prepare s i g m a)) lk ex.
Proof.
  intros I H. unfold prepare. pose proof (inv_acquire _ _ _ _ I H) as J. destruct (get_inv _ _ _ i g J (held _ _ _ _ J)) as (K & E1 & E2 & E3 & _).
  destruct (get (acquire s i) i g) as [s1 ok]. cbn [fst] in *. destruct (negb ok || m); cbn [fst]; [now apply inv_drop|].
  pose proof (inv_use_conn _ _ _ i K (held _ _ _ _ K)) as L. cbv zeta. destruct a; cbn [fst].
  - now apply inv_drop.
  - apply inv_drop, inv_release. do 3 apply use_tmp. now apply inv_take.
  - apply inv_push, inv_release. do 2 apply use_tmp. now apply inv_take.
Qed.
Lemma execute_inv s lk ex j e g a m : inv s lk ex -> exists l, inv (fst (execute s j e g a m)) (l ++ lk) ex /\ (m <> No_object -> l = []).
Proof.
  intros I. unfold execute. destruct (nth j (stmts s) None) as [[i old]|] eqn:E; [|exists []; auto]. apply nth_some in E. pose proof (stmt_counted _ _ _ _ _ _ I E) as H.
  destruct e; [exists []; auto|]. destruct (get_inv _ _ _ i g I H) as (K & E1 & E2 & E3 & _). destruct (get s i g) as [s1 ok]. cbn [fst] in *. destruct (negb ok); [exists []; auto|]. cbv zeta.
  assert (L : inv (note s1 (Use (handle s1 i))) lk ex) by (apply inv_use_conn; [exact K|now rewrite E1]). set (s2 := note s1 _) in *. assert (E4 : stmts s2 = stmts s) by exact E2. clearbody s2.
  pose proof (inv_take _ _ _ L) as T. destruct a; [exists []; auto| |]; (destruct m; cbn [fst]; [exists []|exists [made s2]|exists []]); (split; [|try reflexivity; intros W; now destruct W]); cbn [app]; try exact T;
    try (apply inv_release; repeat apply use_tmp; exact T).
  assert (X : nth_error (stmts (note (note (take s2) (Use (made s2))) (Use (made s2)))) j = Some (Some (i, old))) by (cbn [note take stmts]; now rewrite E4).
  pose proof (inv_swap _ _ _ _ _ _ _ (use_tmp _ _ _ _ (use_tmp _ _ _ _ T)) X) as Y. destruct old as [h|]; [apply inv_release|]; exact Y.
Qed.
Lemma drop_stmt_inv s lk ex j : inv s lk ex -> inv (drop_stmt s j) lk ex.
Proof.
  intros I. unfold drop_stmt. destruct (nth j (stmts s) None) as [[i r]|] eqn:E; [|exact I]. apply nth_some in E. pose proof (inv_unstmt _ _ _ _ _ _ I E) as J. cbv zeta. apply inv_drop.
  destruct r as [h|]; [apply inv_release|]; exact J.
Qed.
Lemma run_inv s lk ex i q : inv s lk ex -> 0 < count (impls s) i -> exists l, inv (fst (run s i q)) (l ++ lk) ex /\ (run_memory q <> No_object -> l = []).
Proof.
  intros I H. unfold run. pose proof (prepare_inv s lk ex i (prep_link q) (prep_nomem q) (prep_reply q) I H) as J. destruct (prepare _ _ _ _ _) as [s1 [j|]]; cbn [fst] in *; [|exists []; auto].
  destruct (execute_inv s1 lk ex j (run_early q) (run_link q) (run_reply q) (run_memory q) J) as (l & K & Hl). destruct (execute _ _ _ _ _ _) as [s2 ok]. cbn [fst] in *. exists l. split; [now apply drop_stmt_inv|exact Hl].
Qed.
Lemma connect_inv s lk t n g m : inv s lk [] -> inv (fst (connect s t n g m)) lk [].
Proof.
  intros I. unfold connect. assert (J : inv (note (take s) (Use (made s))) (made s :: lk) []) by (apply use_tmp, inv_take, I). destruct m; [|exact I|].
  - destruct (negb t || negb n); [exact I|]. cbv zeta. destruct g; cbn [negb fst]; [|now apply inv_release]. destruct J as [T M O R S N]. cbn [note take impls conns stmts trace made] in *.
    split; try assumption; unfold owners, refs in *; cbn [note take impls conns stmts trace made] in *.
    + intros h. specialize (O h). norm. lia.
    + intros k. specialize (R k). rewrite count_app. cbn [snd]. norm. assert (Z : count (impls s) k = if Nat.ltb k (length (impls s)) then count (impls s) k else 0).
      { destruct (Nat.ltb_spec k (length (impls s))); [reflexivity|]. unfold count. now rewrite nth_overflow. }
      assert (Z2 : forall d, count [] d = 0) by (intros [|]; reflexivity). rewrite Z2. destruct (Nat.eqb_spec (length (impls s)) k), (Nat.ltb_spec k (length (impls s))); lia.
    + norm. lia.
    + norm. lia.
  - destruct (negb t || negb n); [exact I|]. cbv zeta. destruct (negb g); now apply inv_release.
Qed.
Lemma step_inv s lk o s' b : inv s lk [] -> step s o = Ok (s', b) -> exists l, inv s' (l ++ lk) [] /\ (enough o -> l = []).
Proof.
  intros I. destruct o; cbn [step enough].
  - intros [= E]. exists []. split; [|auto]. pose proof (connect_inv s lk threadsafe notnull good m I) as J. now rewrite E in J.
  - intros [= E]. exists []. split; [|auto]. cbn [app]. destruct (nth c (conns s) None) as [i|] eqn:Ec; [|now injection E as <- _]. apply nth_some in Ec.
    pose proof (prepare_inv s lk [] i g nomem a I (conn_counted _ _ _ _ _ I Ec)) as J. destruct (prepare _ _ _ _ _). now injection E as <- _.
  - intros [= E]. destruct (execute_inv s lk [] j early g a m I) as (l & J & H). rewrite E in J. eauto.
  - intros [= <- _]. exists []. split; [|auto]. unfold fetch. destruct (nth j (stmts s) None) as [[i [r|]]|] eqn:E; try exact I. apply nth_some in E. apply inv_use; [exact I|]. apply in_or_app. left. now apply result_owned in E.
  - intros [= E]. destruct (nth c (conns s) None) as [i|] eqn:Ec; [|injection E as <- _; exists []; auto]. apply nth_some in Ec. destruct (run_inv s lk [] i q I (conn_counted _ _ _ _ _ I Ec)) as (l & J & H). rewrite E in J. eauto.
  - intros [= <- _]. exists []. split; [|auto]. now apply drop_stmt_inv.
  - destruct (nth c (conns s) None) as [i|] eqn:Ec; [|intros [= <- _]; exists []; auto]. apply nth_some in Ec. destruct (run_inv s lk [] i q I (conn_counted _ _ _ _ _ I Ec)) as (l & J & H).
    assert (Q : conns (fst (run s i q)) = conns s).
    { unfold run. assert (Qd : forall s i, conns (drop s i) = conns s) by (intros s0 i0; unfold drop; destruct (nth_error (impls s0) i0) as [[h [|[|]]]|]; reflexivity).
      assert (Qa : forall s i, conns (acquire s i) = conns s) by (intros s0 i0; unfold acquire; destruct (nth_error (impls s0) i0) as [[? ?]|]; reflexivity).
      assert (Qg : forall s i g, conns (fst (get s i g)) = conns s) by (intros s0 i0 []; reflexivity).
      assert (Qp : forall s i g m a, conns (fst (prepare s i g m a)) = conns s).
      { intros s0 i0 g0 m0 a0. unfold prepare. pose proof (Qg (acquire s0 i0) i0 g0) as X. destruct (get _ _ _) as [s1 ok]. cbn [fst] in X. rewrite Qa in X. destruct (negb ok || m0); cbn [fst]; [now rewrite Qd|]. destruct a0; cbn [fst]; rewrite ?Qd; exact X. }
      assert (Qe : forall s j e g a m, conns (fst (execute s j e g a m)) = conns s).
      { intros s0 j0 e0 g0 a0 m0. unfold execute. destruct (nth j0 (stmts s0) None) as [[i0 old]|]; [|reflexivity]. destruct e0; [reflexivity|]. pose proof (Qg s0 i0 g0) as X. destruct (get _ _ _) as [s1 ok]. cbn [fst] in X. destruct (negb ok); [exact X|].
        destruct a0, m0; cbn [fst]; try exact X. destruct old; exact X. }
      assert (Qs : forall s j, conns (drop_stmt s j) = conns s). { intros s0 j0. unfold drop_stmt. destruct (nth j0 (stmts s0) None) as [[i0 [h|]]|]; [| |reflexivity]; rewrite Qd; reflexivity. }
      pose proof (Qp s i (prep_link q) (prep_nomem q) (prep_reply q)) as X. destruct (prepare _ _ _ _ _) as [s1 [j|]]; cbn [fst] in *; [|exact X]. pose proof (Qe s1 j (run_early q) (run_link q) (run_reply q) (run_memory q)) as Y.
      destruct (execute _ _ _ _ _ _) as [s2 ok]. cbn [fst] in *. now rewrite Qs, Y. }
    destruct (run s i q) as [s1 [|]]; [|discriminate]. cbn [fst] in *. intros [= <- _]. exists l. split; [|exact H]. apply inv_drop. apply inv_unconn; [exact J|now rewrite Q].
Qed.
Lemma start_inv : inv start [] [].
Proof. split; try reflexivity; try exact I; intros [|]; reflexivity. Qed.
Theorem steps_inv os : forall s lk s', inv s lk [] -> steps s os = Ok s' -> exists l, inv s' (l ++ lk) [] /\ (Forall enough os -> l = []).
Proof.
  induction os as [|o os IH]; intros s lk s' I E; cbn [steps] in E; [injection E as <-; exists []; auto|]. destruct (step s o) as [[s1 b]| | |] eqn:Es; try discriminate. cbn [obind fst] in E.
  destruct (step_inv _ _ _ _ _ I Es) as (l1 & J & H1). destruct (IH _ _ _ J E) as (l2 & K & H2). exists (l2 ++ l1). rewrite <- app_assoc. split; [exact K|]. intros F. inversion F; subst. now rewrite H1, H2.
Qed.

Lemma owners_bound s : length (owners s) <= total (impls s) + living (stmts s).
Proof.
  unfold owners, living. rewrite app_length. enough (A : length (flat_map own_impl (impls s)) <= total (impls s)); [enough (B : length (flat_map own_stmt (stmts s)) <= length (filter (fun x => match x with Some _ => true | None => false end) (stmts s))); [lia|]|].
  - induction (stmts s) as [|[[i [r|]]|] l IH]; cbn; lia.
  - induction (impls s) as [|[h [|n]] l IH]; unfold total in *; cbn [flat_map own_impl fst snd app length fold_right] in *; lia.
Qed.
Lemma refs_living s : length (refs s) = living (conns s) + living (stmts s).
Proof.
  unfold refs, living. rewrite app_length. f_equal; [induction (conns s) as [|[i|] l IH]|induction (stmts s) as [|[[i r]|] l IH]]; cbn; congruence.
Qed.
