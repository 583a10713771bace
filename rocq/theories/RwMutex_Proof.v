From Verif Require Import Common CommonLemmas RwMutex_Model RwMutex_Spec.
From Coq Require Import QArith.
Open Scope nat_scope.

Lemma tiny_lt sec : tiny sec = true <-> (sec < 1 # 1000000000)%Q.
Proof. unfold tiny. rewrite negb_true_iff. split; intros H; [apply Qnot_le_lt; intros L; apply Qle_bool_iff in L; congruence|]. destruct (Qle_bool (1 # 1000000000) sec) eqn:E; [|reflexivity]. apply Qle_bool_iff in E. apply Qle_not_lt in E. contradiction. Qed.
Lemma lock_result t m timeout r l l' b : ~ bad_call m timeout -> lock_call t m timeout r l = Some (l', b) ->
  (b = true /\ available m l = true /\ l' = acquire t m l) \/ (b = false /\ l' = l).
Proof.
  unfold lock_call, pthread_lock, bad_call. intros Hb E. destruct (Z.eqb r 0) eqn:Er.
  - destruct (available m l) eqn:Ea; [|discriminate]. injection E as <- <-. left. destruct m, timeout as [sec|]; cbn; auto; destruct (tiny sec) eqn:Et; cbn; auto. apply tiny_lt in Et. contradiction.
  - injection E as <- <-. right. destruct m, timeout as [sec|]; rewrite ?Er; auto; destruct (tiny sec) eqn:Et; rewrite ?Er; auto. apply tiny_lt in Et. tauto.
Qed.

Definition winv (w : world) : Prop := (forall t m, held t m (lk w) = claims t m (scopes w)) /\ (writer (lk w) <> None -> readers (lk w) = []).

Lemma claims_cons t m s l : claims t m (s :: l) =
  (if Nat.eqb (s_tid s) t && match s_mode s, m with Read, Read | Write, Write => true | _, _ => false end && need_unlock s then 1 else 0) + claims t m l.
Proof. unfold claims. cbn [filter]. destruct (_ && _ && _); reflexivity. Qed.
Lemma pop_claims t : forall l s rest, pop t l = Some (s, rest) -> s_tid s = t /\ forall u m, claims u m l = claims u m [s] + claims u m rest.
Proof.
  induction l as [|x l IH]; intros s rest E; [discriminate|]. cbn in E. destruct (Nat.eqb_spec (s_tid x) t) as [Hx|Hx].
  - injection E as <- <-. split; [exact Hx|]. intros u m. rewrite !claims_cons. change (claims u m []) with 0. lia.
  - destruct (pop t l) as [[y l']|] eqn:Ep; [|discriminate]. injection E as <- <-. destruct (IH y l' eq_refl) as [H1 H2]. split; [exact H1|].
    intros u m. rewrite (claims_cons u m x l), (claims_cons u m x l'), H2. lia.
Qed.
Lemma count_remove1 t u l : count_occ Nat.eq_dec (remove1 t l) u = count_occ Nat.eq_dec l u - (if Nat.eqb t u then 1 else 0).
Proof.
  induction l as [|x l IH]; [reflexivity|]. cbn. destruct (Nat.eqb_spec x t) as [->|Hx].
  - destruct (Nat.eq_dec t u) as [->|]; [rewrite Nat.eqb_refl; lia|]. destruct (Nat.eqb_spec t u); lia.
  - cbn. rewrite IH. destruct (Nat.eq_dec x u) as [->|]; [|reflexivity]. destruct (Nat.eqb_spec t u); [congruence|]. lia.
Qed.

Lemma act_inv a w : winv w -> avoids_bad a -> exists r, act a w = Ok r /\ forall w', r = Some w' -> winv w'.
Proof.
  intros [Hh Hx] Ha. destruct a as [t m sec r|t]; cbn [act].
  - destruct (lock_call t m _ r (lk w)) as [[l' b]|] eqn:El; [|eexists; split; [reflexivity|discriminate]].
    eexists. split; [reflexivity|]. intros w' E. injection E as <-.
    destruct (lock_result _ _ _ _ _ _ _ Ha El) as [(-> & Hav & ->)|(-> & ->)]; split; cbn [lk scopes].
    + intros u m'. rewrite claims_cons, <- Hh. cbn [s_tid s_mode need_unlock]. rewrite andb_true_r. destruct (lk w) as [rd wr]. unfold available in Hav.
      destruct m; destruct m'; cbn; rewrite ?andb_false_r, ?andb_true_r; destruct (Nat.eqb_spec t u) as [->|Hne]; cbn; try lia.
      * destruct (Nat.eq_dec u u); [lia|contradiction].
      * destruct (Nat.eq_dec t u); [contradiction|lia].
      * destruct wr; [destruct rd; discriminate|lia].
      * destruct wr; [destruct rd; discriminate|lia].
    + destruct (lk w) as [rd wr]. destruct m; cbn; intros Hw.
      * unfold available in Hav. destruct wr; [discriminate|congruence].
      * unfold available in Hav. destruct rd; [reflexivity|discriminate].
    + intros u m'. rewrite claims_cons. cbn. rewrite !andb_false_r. apply Hh.
    + exact Hx.
  - destruct (pop t (scopes w)) as [[s rest]|] eqn:Ep; [|eexists; split; [reflexivity|discriminate]].
    destruct (pop_claims _ _ _ _ Ep) as [Hs Hc]. destruct (need_unlock s) eqn:En.
    + assert (Hm : claims t (s_mode s) [s] = 1) by (rewrite claims_cons, Hs, Nat.eqb_refl, En; destruct (s_mode s); reflexivity).
      pose proof (Hh t (s_mode s)) as Hp. rewrite Hc, Hm in Hp.
      assert (Hsingle : forall u m, claims u m [s] = if Nat.eqb t u && match s_mode s, m with Read, Read | Write, Write => true | _, _ => false end then 1 else 0).
      { intros u m. rewrite claims_cons, Hs, En, andb_true_r. change (claims u m []) with 0. lia. }
      destruct (lk w) as [rd wr] eqn:Elk. unfold pthread_unlock. cbn [writer readers] in *.
      destruct (s_mode s) eqn:Em.
      * (* a read scope *)
        cbn [held readers] in Hp. assert (Hrd : rd <> []) by (intros ->; cbn in Hp; lia). assert (wr = None) as -> by (destruct wr; [exfalso; apply Hrd, Hx; discriminate|reflexivity]).
        assert (Hi : existsb (Nat.eqb t) rd = true).
        { apply existsb_exists. exists t. split; [|apply Nat.eqb_refl]. apply (count_occ_In Nat.eq_dec). lia. }
        rewrite Hi. eexists. split; [reflexivity|]. intros w' E. injection E as <-. split; cbn [lk scopes writer readers]; [|congruence].
        intros u m. pose proof (Hh u m) as Hu. rewrite Hc, Hsingle in Hu. destruct m; cbn [held readers writer] in *.
        -- rewrite count_remove1, Hu. destruct (Nat.eqb t u); cbn; lia.
        -- rewrite andb_false_r in Hu. exact Hu.
      * cbn [held writer] in Hp. destruct wr as [v|]; [|lia]. destruct (Nat.eqb_spec v t) as [->|]; [|lia].
        eexists. split; [reflexivity|]. intros w' E. injection E as <-. split; cbn [lk scopes writer readers]; [|congruence].
        intros u m. pose proof (Hh u m) as Hu. rewrite Hc, Hsingle in Hu. destruct m; cbn [held readers writer] in *.
        -- rewrite andb_false_r in Hu. exact Hu.
        -- rewrite andb_true_r in Hu. destruct (Nat.eqb t u); lia.
    + eexists. split; [reflexivity|]. intros w' E. injection E as <-. split; [|exact Hx]. intros u m. rewrite Hh, Hc, claims_cons, En, andb_false_r. reflexivity.
Qed.

Lemma winv0 : winv (mkW free []).
Proof. split; [intros t []; reflexivity|intros H; exfalso; apply H; reflexivity]. Qed.
Lemma acts_inv : forall l w, winv w -> Forall avoids_bad l -> exists r, acts l w = Ok r /\ forall w', r = Some w' -> winv w'.
Proof.
  induction l as [|a l IH]; intros w Hw Hl; [exists (Some w); split; [reflexivity|intros w' E; injection E as <-; exact Hw]|].
  inversion Hl; subst. cbn [acts]. destruct (act_inv a w Hw H1) as (r & -> & Hr). cbn. destruct r as [w1|]; [|eexists; split; [reflexivity|discriminate]].
  apply IH; auto.
Qed.

Lemma scopes_exact l : Forall avoids_bad l -> exists r, acts l (mkW free []) = Ok r /\
  forall w, r = Some w -> (forall t m, held t m (lk w) = claims t m (scopes w)) /\ excluded (scopes w).
Proof.
  intros Hl. destruct (acts_inv l _ winv0 Hl) as (r & E & Hr). exists r. split; [exact E|]. intros w Hw. destruct (Hr w Hw) as [Hh Hx]. split; [exact Hh|].
  intros t u Ht. rewrite <- !Hh in *. destruct (lk w) as [rd wr]. cbn [held writer readers] in *. destruct wr as [v|]; [|lia]. destruct (Nat.eqb_spec v t) as [->|]; [|lia].
  rewrite Hx by discriminate. split; [reflexivity|]. split; [|reflexivity]. destruct (Nat.eqb_spec t u); [congruence|lia].
Qed.
