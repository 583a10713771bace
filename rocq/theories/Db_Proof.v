(** Lemmas about statements. *)
From Verif Require Import Common CommonLemmas Clock_Model Db_Spec Db_Model.
Local Open Scope Z_scope.

Lemma fill_ok F mktime (vs : list (val F)) : forall done todo, length todo = length vs ->
  fill mktime (length done) vs (done ++ todo) = Ok (done ++ map (to_sql mktime) vs).
Proof.
  induction vs as [|v vs IH]; intros done todo L; cbn [fill map].
  - destruct todo; [now rewrite !app_nil_r|discriminate].
  - destruct todo as [|x todo]; [discriminate|]. unfold put. rewrite app_length. cbn [length]. rewrite (proj2 (Nat.ltb_lt _ _)) by lia. cbn [obind].
    rewrite firstn_app, Nat.sub_diag, firstn_all. cbn [firstn]. rewrite app_nil_r.
    replace (skipn (S (length done)) (done ++ x :: todo)) with todo.
    + replace (S (length done)) with (length (done ++ [to_sql mktime v])) by (rewrite app_length; cbn [length]; lia).
      change (to_sql mktime v :: todo) with ([to_sql mktime v] ++ todo). rewrite app_assoc. rewrite IH by (cbn [length] in L; lia). now rewrite <- app_assoc.
    + rewrite skipn_app. rewrite skipn_all2 by lia. replace (S (length done) - length done)%nat with 1%nat by lia. reflexivity.
Qed.
Lemma take_ok F localtime (all : list ty) (ret : list (ptr F)) : length all <> 9%nat -> forall ts i vs, length ret = (i + length ts)%nat ->
  Forall2 (fun t pv => from_sql localtime t (fst pv) = Ok (snd pv)) ts (combine (skipn i ret) vs) -> length vs = length ts ->
  take localtime i ts all ret = Ok vs.
Proof.
  intros H9. induction ts as [|t ts IH]; intros i vs L H Lv; cbn [take].
  - destruct vs; [reflexivity|discriminate].
  - destruct vs as [|v vs]; [discriminate|]. destruct (skipn i ret) as [|p r] eqn:E.
    { apply (f_equal (@length _)) in E. rewrite skipn_length in E. cbn [length] in *. lia. }
    cbn [combine] in H. inversion H as [|? ? ? ? H1 H2]; subst. cbn [fst snd] in H1.
    assert (G : nth_error ret i = Some p). { rewrite <- (firstn_skipn i ret), E. rewrite nth_error_app2 by (rewrite firstn_length; lia).
      rewrite firstn_length, Nat.min_l by (cbn [length] in L; lia). now rewrite Nat.sub_diag. }
    unfold get. rewrite G. cbn [obind]. rewrite (proj2 (Nat.eqb_neq _ 9) H9). cbn [andb]. rewrite H1. cbn [obind].
    rewrite (IH (S i) vs); [reflexivity|cbn [length] in L; lia| |cbn [length] in Lv; lia].
    replace (skipn (S i) ret) with r; [exact H2|]. clear - E. revert ret E. induction i as [|i IH]; intros [|y ret] E; cbn in E; try discriminate; [injection E as <- <-; reflexivity|]. apply (IH ret E).
Qed.
Lemma take_short F localtime (all : list ty) (ret : list (ptr F)) : forall us i, us <> [] -> (length ret < i + length us)%nat ->
  take localtime i us all ret = UB \/ take localtime i us all ret = Throw.
Proof.
  induction us as [|u us IH]; intros i N Hi; [now elim N|]. cbn [take]. unfold get. destruct (nth_error ret i) as [p|] eqn:E; [|now left]. cbn [obind].
  assert (i < length ret)%nat by (apply nth_error_Some; congruence).
  assert (N' : us <> []) by (intros ->; cbn [length] in Hi; lia). specialize (IH (S i) N' ltac:(cbn [length] in Hi; lia)).
  set (u' := (if _ && _ then nth 7 all u else u) : ty). clearbody u'.
  destruct u'; destruct p as [[]|]; cbn [from_sql obind]; auto; repeat match goal with |- context [if ?c then _ else _] => destruct c end; cbn [obind]; auto;
    destruct IH as [-> | ->]; auto.
Qed.
