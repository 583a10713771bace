From Verif Require Import Common CommonLemmas StrUtil_Model StrUtil_Spec.
Local Open Scope Z_scope.

(** ** split by character *)
Lemma interleave_cons sep x y r : interleave sep (x :: y :: r) = x ++ sep ++ interleave sep (y :: r).
Proof. reflexivity. Qed.

Lemma split_loop_nonempty s sep acc : split_loop s sep acc <> [].
Proof. revert acc. induction s as [|c s IH]; intros acc; cbn; [discriminate|]. destruct (c =? sep); [discriminate|apply IH]. Qed.

Lemma split_loop_join s sep : forall acc, interleave [sep] (split_loop s sep acc) = rev acc ++ s.
Proof.
  induction s as [|c s IH]; intros acc; cbn [split_loop]; [cbn; now rewrite app_nil_r|].
  destruct (c =? sep) eqn:E.
  - destruct (split_loop s sep []) as [|y r] eqn:Es; [exfalso; eapply split_loop_nonempty; eassumption|].
    rewrite interleave_cons, <- Es, IH. cbn. f_equal. f_equal. lia.
  - rewrite IH. cbn. now rewrite <- app_assoc.
Qed.

Lemma split_loop_free s sep : forall acc, ~ In sep acc -> Forall (fun x => ~ In sep x) (split_loop s sep acc).
Proof.
  induction s as [|c s IH]; intros acc H; cbn [split_loop].
  - repeat constructor. now rewrite <- in_rev.
  - destruct (c =? sep) eqn:E.
    + constructor; [now rewrite <- in_rev|]. apply IH. intros [].
    + apply IH. intros [H'|H']; [lia|auto].
Qed.

Lemma split_loop_piece x sep : ~ In sep x -> forall acc, split_loop x sep acc = [rev acc ++ x].
Proof.
  induction x as [|c x IH]; intros H acc; cbn [split_loop]; [now rewrite app_nil_r|].
  destruct (c =? sep) eqn:E; [exfalso; apply H; left; lia|]. rewrite IH by (intros H'; apply H; now right).
  cbn. now rewrite <- app_assoc.
Qed.
Lemma split_loop_app x s sep : ~ In sep x -> forall acc, split_loop (x ++ sep :: s) sep acc = (rev acc ++ x) :: split_loop s sep [].
Proof.
  induction x as [|c x IH]; intros H acc; cbn [split_loop app].
  - now rewrite Z.eqb_refl, app_nil_r.
  - destruct (c =? sep) eqn:E; [exfalso; apply H; left; lia|]. rewrite IH by (intros H'; apply H; now right).
    cbn. now rewrite <- app_assoc.
Qed.
Lemma split_join xs sep : xs <> [] -> Forall (fun x => ~ In sep x) xs -> split (interleave [sep] xs) sep = xs.
Proof.
  unfold split. induction xs as [|x xs IH]; intros Hne H; [congruence|]. inversion H as [|? ? H1 H2]; subst.
  destruct xs as [|y r]; [cbn; now rewrite split_loop_piece|].
  rewrite interleave_cons. cbn [app]. rewrite split_loop_app by assumption. cbn [rev app]. f_equal. apply IH; [discriminate|assumption].
Qed.

(** ** join *)
Lemma join_loop_spec xs sep : forall ret, join_loop false xs sep ret = ret ++ concat (map (fun x => sep ++ x) xs).
Proof.
  induction xs as [|x xs IH]; intros ret; cbn; [now rewrite app_nil_r|]. rewrite IH. now rewrite <- !app_assoc.
Qed.
Lemma join_spec xs sep : join xs sep = interleave sep xs.
Proof.
  unfold join. destruct xs as [|x xs]; [reflexivity|]. cbn [join_loop app]. rewrite join_loop_spec.
  revert x. induction xs as [|y r IH]; intros x; cbn [map concat]; [now rewrite app_nil_r|].
  rewrite interleave_cons, <- IH. now rewrite <- !app_assoc.
Qed.

(** ** search *)
Lemma prefixb_spec p s : prefixb p s = true <-> exists r, s = p ++ r.
Proof.
  revert s. induction p as [|a p IH]; intros s; cbn; [split; [eauto|auto]|].
  destruct s as [|b s]; [split; [discriminate|intros (r & H); discriminate]|].
  rewrite andb_true_iff, IH. split.
  - intros (H1 & r & ->). exists r. f_equal. lia.
  - intros (r & [= -> ->]). split; [lia|eauto].
Qed.

Lemma occurs_cons p c s n : occurs_at p (c :: s) (S n) <-> occurs_at p s n.
Proof.
  split; intros (a & b & E & L).
  - destruct a as [|x a]; [discriminate|]. injection E as -> E. injection L as L. exists a, b. auto.
  - exists (c :: a), b. cbn. rewrite E, L. auto.
Qed.
Lemma occurs_0 p s : occurs_at p s 0 <-> prefixb p s = true.
Proof.
  rewrite prefixb_spec. split; intros H.
  - destruct H as (a & b & E & L). destruct a; [|discriminate]. eauto.
  - destruct H as (r & ->). exists [], r. auto.
Qed.

Lemma search_spec s pat : forall acc,
  match search s pat acc with
  | None => forall n, ~ occurs_at pat s n
  | Some (a, r) => exists a' r', a = rev acc ++ a' /\ r = pat ++ r' /\ s = a' ++ r /\ forall n, occurs_at pat s n -> (length a' <= n)%nat
  end.
Proof.
  induction s as [|c s IH]; intros acc; cbn [search].
  - destruct (prefixb pat []) eqn:E.
    + apply prefixb_spec in E as (r & E). exists [], r. rewrite app_nil_r. repeat split; auto. intros; cbn; lia.
    + intros [|n] H; [apply occurs_0 in H; congruence|]. destruct H as (a & b & E1 & L). destruct a; discriminate.
  - destruct (prefixb pat (c :: s)) eqn:E.
    + apply prefixb_spec in E as (r & E). exists [], r. rewrite app_nil_r. repeat split; auto. intros; cbn; lia.
    + specialize (IH (c :: acc)). destruct (search s pat (c :: acc)) as [[a r]|].
      * destruct IH as (a' & r' & E1 & E2 & E3 & E4). exists (c :: a'), r'. cbn in E1. rewrite <- app_assoc in E1.
        split; [exact E1|]. split; [exact E2|]. split; [cbn; now rewrite <- E3|].
        intros [|n] H; [apply occurs_0 in H; congruence|]. apply (proj1 (occurs_cons _ _ _ _)) in H. apply E4 in H. cbn. lia.
      * intros [|n] H; [apply occurs_0 in H; congruence|]. apply (proj1 (occurs_cons _ _ _ _)) in H. eapply IH; eassumption.
Qed.

Lemma skipn_app_exact {A} (p r : list A) : skipn (length p) (p ++ r) = r.
Proof. rewrite skipn_app, skipn_all, Nat.sub_diag. reflexivity. Qed.

Lemma split_str_loop_spec sep : sep <> [] -> forall fuel s, (length s < fuel)%nat ->
  exists xs, split_str_loop fuel s sep = Ok xs /\ pieces sep s xs.
Proof.
  intros Hs. induction fuel as [|f IH]; intros s Hf; [lia|]. cbn [split_str_loop].
  pose proof (search_spec s sep []) as S. destruct (search s sep []) as [[a r]|].
  - destruct S as (a' & r' & E1 & E2 & E3 & E4). cbn in E1. subst a r.
    rewrite skipn_app_exact. subst s. rewrite !app_length in Hf.
    destruct (IH r') as (xs & E & P). { destruct sep; [congruence|]. cbn in Hf. lia. }
    rewrite E. exists (a' :: xs). split; [reflexivity|]. now constructor.
  - exists [s]. split; [reflexivity|]. now constructor.
Qed.

Lemma pieces_interleave sep s xs : pieces sep s xs -> interleave sep xs = s /\ xs <> [].
Proof.
  induction 1 as [s H|a r xs H H1 [IH1 IH2]]; [split; [reflexivity|discriminate]|].
  split; [|discriminate]. destruct xs as [|y xs]; [congruence|]. rewrite interleave_cons. now rewrite IH1.
Qed.

Lemma pieces_free sep s xs : pieces sep s xs -> sep <> [] -> Forall (fun x => forall n, ~ occurs_at sep x n) xs.
Proof.
  induction 1 as [s H|a r xs H H1 IH]; intros Hs; [repeat constructor; auto|].
  constructor; [|auto]. intros n (p & q & E & L).
  assert (H2 : occurs_at sep (a ++ sep ++ r) n).
  { exists p, (q ++ sep ++ r). split; [|assumption]. rewrite E. now rewrite <- !app_assoc. }
  apply H in H2. apply (f_equal (@length Z)) in E. rewrite !app_length in E. destruct sep; [congruence|]. cbn in E. lia.
Qed.

Lemma pieces_unique sep s xs : pieces sep s xs -> forall ys, pieces sep s ys -> xs = ys.
Proof.
  induction 1 as [s H|a r xs H H1 IH]; intros ys P.
  - inversion P as [|? ? ? ? ? E]; subst; [reflexivity|]. exfalso. eapply H. exists a, r. eauto.
  - inversion P as [? H2 E1 E2|a2 r2 xs2 H2 H3 E1 E2]; subst.
    + exfalso. apply (H2 (length a)). exists a, r. auto.
    + assert (L : length a = length a2).
      { apply Nat.le_antisymm; [apply H; rewrite <- E1; exists a2, r2; auto|apply H2; rewrite E1; exists a, r; auto]. }
      assert (EA : a2 = a /\ sep ++ r2 = sep ++ r).
      { clear - E1 L. revert a2 L E1. induction a as [|x a IH]; intros [|y a2] L E; try discriminate; [auto|].
        cbn in *. injection E as -> E. destruct (IH a2 ltac:(lia) E) as (-> & E'). auto. }
      destruct EA as [-> ER]. apply app_inv_head in ER. subst r2. f_equal. now apply IH.
Qed.

(** ** replace *)
Lemma replace_loop_spec from to : from <> [] -> forall fuel s ret, (length s < fuel)%nat ->
  exists xs, pieces from s xs /\ replace_loop fuel s from to ret = Ok (ret ++ interleave to xs).
Proof.
  intros Hs. induction fuel as [|f IH]; intros s ret Hf; [lia|]. cbn [replace_loop].
  pose proof (search_spec s from []) as S. destruct (search s from []) as [[a r]|].
  - destruct S as (a' & r' & E1 & E2 & E3 & E4). cbn in E1. subst a r.
    rewrite skipn_app_exact. subst s. rewrite !app_length in Hf.
    destruct (IH r' ((ret ++ a') ++ to)) as (xs & P & E). { destruct from; [congruence|]. cbn in Hf. lia. }
    exists (a' :: xs). split; [now constructor|]. rewrite E. f_equal.
    destruct xs as [|y xs]; [apply pieces_interleave in P as [_ P]; congruence|].
    rewrite interleave_cons. now rewrite <- !app_assoc.
  - exists [s]. split; [now constructor|reflexivity].
Qed.

(** ** strip *)
Lemma isspace_spec c : isspace c = true <-> blank c.
Proof. unfold isspace, blank. lia. Qed.

Lemma lstrip_spec s : exists p, s = p ++ lstrip s /\ Forall blank p /\ no_leading_blank (lstrip s).
Proof.
  induction s as [|c s IH]; cbn; [exists []; cbn; auto|]. destruct (isspace c) eqn:E.
  - destruct IH as (p & E1 & F & N). exists (c :: p). split; [cbn; now rewrite <- E1|]. split; [constructor; [now apply isspace_spec|assumption]|assumption].
  - exists []. split; [reflexivity|]. split; [constructor|]. cbn. intros H. apply isspace_spec in H. congruence.
Qed.

Lemma rstrip_spec s : exists q, s = rstrip s ++ q /\ Forall blank q /\ no_leading_blank (rev (rstrip s)).
Proof.
  unfold rstrip. destruct (lstrip_spec (rev s)) as (p & E & F & N). exists (rev p). split; [|split].
  - rewrite <- rev_app_distr, <- E. now rewrite rev_involutive.
  - now apply Forall_rev.
  - now rewrite rev_involutive.
Qed.

Lemma rstrip_leading s : no_leading_blank s -> no_leading_blank (rstrip s).
Proof.
  intros H. destruct (rstrip_spec s) as (q & E & F & _). destruct (rstrip s) as [|c r] eqn:Er; [exact I|].
  rewrite E in H. exact H.
Qed.

Lemma strip_spec s : exists p q, s = p ++ strip s ++ q /\ Forall blank p /\ Forall blank q /\
  no_leading_blank (strip s) /\ no_leading_blank (rev (strip s)).
Proof.
  unfold strip. destruct (lstrip_spec s) as (p & E & F & N). destruct (rstrip_spec (lstrip s)) as (q & E2 & F2 & N2).
  exists p, q. rewrite <- E2. repeat split; auto. now apply rstrip_leading.
Qed.

(** ** prefixes and suffixes *)
Lemma prefixb_length p s : prefixb p s = true -> (length p <= length s)%nat.
Proof. intros H. apply prefixb_spec in H as (r & ->). rewrite app_length. lia. Qed.
Lemma starts_with_spec s p : starts_with s p = true <-> exists r, s = p ++ r.
Proof.
  unfold starts_with. rewrite <- prefixb_spec. destruct (length s <? length p)%nat eqn:E; [|reflexivity].
  split; [discriminate|]. intros H. apply prefixb_length in H. lia.
Qed.
Lemma ends_with_spec s p : ends_with s p = true <-> exists r, s = r ++ p.
Proof.
  assert (H : prefixb (rev p) (rev s) = true <-> exists r, s = r ++ p).
  { rewrite prefixb_spec. split; intros (r & E).
    - exists (rev r). rewrite <- (rev_involutive s), E, rev_app_distr, rev_involutive. reflexivity.
    - exists (rev r). rewrite E. apply rev_app_distr. }
  unfold ends_with. rewrite <- H. destruct (length s <? length p)%nat eqn:E; [|reflexivity].
  split; [discriminate|]. intros H'. apply prefixb_length in H'. rewrite !rev_length in H'. lia.
Qed.
