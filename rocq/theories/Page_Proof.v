(** The builder makes the forest. *)
From Verif Require Import Common CommonLemmas Xhtml_Model Xhtml_Spec Xhtml_Proof Http_Model Page_Spec Page_Model.
From Coq Require Import Sorted.
Local Open Scope Z_scope.

Lemma lessb_before a : forall b, lessb a b = true <-> before a b.
Proof.
  induction a as [|c a IH]; intros [|d b]; cbn [lessb].
  - split; [discriminate|intros H; inversion H].
  - split; [constructor|reflexivity].
  - split; [discriminate|intros H; inversion H].
  - rewrite orb_true_iff, andb_true_iff, Z.ltb_lt, Z.eqb_eq, IH. split.
    + intros [H|[-> H]]; [now apply before_lt|now apply before_eq].
    + intros H. inversion H; subst; auto.
Qed.
Lemma before_irrefl a : ~ before a a.
Proof. induction a as [|c a IH]; intros H; inversion H; subst; [lia|auto]. Qed.
Lemma before_trans a b c : before a b -> before b c -> before a c.
Proof.
  intros H. revert c. induction H as [x s|x y s t L|x s t H IH]; intros c K; inversion K; subst; first [apply before_nil | apply before_lt; lia | apply before_eq; auto].
Qed.
Lemma before_total a : forall b, before a b \/ a = b \/ before b a.
Proof.
  induction a as [|c a IH]; intros [|d b]; [auto|left; constructor|right; right; constructor|].
  destruct (Z.lt_trichotomy c d) as [H|[->|H]]; [left; now constructor| |right; right; now constructor].
  destruct (IH b) as [H|[->|H]]; [left; now apply before_eq|auto|right; right; now apply before_eq].
Qed.
Definition sorted (a : list (list Z * list Z)) : Prop := StronglySorted before (map fst a).
Lemma sorted_at k f a : sorted a -> sorted (map_at a k f) /\ (forall k', In k' (map fst (map_at a k f)) -> k' = k \/ In k' (map fst a)).
Proof.
  unfold sorted. induction a as [|(k', v) a IH]; intros S; cbn [map_at].
  - split; [repeat constructor|]. cbn. intros k' [H|[]]. auto.
  - destruct (lessb k k') eqn:E1.
    + apply lessb_before in E1. split; [|cbn; intros k2 [H|[H|H]]; auto]. cbn [map fst] in *. constructor; [exact S|]. constructor; [exact E1|].
      inversion S as [|x y S' F]; subst. revert F. apply Forall_impl. intros y Hy. exact (before_trans _ _ _ E1 Hy).
    + inversion S as [|x y S' F]; subst. destruct (lessb k' k) eqn:E2.
      * apply lessb_before in E2. destruct (IH S') as [S2 H2]. split.
        -- cbn [map fst]. constructor; [exact S2|]. apply Forall_forall. intros k2 H. destruct (H2 k2 H) as [->|H3]; [exact E2|]. rewrite Forall_forall in F. auto.
        -- cbn. intros k2 [H|H]; [auto|]. destruct (H2 k2 H); auto.
      * split; [exact S|]. cbn. intros k2 [H|H]; auto.
Qed.
Lemma in_key k v (a : list (list Z * list Z)) : In (k, v) a -> In k (map fst a).
Proof. intros H. apply in_map_iff. now exists (k, v). Qed.
Lemma in_at k f a k' v : sorted a -> In (k', v) (map_at a k f) <->
  (k' <> k /\ In (k', v) a) \/ (k' = k /\ ((~ In k (map fst a) /\ v = f []) \/ exists u, In (k, u) a /\ v = f u)).
Proof.
  unfold sorted. induction a as [|(k1, v1) a IH]; intros S; cbn [map_at].
  - cbn [In map]. split.
    + intros [H|[]]. injection H as <- <-. right. split; [reflexivity|]. left. tauto.
    + intros [[_ []]|[-> [[_ ->]|(u & [] & _)]]]. auto.
  - cbn [map fst] in S. inversion S as [|x y S' F]; subst. rewrite Forall_forall in F. destruct (lessb k k1) eqn:E1.
    + apply lessb_before in E1. assert (N : ~ In k (k1 :: map fst a)).
      { intros [<-|H]; [now apply before_irrefl in E1|]. apply F in H. exact (before_irrefl _ (before_trans _ _ _ E1 H)). }
      change ((k1, v1) :: a) with ([(k1, v1)] ++ a). cbn [In app map fst]. split.
      * intros [H|H]; [injection H as <- <-; right; split; [reflexivity|left; split; [exact N|reflexivity]]|].
        left. split; [|exact H]. intros ->. apply N. destruct H as [H|H]; [injection H as -> _; now left|right; now apply (in_key _ v)].
      * intros [[_ H]|[-> [[_ ->]|(u & H & _)]]]; [now right|now left|]. exfalso. apply N. destruct H as [H|H]; [injection H as -> _; now left|right; now apply (in_key _ u)].
    + destruct (lessb k1 k) eqn:E2.
      * apply lessb_before in E2. assert (k1 <> k) by (intros ->; now apply before_irrefl in E2). cbn [In map fst]. rewrite IH by exact S'. split.
        -- intros [H0|[[H0 H1]|[-> [[H0 ->]|(u & H0 & ->)]]]].
           ++ injection H0 as <- <-. left. auto.
           ++ left. auto.
           ++ right. split; [reflexivity|]. left. split; [tauto|reflexivity].
           ++ right. split; [reflexivity|]. right. exists u. auto.
        -- intros [[H0 [H1|H1]]|[-> [[H0 ->]|(u & [H0|H0] & ->)]]].
           ++ auto.
           ++ auto.
           ++ right. right. split; [reflexivity|]. left. tauto.
           ++ injection H0 as -> _. congruence.
           ++ right. right. split; [reflexivity|]. right. eauto.
      * assert (k1 = k). { destruct (before_total k1 k) as [H|[H|H]]; [|exact H|]; apply lessb_before in H; congruence. } subst k1.
        assert (N : ~ In k (map fst a)) by (intros H; apply F in H; now apply before_irrefl in H). cbn [In map fst]. split.
        -- intros [H|H]; [injection H as <- <-; right; split; [reflexivity|]; right; exists v1; auto|].
           left. split; [|auto]. intros ->. apply N. now apply (in_key _ v).
        -- intros [[H [H1|H1]]|[-> [[H ->]|(u & [H|H] & ->)]]].
           ++ injection H1 as -> _. congruence.
           ++ auto.
           ++ exfalso. apply H. now left.
           ++ injection H as ->. auto.
           ++ exfalso. apply N. now apply (in_key _ u).
Qed.
(** The map after changes *)
Definition after (l : list (list Z * (list Z -> list Z))) (a : list (list Z * list Z)) : list (list Z * list Z) :=
  fold_left (fun a c => map_at a (fst c) (snd c)) l a.
Lemma after_app l m a : after (l ++ m) a = after m (after l a).
Proof. apply fold_left_app. Qed.
Lemma in_unique (a : list (list Z * list Z)) k u v : sorted a -> In (k, u) a -> In (k, v) a -> u = v.
Proof.
  unfold sorted. induction a as [|(k1, v1) a IH]; intros S; [intros []|]. cbn [map fst] in S. inversion S as [|x y S' F]; subst. rewrite Forall_forall in F. cbn [In].
  intros [H|H] [K|K]; [congruence| | |now apply IH]; exfalso.
  - injection H as -> _. apply in_key in K. apply F in K. now apply before_irrefl in K.
  - injection K as -> _. apply in_key in H. apply F in H. now apply before_irrefl in H.
Qed.
Lemma after_attributes l : attributes l (after l []).
Proof.
  induction l as [|c l [S H]] using rev_ind.
  - split; [constructor|]. intros k v. cbn. split; [tauto|]. intros [K _]. now apply K.
  - rewrite after_app. cbn [after fold_left]. destruct c as [k f]. cbn [fst snd]. split; [now apply sorted_at|]. intros k' v. rewrite in_at by exact S.
    unfold changes in *. rewrite flat_map_app. cbn [flat_map fst snd]. rewrite app_nil_r. destruct (list_eq_dec Z.eq_dec k k') as [<-|N].
    + rewrite fold_left_app. cbn [fold_left]. split.
      * intros [[E _]|[_ [[N ->]|(u & I & ->)]]]; [congruence| |].
        -- split; [intros E; now apply app_eq_nil in E|]. f_equal. destruct (flat_map _ l) as [|g gs] eqn:E; [reflexivity|]. exfalso. apply N.
           apply (in_key _ (fold_left (fun v f => f v) (g :: gs) [])). apply H. rewrite E. split; [discriminate|reflexivity].
        -- split; [intros E; now apply app_eq_nil in E|]. apply H in I. destruct I as [_ ->]. reflexivity.
      * intros [_ ->]. right. split; [reflexivity|]. destruct (flat_map _ l) as [|g gs] eqn:E.
        -- left. split; [|reflexivity]. intros I. apply in_map_iff in I. destruct I as ((k1, v1) & E1 & I). cbn in E1. subst k1. apply H in I. rewrite E in I. now apply (proj1 I).
        -- right. exists (fold_left (fun v f => f v) (g :: gs) []). split; [|reflexivity]. apply H. rewrite E. split; [discriminate|reflexivity].
    + rewrite app_nil_r. rewrite <- H. split; [intros [[_ I]|[E _]]; [exact I|congruence]|]. intros I. left. split; [congruence|exact I].
Qed.
Lemma attributes_unique l a : attributes l a -> a = after l [].
Proof.
  intros [S H]. destruct (after_attributes l) as [S' H']. assert (E : forall p, In p a <-> In p (after l [])) by (intros [k v]; now rewrite H, H'). clear H H'.
  revert S S' E. generalize (after l []). clear l. induction a as [|(k, v) a IH]; intros [|(k', v') a'] S S' E.
  - reflexivity.
  - destruct (proj2 (E (k', v')) (or_introl eq_refl)).
  - destruct (proj1 (E (k, v)) (or_introl eq_refl)).
  - cbn [map fst] in *. inversion S as [|x y S1 F]; subst. inversion S' as [|x y S1' F']; subst. rewrite Forall_forall in F, F'.
    assert (K : k = k').
    { destruct (proj1 (E (k, v)) (or_introl eq_refl)) as [I|I]; [congruence|]. destruct (proj2 (E (k', v')) (or_introl eq_refl)) as [J|J]; [congruence|].
      apply in_key in I, J. apply F' in I. apply F in J. exfalso. exact (before_irrefl _ (before_trans _ _ _ I J)). }
    subst k'. assert (v = v').
    { destruct (proj1 (E (k, v)) (or_introl eq_refl)) as [I|I]; [congruence|]. apply in_key, F' in I. now apply before_irrefl in I. }
    subst v'. f_equal. apply IH; [exact S1|exact S1'|]. intros [k1 v1]. specialize (E (k1, v1)). cbn [In] in E. split; intros I.
    + destruct (proj1 E (or_intror I)) as [J|J]; [|exact J]. injection J as -> ->. apply in_key, F in I. now apply before_irrefl in I.
    + destruct (proj2 E (or_intror I)) as [J|J]; [|exact J]. injection J as -> ->. apply in_key, F' in I. now apply before_irrefl in I.
Qed.
(** Programs, by their size *)
Fixpoint size1 (s : stmt) : nat :=
  match s with STag _ q | STry q => S ((fix go (l : list stmt) := match l with [] => 0 | s :: l => S (size1 s + go l) end) q) | _ => 0 end%nat.
Fixpoint size (p : list stmt) : nat := match p with [] => 0 | s :: p => S (size1 s + size p) end%nat.
Lemma size_tag n q : size1 (STag n q) = S (size q).
Proof. reflexivity. Qed.
Lemma size_try q : size1 (STry q) = S (size q).
Proof. reflexivity. Qed.
Lemma exec_tag n q at_ w : exec1 (STag n q) at_ w =
  (let* (t, a, w) := exec q (Some []) (with_bld w (enter (bld w))) in
   let* (children, b) := leave (bld w) in
   let* b := push (Tag n (match a with Some a => a | None => [] end) children) b in
   Ok (t, at_, with_bld w b)).
Proof. reflexivity. Qed.
Lemma exec_try q at_ w : exec1 (STry q) at_ w = (let* (_, a, w) := exec q at_ w in Ok (false, a, w)).
Proof. reflexivity. Qed.
Definition added (w : page) (x : list (bool * list Z)) (top : list elem) (b : builder) (g : list elem) : page :=
  {| xmltag := setting true x (xmltag w); dtd := setting false x (dtd w); bld := (top ++ g) :: b |}.
Definition change (l : list (list Z * (list Z -> list Z))) (a : option (list (list Z * list Z))) : option (list (list Z * list Z)) := option_map (after l) a.
Lemma last_app {A} (l m : list A) d : last (l ++ m) d = last m (last l d).
Proof. induction m as [|x m IH] using rev_ind; [now rewrite app_nil_r|]. now rewrite app_assoc, !last_last. Qed.
Lemma setting_app c x y d : setting c (x ++ y) d = setting c y (setting c x d).
Proof. unfold setting. now rewrite flat_map_app, last_app. Qed.
Lemma added_added w x y top b g h : added (added w x top b g) y (top ++ g) b h = added w (x ++ y) top b (g ++ h).
Proof. unfold added. cbn [xmltag dtd]. now rewrite !setting_app, app_assoc. Qed.
Lemma makes_size n : forall p, (size p < n)%nat -> forall at_, (at_ = None -> closed p) -> exists l g x t, makes p l g x t /\ (at_ = None -> l = []) /\
  forall w top b, bld w = top :: b -> exec p at_ w = Ok (t, change l at_, added w x top b g).
Proof.
  induction n as [|n IH]; intros p L; [lia|]. destruct p as [|s p]; intros at_ C.
  - exists [], [], [], false. split; [constructor|]. split; [reflexivity|]. intros w top b E. cbn [exec]. f_equal. f_equal; [f_equal; destruct at_; reflexivity|].
    unfold added. rewrite app_nil_r. destruct w. cbn in *. now rewrite E.
  - cbn [size] in L. assert (Cp : at_ = None -> closed p) by (intros E; exact (Forall_inv_tail (C E))).
    assert (Cs : at_ = None -> closed1 s) by (intros E; exact (Forall_inv (C E))).
    destruct (IH p ltac:(lia) at_ Cp) as (l & g & x & t & Mp & El & Xp). destruct s as [k f|m q|s|s| |q|s|s].
    + destruct at_ as [a|]; [|destruct (Cs eq_refl)].
      destruct (IH p ltac:(lia) (Some (map_at a k f)) ltac:(discriminate)) as (l' & g' & x' & t' & Mp' & _ & Xp').
      exists ((k, f) :: l'), g', x', t'. split; [now constructor|]. split; [discriminate|]. intros w top b E. cbn [exec exec1 obind]. rewrite (Xp' w top b E). reflexivity.
    + rewrite size_tag in L. destruct (IH q ltac:(lia) (Some []) ltac:(discriminate)) as (lq & gq & xq & tq & Mq & _ & Xq).
      assert (X1 : forall w top b, bld w = top :: b -> exec1 (STag m q) at_ w = Ok (tq, at_, added w xq top b [Tag m (after lq []) gq])).
      { intros w top b E. rewrite exec_tag, (Xq (with_bld w (enter (bld w))) [] (bld w) eq_refl). cbn [obind added bld leave]. rewrite E. reflexivity. }
      destruct tq.
      * exists [], [Tag m (after lq []) gq], xq, true. split; [exact (m_tag_throw m q lq gq xq (after lq []) p Mq (after_attributes lq))|]. split; [reflexivity|].
        intros w top b E. cbn [exec]. rewrite (X1 w top b E). cbn [obind]. now destruct at_.
      * exists l, (Tag m (after lq []) gq :: g), (xq ++ x), t. split; [exact (m_tag m q lq gq xq (after lq []) p l g x t Mq (after_attributes lq) Mp)|]. split; [exact El|].
        intros w top b E. cbn [exec]. rewrite (X1 w top b E). cbn [obind]. rewrite (Xp _ (top ++ [Tag m (after lq []) gq]) b) by reflexivity.
        rewrite added_added. reflexivity.
    + exists l, (Text s :: g), x, t. split; [now constructor|]. split; [exact El|]. intros w top b E. cbn [exec exec1]. rewrite E. cbn [push obind].
      rewrite (Xp _ (top ++ [Text s]) b) by reflexivity. f_equal. f_equal. unfold added. cbn [xmltag dtd with_bld]. now rewrite <- app_assoc.
    + exists l, (Prim s :: g), x, t. split; [now constructor|]. split; [exact El|]. intros w top b E. cbn [exec exec1]. rewrite E. cbn [push obind].
      rewrite (Xp _ (top ++ [Prim s]) b) by reflexivity. f_equal. f_equal. unfold added. cbn [xmltag dtd with_bld]. now rewrite <- app_assoc.
    + exists [], [], [], true. split; [constructor|]. split; [reflexivity|]. intros w top b E. cbn [exec exec1 obind]. f_equal. f_equal; [f_equal; destruct at_; reflexivity|].
      unfold added. rewrite app_nil_r. destruct w. cbn in *. now rewrite E.
    + rewrite size_try in L. assert (Cq : at_ = None -> closed q).
      { intros E. specialize (Cs E). cbn in Cs. clear - Cs. unfold closed. induction q as [|s q IHq]; constructor; [exact (proj1 Cs)|]. apply IHq. exact (proj2 Cs). }
      destruct (IH q ltac:(lia) at_ Cq) as (lq & gq & xq & tq & Mq & Elq & Xq).
      assert (Cp' : change lq at_ = None -> closed p) by (destruct at_; [discriminate|auto]).
      destruct (IH p ltac:(lia) (change lq at_) Cp') as (l' & g' & x' & t' & Mp' & El' & Xp').
      exists (lq ++ l'), (gq ++ g'), (xq ++ x'), t'. split; [exact (m_try q lq gq xq tq p l' g' x' t' Mq Mp')|]. split; [intros E; rewrite (Elq E), (El' ltac:(now subst)); reflexivity|].
      intros w top b E. cbn [exec]. rewrite exec_try, (Xq w top b E). cbn [obind]. rewrite (Xp' _ (top ++ gq) b) by reflexivity. rewrite added_added.
      do 2 f_equal. f_equal. destruct at_; [|reflexivity]. cbn. now rewrite after_app.
    + exists l, g, ((true, s) :: x), t. split; [now constructor|]. split; [exact El|]. intros w top b E. cbn [exec exec1 obind]. rewrite (Xp _ top b) by exact E.
      f_equal. f_equal. unfold added. cbn [xmltag dtd]. change ((true, s) :: x) with ([(true, s)] ++ x). now rewrite !setting_app.
    + exists l, g, ((false, s) :: x), t. split; [now constructor|]. split; [exact El|]. intros w top b E. cbn [exec exec1 obind]. rewrite (Xp _ top b) by exact E.
      f_equal. f_equal. unfold added. cbn [xmltag dtd]. change ((false, s) :: x) with ([(false, s)] ++ x). now rewrite !setting_app.
Qed.
(** The meaning is unique. *)
Lemma makes_fun p l g x b : makes p l g x b -> forall l' g' x' b', makes p l' g' x' b' -> l' = l /\ g' = g /\ x' = x /\ b' = b.
Proof.
  induction 1 as [|k f p l g x b M IH|s p l g x b M IH|s p l g x b M IH|n q lq gq xq a p l g x b Mq IHq A M IH|n q lq gq xq a p Mq IHq A|p|
    q lq gq xq bq p l g x b Mq IHq M IH|s p l g x b M IH|s p l g x b M IH]; intros l' g' x' b' M'; inversion M'; subst; clear M';
    repeat match goal with H : makes ?p _ _ _ _, IH : forall _ _ _ _, makes ?p _ _ _ _ -> _ |- _ => destruct (IH _ _ _ _ H) as (? & ? & ? & ?); subst; clear H end;
    try discriminate; auto.
  - repeat split; auto. f_equal. f_equal. rewrite (attributes_unique _ _ A). now apply attributes_unique.
  - repeat split; auto. f_equal. f_equal. rewrite (attributes_unique _ _ A). now apply attributes_unique.
Qed.

(** Forests of nice programs *)
Lemma makes_nice p l g x b : makes p l g x b -> Forall nice1 p -> Forall wf_elem g /\ Forall (fun c => is_name (fst c)) l.
Proof.
  assert (K : forall lq a, attributes lq a -> Forall (fun c : list Z * (list Z -> list Z) => is_name (fst c)) lq -> Forall (fun kv : list Z * list Z => is_name (fst kv)) a).
  { intros lq a [_ H] F. apply Forall_forall. intros [k v] I. apply H in I. destruct I as [I _]. cbn [fst]. unfold changes in I. clear - I F. induction F as [|c lq Hc F IH]; [now destruct I|].
    cbn [flat_map] in I. destruct (list_eq_dec Z.eq_dec (fst c) k) as [<-|N]; [exact Hc|]. now apply IH. }
  induction 1 as [|k f p l g x b M IH|s p l g x b M IH|s p l g x b M IH|n q lq gq xq a p l g x b Mq IHq A M IH|n q lq gq xq a p Mq IHq A|p|
    q lq gq xq bq p l g x b Mq IHq M IH|s p l g x b M IH|s p l g x b M IH]; intros F; [now split|..]; pose proof (Forall_inv F) as F1; pose proof (Forall_inv_tail F) as F2;
    inversion F1; subst; try (destruct (IH F2) as [W N]).
  - auto.
  - split; [constructor; [constructor|exact W]|exact N].
  - match goal with H : Forall nice1 q |- _ => destruct (IHq H) as [Wq Nq] end. split; [|exact N]. constructor; [|exact W]. constructor; [assumption|exact (K _ _ A Nq)|exact Wq].
  - match goal with H : Forall nice1 q |- _ => destruct (IHq H) as [Wq Nq] end. split; [|constructor]. constructor; [|constructor]. constructor; [assumption|exact (K _ _ A Nq)|exact Wq].
  - split; constructor.
  - match goal with H : Forall nice1 q |- _ => destruct (IHq H) as [Wq Nq] end. split; apply Forall_app; auto.
  - auto.
  - auto.
Qed.
Lemma steps_forest g : Forall wf_elem g -> forall r, steps InText (flat_map (pretty 0) g ++ r) (flat_map events g) InText r.
Proof.
  induction 1 as [|e g He Hg IH]; intros r; cbn [flat_map]; [constructor|]. rewrite <- app_assoc. eapply steps_app; [now apply steps_pretty|apply IH].
Qed.
