(** The heap of holders refines the values. *)
From Verif Require Import Common CommonLemmas Any_Spec Any_Model.

Section proof.
Context {V : Type}.
Implicit Types (s : state V) (m : env V).
Definition holds s (c : option (@ptr)) (v : option (@value V)) : Prop :=
  match c, v with
  | None, None => True
  | Some None, Some None => True
  | Some (Some p), Some (Some (ty, w)) => heap s p = Live ty w
  | _, _ => False
  end.
Record rel s m : Prop := {
  rel_holds : forall x, holds s (vars s x) (m x);
  rel_inj : forall x y p, vars s x = Some (Some p) -> vars s y = Some (Some p) -> x = y;
  rel_owned : forall p ty v, heap s p = Live ty v -> exists x, vars s x = Some (Some p);
  rel_fresh : forall p, next s <= p -> heap s p = Fresh }.

Lemma put_same {A} (f : nat -> A) x a : put f x a x = a.
Proof. unfold put. now rewrite Nat.eqb_refl. Qed.
Lemma put_other {A} (f : nat -> A) x y a : y <> x -> put f x a y = f y.
Proof. unfold put. now intros ->%Nat.eqb_neq. Qed.
Lemma set_same m x v : set m x v x = v.
Proof. unfold set. now rewrite Nat.eqb_refl. Qed.
Lemma set_other m x y v : y <> x -> set m x v y = m y.
Proof. unfold set. now intros ->%Nat.eqb_neq. Qed.

(** The variables name other cells; [p] is owned by nobody. *)
Definition unowned s (p : nat) : Prop := forall x, vars s x <> Some (Some p).
(** Invariant with one more owner: the content of a temporary. *)
Record relt s m (c : ptr) (w : @value V) : Prop := {
  t_holds : forall x, holds s (vars s x) (m x);
  t_inj : forall x y p, vars s x = Some (Some p) -> vars s y = Some (Some p) -> x = y;
  t_temp : holds s (Some c) (Some w);
  t_un : forall p, c = Some p -> unowned s p;
  t_owned : forall p ty v, heap s p = Live ty v -> c = Some p \/ exists x, vars s x = Some (Some p);
  t_fresh : forall p, next s <= p -> heap s p = Fresh }.

Lemma relt_null s m : rel s m -> relt s m None None.
Proof. intros [H1 H2 H3 H4]. split; auto; [exact I|discriminate|]. intros p ty v E. right. eauto. Qed.
Lemma relt_new s m ty v : rel s m -> relt (set_heap s (put (heap s) (next s) (Live ty v)) (S (next s))) m (Some (next s)) (Some (ty, v)).
Proof.
  intros [H1 H2 H3 H4].
  assert (U : forall x, vars s x <> Some (Some (next s))).
  { intros x E. specialize (H1 x). rewrite E in H1. unfold holds in H1. destruct (m x) as [[[ty' w]|]|]; try contradiction.
    rewrite (H4 (next s) (le_n _)) in H1. discriminate. }
  split; cbn [set_heap heap next vars].
  - intros x. specialize (H1 x). specialize (U x). unfold holds in *. cbn [set_heap heap]. destruct (vars s x) as [[p|]|]; auto. destruct (m x) as [[[ty' w]|]|]; auto.
    rewrite put_other by (intros ->; now apply U). exact H1.
  - exact H2.
  - unfold holds. cbn [set_heap heap]. apply put_same.
  - intros p [= <-]. exact U.
  - intros p ty' v'. destruct (Nat.eq_dec p (next s)) as [->|E]; [auto|]. rewrite put_other by exact E. intros L. right. eauto.
  - intros p Hp. rewrite put_other by lia. apply H4. lia.
Qed.
(** constructing x with the temporary's content *)
Lemma relt_construct s m c w x : relt s m c w -> m x = None -> rel (set_var s x (Some c)) (set m x (Some w)).
Proof.
  intros [H1 H2 H3 H4 H5 H6] Hx.
  assert (Vx : vars s x = None). { specialize (H1 x). rewrite Hx in H1. destruct (vars s x) as [[p|]|]; now cbn in H1. }
  split; cbn [set_var heap next vars].
  - intros y. destruct (Nat.eq_dec y x) as [->|E]; [rewrite put_same, set_same; exact H3|]. rewrite put_other, set_other by exact E. exact (H1 y).
  - intros y z p. destruct (Nat.eq_dec y x) as [->|Ey], (Nat.eq_dec z x) as [->|Ez]; rewrite ?put_same, ?put_other by assumption; auto.
    + intros [= ->] G. now apply (H4 p eq_refl) in G.
    + intros G [= ->]. now apply (H4 p eq_refl) in G.
    + apply H2.
  - intros p ty v L. destruct (H5 p ty v L) as [-> | (y & Hy)]; [exists x; apply put_same|]. exists y. rewrite put_other; [exact Hy|congruence].
  - exact H6.
Qed.
(** exchanging x with the temporary *)
Lemma relt_swap s m c w x p v : relt s m c w -> vars s x = Some p -> m x = Some v -> relt (set_var s x (Some c)) (set m x (Some w)) p v.
Proof.
  intros [H1 H2 H3 H4 H5 H6] Vx Mx. split; cbn [set_var heap next vars].
  - intros y. destruct (Nat.eq_dec y x) as [->|E]; [rewrite put_same, set_same; exact H3|]. rewrite put_other, set_other by exact E. exact (H1 y).
  - intros y z q. destruct (Nat.eq_dec y x) as [->|Ey], (Nat.eq_dec z x) as [->|Ez]; rewrite ?put_same, ?put_other by assumption; auto.
    + intros [= ->] G. now apply (H4 q eq_refl) in G.
    + intros G [= ->]. now apply (H4 q eq_refl) in G.
    + apply H2.
  - specialize (H1 x). rewrite Vx, Mx in H1. exact H1.
  - intros q ->. intros y. cbn [set_var vars]. destruct (Nat.eq_dec y x) as [->|E].
    + rewrite put_same. intros [= ->]. now apply (H4 q eq_refl x).
    + rewrite put_other by exact E. intros G. apply E. now apply (H2 y x q).
  - intros q ty u L. destruct (H5 q ty u L) as [-> | (y & Hy)].
    + right. exists x. apply put_same.
    + destruct (Nat.eq_dec y x) as [->|E]; [left; congruence|]. right. exists y. now rewrite put_other.
  - exact H6.
Qed.
(** the temporary's destructor *)
Lemma relt_delete s m c w : relt s m c w -> exists s', delete s c = Ok s' /\ rel s' m.
Proof.
  intros [H1 H2 H3 H4 H5 H6]. destruct c as [p|]; cbn [delete].
  - destruct w as [[ty v]|]; cbn in H3; [|contradiction]. rewrite H3. eexists. split; [reflexivity|].
    split; cbn [set_heap heap next vars].
    + intros y. specialize (H1 y). pose proof (H4 p eq_refl y) as U. unfold holds in *. cbn [set_heap heap].
      destruct (vars s y) as [[q|]|]; auto. destruct (m y) as [[[ty' u]|]|]; auto. rewrite put_other by (intros ->; now apply U). exact H1.
    + exact H2.
    + intros q ty' u. destruct (Nat.eq_dec q p) as [->|E]; [rewrite put_same; discriminate|]. rewrite put_other by exact E.
      intros L. destruct (H5 q ty' u L) as [[= ->]|G]; [congruence|exact G].
    + intros q Hq. rewrite put_other; [now apply H6|]. intros ->. rewrite (H6 p Hq) in H3. discriminate.
  - exists s. split; [reflexivity|]. destruct w as [[? ?]|]; cbn in H3; [contradiction|]. split; auto.
    intros p ty v L. destruct (H5 p ty v L) as [G|G]; [discriminate|exact G].
Qed.
(** ending x's life: its content becomes the temporary *)
Lemma rel_take s m x p v : rel s m -> vars s x = Some p -> m x = Some v -> relt (set_var s x None) (set m x None) p v.
Proof.
  intros [H1 H2 H3 H4] Vx Mx. split; cbn [set_var heap next vars].
  - intros y. destruct (Nat.eq_dec y x) as [->|E]; [rewrite put_same, set_same; exact I|]. rewrite put_other, set_other by exact E. exact (H1 y).
  - intros y z q. destruct (Nat.eq_dec y x) as [->|Ey], (Nat.eq_dec z x) as [->|Ez]; rewrite ?put_same, ?put_other by assumption; try discriminate.
    apply H2.
  - specialize (H1 x). rewrite Vx, Mx in H1. exact H1.
  - intros q -> y. cbn [set_var vars]. destruct (Nat.eq_dec y x) as [->|E]; [rewrite put_same; discriminate|].
    rewrite put_other by exact E. intros G. apply E. now apply (H2 y x q).
  - intros q ty u L. destruct (H3 q ty u L) as (y & Hy). destruct (Nat.eq_dec y x) as [->|E]; [left; congruence|].
    right. exists y. now rewrite put_other.
  - exact H4.
Qed.
Lemma rel_none s m x : rel s m -> m x = None -> vars s x = None.
Proof. intros [H _ _ _] E. specialize (H x). rewrite E in H. destruct (vars s x) as [[p|]|]; now cbn in H. Qed.
Lemma rel_some s m x v : rel s m -> m x = Some v ->
  match v with None => vars s x = Some None | Some (ty, w) => exists p, vars s x = Some (Some p) /\ heap s p = Live ty w end.
Proof.
  intros [H _ _ _] E. specialize (H x). rewrite E in H. destruct (vars s x) as [[p|]|]; destruct v as [[ty w]|]; cbn in H; try contradiction; eauto.
Qed.
Lemma rel_some' s m x v : rel s m -> m x = Some v -> exists p, vars s x = Some p.
Proof. intros R E. apply (rel_some s m x v R) in E. destruct v as [[ty w]|]; [destruct E as (p & E & _)|]; eauto. Qed.
Lemma rel_swap s m x y p q v w : rel s m -> vars s x = Some p -> vars s y = Some q -> m x = Some v -> m y = Some w ->
  rel (set_var (set_var s x (Some q)) y (Some p)) (set (set m x (Some w)) y (Some v)).
Proof.
  intros [H1 H2 H3 H4] Vx Vy Mx My. pose proof (H1 x) as Hx. pose proof (H1 y) as Hy. rewrite Vx, Mx in Hx. rewrite Vy, My in Hy.
  assert (P : forall z, put (put (vars s) x (Some q)) y (Some p) z = if Nat.eqb z y then vars s x else if Nat.eqb z x then vars s y else vars s z).
  { intros z. unfold put. rewrite Vx, Vy. reflexivity. }
  assert (F : forall z, exists z', put (put (vars s) x (Some q)) y (Some p) z = vars s z' /\
                         (set (set m x (Some w)) y (Some v)) z = m z' /\ z = (if Nat.eqb z' y then x else if Nat.eqb z' x then y else z')).
  { intros z. rewrite P. unfold set. destruct (Nat.eqb_spec z y) as [->|Ey].
    - exists x. split; [reflexivity|]. split; [congruence|]. destruct (Nat.eqb_spec x y) as [->|E]; [reflexivity|]. now rewrite Nat.eqb_refl.
    - destruct (Nat.eqb_spec z x) as [->|Ex].
      + exists y. split; [reflexivity|]. split; [congruence|]. now rewrite Nat.eqb_refl.
      + exists z. split; [reflexivity|]. split; [reflexivity|]. apply Nat.eqb_neq in Ex, Ey. now rewrite Ex, Ey. }
  split; cbn [set_var heap next vars].
  - intros z. destruct (F z) as (z' & -> & -> & _). exact (H1 z').
  - intros a b r. destruct (F a) as (a' & -> & _ & ->), (F b) as (b' & -> & _ & ->). intros A B. now rewrite (H2 a' b' r A B).
  - intros r ty u L. destruct (H3 r ty u L) as (z & Hz). rewrite <- Hz.
    destruct (Nat.eqb_spec z y) as [->|Ey]; [exists x|destruct (Nat.eqb_spec z x) as [->|Ex]; [exists y|exists z]]; rewrite P.
    + destruct (Nat.eqb_spec x y) as [->|E]; [reflexivity|]. now rewrite Nat.eqb_refl.
    + now rewrite Nat.eqb_refl.
    + apply Nat.eqb_neq in Ex, Ey. now rewrite Ex, Ey.
  - exact H4.
Qed.

Lemma clone_rel fail s m x v : rel s m -> m x = Some v -> exists p, vars s x = Some p /\
  match clone fail s p with
  | Ok (s', c) => (v = None \/ fail = false) /\ vars s' = vars s /\ relt s' m c v
  | Throw => v <> None /\ fail = true
  | _ => False
  end.
Proof.
  intros R E. pose proof (rel_some s m x v R E) as H. destruct v as [[ty w]|].
  - destruct H as (p & Hp & L). exists (Some p). split; [exact Hp|]. cbn [clone]. unfold deref. rewrite L. cbn [obind fst snd].
    unfold new_holder. destruct fail; [split; [discriminate|reflexivity]|]. split; [auto|]. split; [reflexivity|]. now apply relt_new.
  - exists None. split; [exact H|]. cbn [clone]. split; [auto|]. split; [reflexivity|]. now apply relt_null.
Qed.

Lemma step_rel s m o : rel s m ->
  match spec_step m o with
  | Some (m', r) => exists s', step s o = Ok (s', r) /\ rel s' m'
  | None => step s o = UB
  end.
Proof.
  intros R. destruct o as [x|fail x ty v|fail x y|x|x y|fail x ty v|fail x y|ty x|x]; cbn [spec_step step].
  - unfold dead. destruct (m x) as [c|] eqn:E.
    + destruct (rel_some' s m x c R E) as (p & ->). reflexivity.
    + rewrite (rel_none s m x R E). eexists. split; [reflexivity|]. exact (relt_construct s m None None x (relt_null s m R) E).
  - unfold dead. destruct (m x) as [c|] eqn:E.
    + destruct (rel_some' s m x c R E) as (p & ->). reflexivity.
    + rewrite (rel_none s m x R E). unfold new_holder. destruct fail; cbn [obind catching fst snd]; eexists; (split; [reflexivity|]); [exact R|].
      apply relt_construct; [now apply relt_new|exact E].
  - unfold dead, live. destruct (m x) as [c|] eqn:E.
    + destruct (rel_some' s m x c R E) as (p & ->). destruct (m y); reflexivity.
    + rewrite (rel_none s m x R E). cbn [obind]. destruct (m y) as [v|] eqn:F; [|now rewrite (rel_none s m y R F)].
      destruct (clone_rel fail s m y v R F) as (p & -> & C). cbn [obind].
      destruct (clone fail s p) as [[s' c]| | |]; try contradiction; cbn [obind catching fst snd].
      * destruct C as (C1 & C2 & C3). pose proof (relt_construct s' m c v x C3 E) as G.
        destruct v as [w|]; [|eauto]. destruct C1 as [C1|C1]; [discriminate|]. subst fail. eauto.
      * destruct C as [C1 ->]. destruct v as [w|]; [|congruence]. eauto.
  - unfold live. destruct (m x) as [v|] eqn:E; [|now rewrite (rel_none s m x R E)].
    destruct (rel_some' s m x v R E) as (p & F). rewrite F. cbn [obind].
    pose proof (rel_take s m x p v R F E) as G. apply relt_delete in G as (s' & D & G).
    destruct p as [a|]; cbn [delete] in *.
    + cbn [set_var heap] in D. destruct (heap s a); try discriminate. injection D as <-. cbn [obind]. eexists. split; [reflexivity|]. exact G.
    + injection D as <-. cbn [obind]. eauto.
  - unfold live. destruct (m x) as [v|] eqn:E; [|now rewrite (rel_none s m x R E)].
    destruct (rel_some' s m x v R E) as (p & F). rewrite F. cbn [obind].
    destruct (m y) as [w|] eqn:E'; [|now rewrite (rel_none s m y R E')].
    destruct (rel_some' s m y w R E') as (q & F'). rewrite F'. cbn [obind]. eexists. split; [reflexivity|]. now apply rel_swap.
  - unfold live. destruct (m x) as [u|] eqn:E; [|now rewrite (rel_none s m x R E)].
    destruct (rel_some' s m x u R E) as (p & F). rewrite F. cbn [obind]. unfold new_holder. destruct fail; cbn [obind catching fst snd]; [eauto|].
    destruct (relt_delete _ _ _ _ (relt_swap _ m _ _ x p u (relt_new s m ty v R) F E)) as (s' & -> & G). cbn [catching]. eauto.
  - unfold live. destruct (m x) as [u|] eqn:E; [|now rewrite (rel_none s m x R E)].
    destruct (rel_some' s m x u R E) as (p & F). rewrite F. cbn [obind].
    destruct (m y) as [v|] eqn:F'; [|now rewrite (rel_none s m y R F')].
    destruct (clone_rel fail s m y v R F') as (q & -> & C). cbn [obind].
    destruct (clone fail s q) as [[s' c]| | |]; try contradiction; cbn [obind catching fst snd].
    + destruct C as (C1 & C2 & C3). rewrite <- C2 in F.
      destruct (relt_delete _ _ _ _ (relt_swap s' m c v x p u C3 F E)) as (s'' & -> & G). cbn [catching].
      destruct v as [w|]; [|eauto]. destruct C1 as [C1|C1]; [discriminate|]. subst fail. eauto.
    + destruct C as [C1 ->]. destruct v as [w|]; [|congruence]. eauto.
  - unfold live. destruct (m x) as [v|] eqn:E; [|now rewrite (rel_none s m x R E)].
    pose proof (rel_some s m x v R E) as H. destruct v as [[ty' w]|].
    + destruct H as (p & -> & L). cbn [obind cast]. unfold deref. rewrite L. cbn [obind fst snd]. destruct (Nat.eqb ty' ty); eauto.
    + rewrite H. cbn [obind cast]. eauto.
  - unfold live. destruct (m x) as [v|] eqn:E; [|now rewrite (rel_none s m x R E)].
    pose proof (rel_some s m x v R E) as H. destruct v as [[ty' w]|].
    + destruct H as (p & -> & L). cbn [obind]. unfold deref. rewrite L. cbn [obind fst option_map]. eauto.
    + rewrite H. cbn [obind option_map]. eauto.
Qed.
Lemma run_rel os : forall s m, rel s m ->
  match spec_run m os with
  | Some (m', rs) => exists s', run s os = Ok (s', rs) /\ rel s' m'
  | None => run s os = UB
  end.
Proof.
  induction os as [|o os IH]; intros s m R; cbn [spec_run run]; [eauto|].
  pose proof (step_rel s m o R) as H. destruct (spec_step m o) as [[m' r]|]; [|now rewrite H].
  destruct H as (s' & -> & R'). cbn [obind fst snd]. specialize (IH s' m' R').
  destruct (spec_run m' os) as [[m'' rs]|]; [|now rewrite IH]. destruct IH as (s'' & -> & R''). cbn [obind fst snd]. eauto.
Qed.
Lemma rel_init : rel init empty_env.
Proof. split; cbn; [intros x; exact I|discriminate|discriminate|reflexivity]. Qed.
Lemma spec_step_frame m o m' r x : spec_step m o = Some (m', r) -> ~ In x (touched o) -> m' x = m x.
Proof.
  intros H Hn. destruct o; cbn [spec_step touched In] in *;
    repeat match goal with H : match ?e with _ => _ end = Some _ |- _ => destruct e eqn:?; try discriminate end;
    repeat match goal with H : Some (if ?b then _ else _) = Some _ |- _ => destruct b end;
    injection H as <- <-; rewrite ?set_other by (intuition congruence); try reflexivity.
Qed.
Lemma spec_run_frame os : forall m m' rs x, spec_run m os = Some (m', rs) -> (forall o, In o os -> ~ In x (touched o)) -> m' x = m x.
Proof.
  induction os as [|o os IH]; intros m m' rs x; cbn [spec_run]; [now intros [= <- <-]|].
  destruct (spec_step m o) as [[m1 r]|] eqn:E; [|discriminate]. destruct (spec_run m1 os) as [[m2 rs2]|] eqn:F; [|discriminate].
  intros [= <- <-] Hn. rewrite (IH m1 m2 rs2 x F); [|intros o' Ho; apply Hn; now right].
  eapply spec_step_frame; [exact E|]. apply Hn. now left.
Qed.
End proof.
