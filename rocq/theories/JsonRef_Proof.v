(** Proofs about shared json values. *)
From Verif Require Import Common JsonRef_Spec JsonRef_Model.
From Coq Require Import Permutation.
Local Open Scope nat_scope.

Lemma ok_inj {A} (x y : A) : Ok x = Ok y -> y = x. Proof. intros H. now injection H. Qed.

(** * Lists *)
Lemma upd_len {A} i (x : A) l : length (upd i x l) = length l.
Proof. revert i. induction l as [|y l IH]; intros [|i]; simpl; auto. Qed.
Lemma nth_upd_eq {A} i (x : A) l : i < length l -> nth_error (upd i x l) i = Some x.
Proof. revert i. induction l as [|y l IH]; intros [|i] H; simpl in *; try lia; auto. apply IH. lia. Qed.
Lemma nth_upd_ne {A} i j (x : A) l : i <> j -> nth_error (upd i x l) j = nth_error l j.
Proof. revert i j. induction l as [|y l IH]; intros [|i] [|j] H; simpl; auto; try congruence. Qed.
Lemma upd_app {A} i (x : A) l m : i < length l -> upd i x (l ++ m) = upd i x l ++ m.
Proof. revert i. induction l as [|y l IH]; intros [|i] H; simpl in *; try lia; auto. rewrite IH by lia. reflexivity. Qed.
Lemma upd_split {A} i (x y : A) l : nth_error l i = Some y -> exists p q, l = p ++ y :: q /\ upd i x l = p ++ x :: q /\ length p = i.
Proof.
  revert i. induction l as [|z l IH]; intros [|i] H; simpl in *; try discriminate.
  - injection H as ->. now exists [], l.
  - destruct (IH _ H) as (p & q & -> & -> & <-). now exists (z :: p), q.
Qed.
Lemma F2_nth {A B} (R : A -> B -> Prop) l m i x : Forall2 R l m -> nth_error l i = Some x -> exists y, nth_error m i = Some y /\ R x y.
Proof.
  intros H. revert i. induction H as [|a b l m HR H IH]; intros [|i] E; simpl in *; try discriminate.
  - injection E as <-. eauto.
  - auto.
Qed.
Lemma F2_nth' {A B} (R : A -> B -> Prop) l m i y : Forall2 R l m -> nth_error m i = Some y -> exists x, nth_error l i = Some x /\ R x y.
Proof.
  intros H. revert i. induction H as [|a b l m HR H IH]; intros [|i] E; simpl in *; try discriminate.
  - injection E as <-. eauto.
  - auto.
Qed.
Lemma F2_len {A B} (R : A -> B -> Prop) l m : Forall2 R l m -> length l = length m.
Proof. induction 1; simpl; auto. Qed.
Lemma F2_imp {A B} (R S : A -> B -> Prop) l m : (forall x y, In x l -> In y m -> R x y -> S x y) -> Forall2 R l m -> Forall2 S l m.
Proof. intros I H. induction H; constructor; [apply I; simpl; auto|]. apply IHForall2. intros. apply I; simpl; auto. Qed.
Lemma F2_upd {A B} (R S : A -> B -> Prop) l m i x y :
  Forall2 R l m -> (forall j a b, j <> i -> nth_error l j = Some a -> nth_error m j = Some b -> R a b -> S a b) -> S x y -> Forall2 S (upd i x l) (upd i y m).
Proof.
  intros H. revert i. induction H as [|a b l m HR H IH]; intros [|i] HI HS; simpl; constructor; auto.
  - clear IH. assert (G : Forall2 R l m -> Forall2 S l m); [|now apply G]. clear H. intros H.
    assert (HI' : forall j a b, nth_error l j = Some a -> nth_error m j = Some b -> R a b -> S a b) by (intros j a' b' ? ? ?; apply (HI (Datatypes.S j)); auto).
    clear HI. induction H; constructor; [apply (HI' 0); auto|]. apply IHForall2. intros j a' b' ? ? ?. apply (HI' (Datatypes.S j)); auto.
  - apply (HI 0); simpl; auto.
  - apply IH; auto. intros j a0 b0 E ? ? ?. apply (HI (Datatypes.S j)); auto.
Qed.
Lemma F2_id {A B} (R S : A -> B -> Prop) l m : Forall2 R l m -> (forall j a b, nth_error l j = Some a -> nth_error m j = Some b -> R a b -> S a b) -> Forall2 S l m.
Proof.
  induction 1; intros HI; constructor; [apply (HI 0); simpl; auto|]. apply IHForall2. intros j a' b' ? ? ?. apply (HI (Datatypes.S j)); auto.
Qed.

Definition kids (c : cell) : list addr := match c with CS _ => [] | CA l => l | CO l => map snd l end.
Definition slots (h : heap) : list addr := flat_map kids h.

(** * Documents in memory *)
Fixpoint size (t : doc) : nat :=
  match t with
  | JS _ => 1
  | JA l => S (list_sum (map size l))
  | JO l => S (list_sum (map (fun x => size (snd x)) l))
  end.
Lemma sum_in {A} (f : A -> nat) l x : In x l -> f x <= list_sum (map f l).
Proof. induction l as [|y l IH]; simpl; [tauto|]. intros [->|H]; [lia|]. specialize (IH H). lia. Qed.
Lemma fits_imp (R S : addr -> doc -> Prop) c t : (forall a u, In a (kids c) -> size u < size t -> R a u -> S a u) -> fits R c t -> fits S c t.
Proof.
  intros I H. destruct H as [s|l ts H|l ts H]; constructor.
  - apply F2_imp with (2 := H). intros a u Ha Hu. apply I; auto. simpl. pose proof (sum_in size ts u Hu). lia.
  - apply F2_imp with (2 := H). intros a u Ha Hu (E & HR). split; auto. apply I; auto.
    + simpl. now apply in_map.
    + simpl. pose proof (sum_in (fun x => size (snd x)) ts u Hu). simpl in *. lia.
Qed.
Lemma fits_kid (R : addr -> doc -> Prop) c t a : fits R c t -> In a (kids c) -> exists u, R a u /\ size u < size t.
Proof.
  intros H Ha. destruct H as [s|l ts H|l ts H]; simpl in Ha.
  - tauto.
  - apply In_nth_error in Ha as (i & E). destruct (F2_nth _ _ _ _ _ H E) as (u & Eu & HR). exists u. split; auto.
    simpl. pose proof (sum_in size ts u (nth_error_In _ _ Eu)). lia.
  - apply in_map_iff in Ha as ((k & a') & <- & Ha). apply In_nth_error in Ha as (i & E).
    destruct (F2_nth _ _ _ _ _ H E) as (u & Eu & HR1 & HR2). exists (snd u). split; auto.
    simpl. pose proof (sum_in (fun x => size (snd x)) ts u (nth_error_In _ _ Eu)). simpl in *. lia.
Qed.
Lemma val_fun h : forall n t a t', size t <= n -> val h a t -> val h a t' -> t = t'.
Proof.
  induction n as [|n IH]; intros t a t' Hn [c E F] [c' E' F']; [destruct t; simpl in Hn; lia|].
  rewrite E in E'. injection E' as <-.
  destruct F as [s|l ts F|l ts F]; inversion F' as [s'|l' ts' F1|l' ts' F1]; subst; auto; f_equal.
  - assert (G : forall u, In u ts -> size u <= n) by (intros u Hu; simpl in Hn; pose proof (sum_in size ts u Hu); lia).
    clear E Hn F'. revert ts' F1. induction F as [|a0 b l ts H F IHF]; intros ts' F1; inversion F1; subst; auto. f_equal.
    + eapply IH; eauto. apply G. now left.
    + apply IHF; auto. intros u Hu. apply G. now right.
  - assert (G : forall u, In u ts -> size (snd u) <= n) by (intros u Hu; simpl in Hn; pose proof (sum_in (fun x => size (snd x)) ts u Hu); simpl in *; lia).
    clear E Hn F'. revert ts' F1. induction F as [|a0 b l ts (HK & H) F IHF]; intros ts' F1; inversion F1 as [|? y ? ? (HK' & H')]; subst; auto. f_equal.
    + destruct b as (k1 & v1), y as (k2 & v2). simpl in *. f_equal; [congruence|]. eapply IH; eauto. apply (G (k1, v1)). now left.
    + apply IHF; auto. intros u Hu. apply G. now right.
Qed.
Lemma val_det h a t t' : val h a t -> val h a t' -> t = t'. Proof. intros. eapply val_fun; eauto. Qed.
Lemma val_frame h h' (P : addr -> Prop) : (forall a c, P a -> nth_error h a = Some c -> nth_error h' a = Some c /\ Forall P (kids c)) ->
  forall n t a, size t <= n -> P a -> val h a t -> val h' a t.
Proof.
  intros HP. induction n as [|n IH]; intros t a Hn Pa [c E F]; [destruct t; simpl in Hn; lia|].
  destruct (HP _ _ Pa E) as (E' & Hk). rewrite Forall_forall in Hk. exists c; auto.
  apply fits_imp with (2 := F). intros b u Hb Hu. apply IH; auto. lia.
Qed.
Lemma nth_app_l {A} (l m : list A) i x : nth_error l i = Some x -> nth_error (l ++ m) i = Some x.
Proof. intros E. rewrite nth_error_app1; auto. apply nth_error_Some. congruence. Qed.
Lemma val_ext h m a t : val h a t -> val (h ++ m) a t.
Proof.
  intros H. apply (val_frame h (h ++ m) (fun _ => True)) with (n := size t); auto.
  intros b c _ E. split; [now apply nth_app_l|]. now apply Forall_forall.
Qed.
Lemma val_lt h a t : val h a t -> a < length h.
Proof. intros [c E _]. apply nth_error_Some. congruence. Qed.

(** * Reachability *)
Inductive reach (h : heap) (a : addr) : addr -> Prop :=
| r_refl : reach h a a
| r_step b c d : reach h a b -> nth_error h b = Some c -> In d (kids c) -> reach h a d.
Lemma reach_val h a t b : val h a t -> reach h a b -> exists u, val h b u /\ size u <= size t.
Proof.
  intros V R. induction R as [|b c d R (u & [c' E F] & Hs) E' Hd]; [eauto|].
  rewrite E' in E. injection E as <-. destruct (fits_kid _ _ _ _ F Hd) as (w & Hw & ?). exists w. split; auto. lia.
Qed.
Lemma reach_front h a c b d : nth_error h a = Some c -> In b (kids c) -> reach h b d -> reach h a d.
Proof. intros E I R. induction R; [eapply r_step; eauto; constructor|]. eapply r_step; eauto. Qed.
Lemma no_cycle h a t c b : val h a t -> nth_error h a = Some c -> In b (kids c) -> ~ reach h b a.
Proof.
  intros [c' E F] E' I R. rewrite E' in E. injection E as <-.
  destruct (fits_kid _ _ _ _ F I) as (u & Vu & Hs). destruct (reach_val _ _ _ _ Vu R) as (w & Vw & Hw).
  assert (w = t) by (eapply val_det; [exact Vw|]; exists c; auto). subst. lia.
Qed.
Lemma val_upd h a t b c : val h a t -> ~ reach h a b -> val (upd b c h) a t.
Proof.
  intros V N. apply (val_frame h (upd b c h) (fun d => reach h a d)) with (n := size t); auto; [|constructor].
  intros d x R E. split.
  - rewrite nth_upd_ne; auto. intros ->. auto.
  - apply Forall_forall. intros y Hy. eapply r_step; eauto.
Qed.

(** * Each json has one owner *)
Lemma NoDup_app_inv {A} (l m : list A) : NoDup (l ++ m) -> NoDup l /\ NoDup m /\ (forall x, In x l -> ~ In x m).
Proof.
  induction l as [|x l IH]; simpl; intros H; [repeat split; auto; constructor|].
  inversion H as [|? ? N H']; subst. destruct (IH H') as (A1 & A2 & A3). repeat split; auto.
  - constructor; auto. rewrite in_app_iff in N. tauto.
  - intros y [<-|Hy]; auto. rewrite in_app_iff in N. tauto.
Qed.
Lemma NoDup_app_intro {A} (l m : list A) : NoDup l -> NoDup m -> (forall x, In x l -> ~ In x m) -> NoDup (l ++ m).
Proof.
  induction l as [|x l IH]; simpl; intros H1 H2 H3; auto. inversion H1; subst. constructor.
  - rewrite in_app_iff. intros [?|?]; auto. eapply H3; eauto.
  - apply IH; auto.
Qed.
Lemma slots_in h b c d : nth_error h b = Some c -> In d (kids c) -> In d (slots h).
Proof. intros E I. apply in_flat_map. exists c. split; auto. eapply nth_error_In; eauto. Qed.
Lemma one_parent h b b' c c' d : NoDup (slots h) -> nth_error h b = Some c -> nth_error h b' = Some c' -> In d (kids c) -> In d (kids c') -> b = b'.
Proof.
  unfold slots. revert b b'. induction h as [|x h IH]; intros [|b] [|b'] N E E' I I'; simpl in *; try discriminate; auto.
  - injection E as ->. apply NoDup_app_inv in N as (_ & _ & N). exfalso. apply (N d); auto. eapply slots_in; eauto.
  - injection E' as ->. apply NoDup_app_inv in N as (_ & _ & N). exfalso. apply (N d); auto. eapply slots_in; eauto.
  - f_equal. apply NoDup_app_inv in N as (_ & N & _). eauto.
Qed.
Lemma one_chain h r r' b : NoDup (slots h) -> reach h r b -> reach h r' b -> reach h r r' \/ reach h r' r.
Proof.
  intros N R. induction R as [|b c d R IH E I]; intros R'; [now right|].
  inversion R' as [|b' c' d' R'' E' I']; subst; [left; eapply r_step; eauto|].
  assert (b' = b) by (eapply one_parent; eauto). subst. auto.
Qed.
Lemma reach_last h a b : reach h a b -> a = b \/ In b (slots h).
Proof. intros [|b' c d R E I]; auto. right. eapply slots_in; eauto. Qed.

Definition Inv (h : heap) (vs : vars) (ts : store) : Prop :=
  NoDup (vs ++ slots h) /\ Forall (fun b => b < length h) (slots h) /\ Forall2 (val h) vs ts.
Lemma root_unreach h vs x y a b c : NoDup (vs ++ slots h) -> nth_error vs x = Some a -> nth_error vs y = Some b -> x <> y -> reach h a c -> ~ reach h b c.
Proof.
  intros N Ea Eb Hxy Ra Rb. apply NoDup_app_inv in N as (N1 & N2 & N3).
  assert (a <> b) by (intros ->; apply Hxy; apply (proj1 (NoDup_nth_error vs) N1); [apply nth_error_Some; congruence|congruence]).
  destruct (one_chain _ _ _ _ N2 Ra Rb) as [R|R]; destruct (reach_last _ _ _ R); try congruence.
  - apply (N3 b); auto. eapply nth_error_In; eauto.
  - apply (N3 a); auto. eapply nth_error_In; eauto.
Qed.
Lemma sib_unreach h a t c i j b d e : NoDup (slots h) -> val h a t -> nth_error h a = Some c -> nth_error (kids c) i = Some b -> nth_error (kids c) j = Some d -> i <> j ->
  reach h b e -> ~ reach h d e.
Proof.
  intros N V E Eb Ed Hij Rb Rd.
  assert (Nk : NoDup (kids c)).
  { apply nth_error_split in E as (p & q & -> & _). unfold slots in N. rewrite flat_map_app in N. simpl in N.
    apply NoDup_app_inv in N as (_ & N & _). now apply NoDup_app_inv in N as (N & _ & _). }
  assert (b <> d) by (intros ->; apply Hij; apply (proj1 (NoDup_nth_error (kids c)) Nk); [apply nth_error_Some; congruence|congruence]).
  assert (Ib : In b (kids c)) by (eapply nth_error_In; eauto). assert (Id : In d (kids c)) by (eapply nth_error_In; eauto).
  destruct (one_chain _ _ _ _ N Rb Rd) as [R|R]; inversion R as [|x cx ? R' Ex Ix]; subst; try congruence.
  - assert (x = a) by (eapply (one_parent h x a cx c); eauto). subst. exact (no_cycle _ _ _ _ _ V E Ib R').
  - assert (x = a) by (eapply (one_parent h x a cx c); eauto). subst. exact (no_cycle _ _ _ _ _ V E Id R').
Qed.

(** * Places *)
Definition kid (s : seg) (c : cell) : option addr :=
  match s, c with Key k, CO l => lookup k l | Ix i, CA l => nth_error l i | _, _ => None end.
Fixpoint follow (h : heap) (a : addr) (p : list seg) (b : addr) : Prop :=
  match p with
  | [] => a = b
  | s :: q => exists c d, nth_error h a = Some c /\ kid s c = Some d /\ follow h d q b
  end.
(** Replace the document at a place that is there *)
Fixpoint repl (p : list seg) (v t : doc) : doc :=
  match p, t with
  | [], _ => v
  | Key k :: q, JO l => match lookup k l with Some u => JO (set k (repl q v u) l) | None => t end
  | Ix i :: q, JA l => match nth_error l i with Some u => JA (upd i (repl q v u) l) | None => t end
  | _, _ => t
  end.
Section pairs.
Context {A B : Type} (R : A -> B -> Prop).
Definition pr (x : key * A) (y : key * B) : Prop := fst x = fst y /\ R (snd x) (snd y).
Lemma lookup_rel k l m : Forall2 pr l m -> match lookup k l, lookup k m with Some a, Some b => R a b | None, None => True | _, _ => False end.
Proof.
  induction 1 as [|(j & a) (j' & b) l m (E & H) F IH]; simpl; auto. simpl in E, H. subst j'. destruct (list_eq_dec Z.eq_dec j k); auto.
Qed.
Lemma set_rel k a b l m : Forall2 pr l m -> R a b -> Forall2 pr (set k a l) (set k b m).
Proof.
  intros F HR. induction F as [|(j & a') (j' & b') l m (E & H) F IH]; simpl; [now constructor|]. simpl in E, H. subst j'.
  destruct (list_eq_dec Z.eq_dec j k); constructor; auto; split; auto.
Qed.
Lemma merged_rel l m l' m' : Forall2 pr l l' -> Forall2 pr m m' -> Forall2 pr (merged l m) (merged l' m').
Proof.
  intros H G. revert l l' H. unfold merged. induction G as [|x y m m' (E & H') G IH]; intros l l' H; simpl; auto.
  apply IH. rewrite E. now apply set_rel.
Qed.
End pairs.
Lemma lookup_idx {A} k (l : list (key * A)) v : lookup k l = Some v -> exists i, nth_error l i = Some (k, v) /\ forall w, set k w l = upd i (k, w) l.
Proof.
  induction l as [|(j & u) l IH]; simpl; [discriminate|]. destruct (list_eq_dec Z.eq_dec j k) as [->|N].
  - intros H. injection H as ->. now exists 0.
  - intros H. destruct (IH H) as (i & E & G). exists (S i). split; auto. intros w. simpl. now rewrite G.
Qed.
Lemma set_none {A} k (l : list (key * A)) v : lookup k l = None -> set k v l = l ++ [(k, v)].
Proof. induction l as [|(j & u) l IH]; simpl; auto. destruct (list_eq_dec Z.eq_dec j k); [discriminate|]. intros H. now rewrite IH. Qed.
Lemma kid_in s c d : kid s c = Some d -> exists i, nth_error (kids c) i = Some d.
Proof.
  destruct s as [k|i], c as [x|l|l]; simpl; try discriminate; intros H.
  - destruct (lookup_idx _ _ _ H) as (i & E & _). exists i. rewrite nth_error_map, E. reflexivity.
  - eauto.
Qed.
Lemma follow_reach h p : forall a b, follow h a p b -> reach h a b.
Proof.
  induction p as [|s p IH]; simpl; intros a b; [intros ->; constructor|].
  intros (c & d & E & K & F). destruct (kid_in _ _ _ K) as (i & I). eapply reach_front; eauto. eapply nth_error_In; eauto.
Qed.

Lemma upd_same {A} i (x : A) l : nth_error l i = Some x -> upd i x l = l.
Proof. intros E. destruct (upd_split i x _ _ E) as (p & q & H1 & H2 & _). congruence. Qed.
Lemma lookup_two {A B} (R : A -> B -> Prop) k l m d : Forall2 (pr R) l m -> lookup k l = Some d ->
  exists i u, nth_error l i = Some (k, d) /\ lookup k m = Some u /\ nth_error m i = Some (k, u) /\ (forall w, set k w m = upd i (k, w) m) /\ (forall w, set k w l = upd i (k, w) l) /\ R d u.
Proof.
  induction 1 as [|(j & a) (j' & b) l m (E & H) F IH]; simpl; [discriminate|]. simpl in E, H. subst j'.
  destruct (list_eq_dec Z.eq_dec j k) as [->|N].
  - intros G. injection G as ->. exists 0, b. repeat split; auto.
  - intros G. destruct (IH G) as (i & u & A1 & A2 & A3 & A4 & A5 & A6). exists (S i), u. repeat split; auto; intros w; simpl; congruence.
Qed.

(** One cell of the document changes. *)
Lemma repl_val h b x v : NoDup (slots h) -> val (upd b x h) b v ->
  forall p a t, val h a t -> follow h a p b -> val (upd b x h) a (repl p v t).
Proof.
  intros N Vb. induction p as [|s p IH]; intros a t V F; simpl in F; [now subst|].
  destruct F as (c & d & E & K & F). pose proof V as [c' E' G]. rewrite E in E'. injection E' as <-.
  pose proof (follow_reach _ _ _ _ F) as Rd.
  assert (Nab : b <> a).
  { intros ->. destruct (kid_in _ _ _ K) as (i0 & I0). eapply no_cycle; [exact V|exact E| |exact Rd]. eapply nth_error_In; eauto. }
  assert (Sib : forall i j e u, nth_error (kids c) i = Some d -> j <> i -> nth_error (kids c) j = Some e -> val h e u -> val (upd b x h) e u).
  { intros i j e u Ii Hj Ej Ve. apply val_upd; auto. eapply sib_unreach with (i := i) (j := j); [exact N|exact V|exact E|exact Ii|exact Ej|auto|exact Rd]. }
  exists c; [rewrite nth_upd_ne; auto|].
  destruct s as [k|i], c as [y|l|l]; simpl in K; try discriminate; inversion G as [|l' ts HF|l' ts HF]; subst; simpl.
  - destruct (lookup_two _ _ _ _ _ HF K) as (i & u & A1 & A2 & A3 & A4 & A5 & A6). rewrite A2, A4. constructor.
    rewrite <- (upd_same i (k, d) l A1).
    refine (F2_upd _ _ _ _ _ _ _ HF _ _).
    + intros j (k1 & e) (k2 & w) Hj Ej Ew (H1 & H2). split; auto. simpl in *. apply (Sib i j); auto; simpl; rewrite nth_error_map; [now rewrite A1|now rewrite Ej].
    + split; auto. apply IH; auto.
  - destruct (F2_nth _ _ _ _ _ HF K) as (u & Eu & Vu). rewrite Eu. constructor.
    rewrite <- (upd_same i d l K). refine (F2_upd _ _ _ _ _ _ _ HF _ _).
    + intros j e w Hj Ej Ew H. apply (Sib i j); auto.
    + apply IH; auto.
Qed.

(** * Storing a json that nothing else owns *)
Lemma nodup_swap {A} (vs P K R K1 : list A) v : NoDup ((vs ++ [v]) ++ P ++ K ++ R) -> NoDup K1 -> (forall y, In y K1 -> In y K \/ y = v) -> NoDup (vs ++ P ++ K1 ++ R).
Proof.
  intros N N1 I.
  assert (N' : NoDup ((v :: K) ++ vs ++ P ++ R)).
  { eapply Permutation_NoDup; [|exact N]. rewrite <- app_assoc. simpl. rewrite <- Permutation_middle. apply perm_skip.
    rewrite (app_assoc P K R), (Permutation_app_comm P K), <- app_assoc. now rewrite Permutation_app_swap_app. }
  apply NoDup_app_inv in N' as (_ & Nr & D).
  apply Permutation_NoDup with (l := K1 ++ vs ++ P ++ R).
  - rewrite (app_assoc P K1 R), (Permutation_app_comm P K1), <- app_assoc. now rewrite Permutation_app_swap_app.
  - apply NoDup_app_intro; auto. intros y Hy. apply D. destruct (I y Hy); simpl; auto.
Qed.
Lemma nodup_l {A} (l m : list A) : NoDup (l ++ m) -> NoDup m. Proof. intros N. now apply NoDup_app_inv in N. Qed.
Lemma F2_last {A B} (R : A -> B -> Prop) l m a b : length l = length m -> Forall2 R (l ++ [a]) (m ++ [b]) -> Forall2 R l m /\ R a b.
Proof.
  intros L H. apply Forall2_app_inv_l in H as (m1 & m2 & H1 & H2 & E). inversion H2 as [|? y ? ? HR HN]; subst. inversion HN; subst.
  apply app_inj_tail in E as (-> & ->). auto.
Qed.
Lemma inv_store h vs ts x a t q c cc c1 v tv tc1 :
  length vs = length ts -> Inv h (vs ++ [v]) (ts ++ [tv]) -> nth_error vs x = Some a -> nth_error ts x = Some t -> follow h a q c -> nth_error h c = Some cc ->
  (forall y, In y (kids c1) -> In y (kids cc) \/ y = v) -> NoDup (kids c1) -> fits (val h) c1 tc1 ->
  Inv (upd c c1 h) vs (upd x (repl q tc1 t) ts).
Proof.
  intros L (N & B & V) Ea Et F Ec I N1 Fit.
  destruct (F2_last _ _ _ _ _ L V) as (V1 & Vv).
  assert (Va : val h a t) by (destruct (F2_nth _ _ _ _ _ V1 Ea) as (t' & E' & H); congruence).
  pose proof (follow_reach _ _ _ _ F) as R.
  destruct (reach_val _ _ _ _ Va R) as (tc & Vc & _).
  assert (Hx : x < length vs) by (apply nth_error_Some; congruence).
  assert (Hk : forall y u, In y (kids c1) -> val h y u -> val (upd c c1 h) y u).
  { intros y u Hy Vy. apply val_upd; auto. destruct (I y Hy) as [Hy'| ->].
    - exact (no_cycle _ _ _ _ _ Vc Ec Hy').
    - refine (root_unreach h (vs ++ [v]) x (length vs) a v c N _ _ _ R); [now apply nth_app_l| |lia].
      rewrite nth_error_app2, Nat.sub_diag by lia. reflexivity. }
  assert (Hc : c < length h) by (apply nth_error_Some; congruence).
  assert (Vc1 : val (upd c c1 h) c tc1).
  { exists c1; [now apply nth_upd_eq|]. apply fits_imp with (2 := Fit). intros y u Hy _. now apply Hk. }
  split; [|split].
  - destruct (upd_split c c1 _ _ Ec) as (p & r & -> & -> & _). unfold slots in *. rewrite flat_map_app in *. simpl in *.
    eapply nodup_swap; eauto.
  - destruct (upd_split c c1 _ _ Ec) as (p & r & E1 & E2 & _). rewrite upd_len.
    assert (Bv : v < length h) by (eapply val_lt; eauto). clear - E1 E2 B Bv I. rewrite E2. subst h. set (n := length _) in *. clearbody n.
    unfold slots in *. rewrite flat_map_app in *. simpl in *. rewrite !Forall_app in *. destruct B as (B1 & B2 & B3). repeat split; auto.
    apply Forall_forall. intros y Hy. rewrite Forall_forall in B2. destruct (I y Hy) as [?| ->]; auto.
  - rewrite <- (upd_same x a vs Ea). refine (F2_upd _ _ _ _ _ _ _ V1 _ _).
    + intros j b u Hj Ej Eu Vb. apply val_upd; auto.
      refine (root_unreach h (vs ++ [v]) x j a b c N _ _ _ R); auto; now apply nth_app_l.
    + apply repl_val; auto. now apply nodup_l in N.
Qed.
Lemma inv_drop h vs ts v tv : length vs = length ts -> Inv h (vs ++ [v]) (ts ++ [tv]) -> Inv h vs ts.
Proof.
  intros L (N & B & V). destruct (F2_last _ _ _ _ _ L V). repeat split; auto.
  rewrite <- app_assoc in N. now apply NoDup_remove_1 in N.
Qed.
Lemma upd_out {A} i (x : A) l : length l <= i -> upd i x l = l.
Proof. revert i. induction l as [|y l IH]; intros [|i] H; simpl in *; auto; try lia. rewrite IH; auto. lia. Qed.
Lemma inv_assign h vs ts v tv x : length vs = length ts -> Inv h (vs ++ [v]) (ts ++ [tv]) -> Inv h (upd x v vs) (upd x tv ts).
Proof.
  intros L I. destruct (Nat.lt_ge_cases x (length vs)) as [Hx|Hx].
  2: { rewrite !upd_out by lia. eapply inv_drop; eauto. }
  destruct I as (N & B & V). destruct (F2_last _ _ _ _ _ L V) as (V1 & Vv). split; [|split]; auto.
  - destruct (nth_error vs x) as [a|] eqn:Ea; [|apply nth_error_None in Ea; lia].
    destruct (upd_split x v _ _ Ea) as (p & r & E1 & E2 & _). rewrite E2. subst vs.
    rewrite <- !app_assoc in *. simpl in *. apply NoDup_remove_1 in N. rewrite app_assoc in N.
    eapply Permutation_NoDup; [|exact N]. rewrite <- app_assoc. apply Permutation_app_head. symmetry. apply Permutation_middle.
  - refine (F2_upd _ _ _ _ _ _ _ V1 _ _); auto.
Qed.
Definition fresh (n : nat) (new : heap) (roots : list addr) : Prop :=
  NoDup (roots ++ slots new) /\ Forall (fun y => n <= y < n + length new) (roots ++ slots new).
Lemma inv_ext h vs ts new b t : Inv h vs ts -> fresh (length h) new [b] -> val (h ++ new) b t -> Inv (h ++ new) (vs ++ [b]) (ts ++ [t]).
Proof.
  intros (N & B & V) (N1 & B1) Vb. unfold Inv, slots in *. rewrite flat_map_app, app_length.
  assert (Bv : Forall (fun y => y < length h) vs).
  { clear - V. induction V; constructor; auto. eapply val_lt; eauto. }
  split; [|split].
  - assert (P : NoDup ((vs ++ flat_map kids h) ++ [b] ++ flat_map kids new)).
    { apply NoDup_app_intro; auto. intros y Hy Hy'. rewrite Forall_forall in B1. apply B1 in Hy'.
      assert (y < length h); [|lia]. apply in_app_iff in Hy as [Hy|Hy]; [rewrite Forall_forall in Bv|rewrite Forall_forall in B]; auto. }
    eapply Permutation_NoDup; [|exact P]. rewrite <- !app_assoc. apply Permutation_app_head. simpl. symmetry. apply Permutation_middle.
  - rewrite Forall_app. split; [eapply Forall_impl; [|exact B]; simpl; intros; lia|].
    rewrite Forall_app in B1. eapply Forall_impl; [|apply B1]. simpl. intros; lia.
  - apply Forall2_app; [|now constructor]. apply F2_imp with (2 := V). intros. now apply val_ext.
Qed.
Lemma fresh_leaf n c : kids c = [] -> fresh n [c] [n].
Proof. intros K. unfold fresh, slots. simpl. rewrite K. simpl. split; repeat constructor; simpl; try tauto; lia. Qed.

(** * Cloning *)
Lemma slots_app h m : slots (h ++ m) = slots h ++ slots m. Proof. apply flat_map_app. Qed.
Lemma fresh_app n m k l r : fresh n m l -> fresh (n + length m) k r -> fresh n (m ++ k) (l ++ r).
Proof.
  intros (N1 & B1) (N2 & B2). unfold fresh. rewrite slots_app, app_length.
  assert (P : Permutation ((l ++ slots m) ++ r ++ slots k) ((l ++ r) ++ slots m ++ slots k)).
  { rewrite <- !app_assoc. apply Permutation_app_head. rewrite (app_assoc (slots m)), (Permutation_app_comm (slots m) r). now rewrite <- app_assoc. }
  split.
  - eapply Permutation_NoDup; [exact P|]. apply NoDup_app_intro; auto. intros y H1 H2. rewrite Forall_forall in B1, B2. apply B1 in H1. apply B2 in H2. lia.
  - eapply Permutation_Forall; [exact P|]. rewrite Forall_app. split; (eapply Forall_impl; [|eassumption]); simpl; intros; lia.
Qed.
Lemma clones_ok (c : heap -> addr -> outcome (heap * addr)) : forall l ts h, Forall2 (val h) l ts ->
  (forall a t h', In t ts -> val h' a t -> exists new b, c h' a = Ok (h' ++ new, b) /\ val (h' ++ new) b t /\ fresh (length h') new [b]) ->
  exists new m, clones c h l = Ok (h ++ new, m) /\ Forall2 (val (h ++ new)) m ts /\ fresh (length h) new m.
Proof.
  induction l as [|a l IH]; intros ts h F H; inversion F as [|? t ? ts' V F']; subst; simpl.
  - exists [], []. rewrite app_nil_r. repeat split; constructor.
  - destruct (H a t h (or_introl eq_refl) V) as (n1 & b & E1 & V1 & F1). rewrite E1. cbn [obind].
    destruct (IH ts' (h ++ n1)) as (n2 & m & E2 & V2 & F2).
    + apply F2_imp with (2 := F'). intros. now apply val_ext.
    + intros. apply H; auto. now right.
    + rewrite E2. cbn [obind]. exists (n1 ++ n2), (b :: m). rewrite app_assoc. split; [reflexivity|]. split.
      * constructor; auto. now apply val_ext.
      * apply (fresh_app _ n1 n2 [b] m); auto. now rewrite app_length in F2.
Qed.
Lemma fresh_cell n new m c : fresh n new m -> kids c = m -> fresh n (new ++ [c]) [n + length new].
Proof.
  intros (N & B) <-. unfold fresh. rewrite slots_app, app_length. unfold slots at 2 4. simpl. rewrite app_nil_r.
  assert (P : Permutation (kids c ++ slots new) (slots new ++ kids c)) by apply Permutation_app_comm.
  split.
  - constructor; [|eapply Permutation_NoDup; eauto]. intros H. eapply Permutation_in in H; [|symmetry; exact P].
    rewrite Forall_forall in B. apply B in H. lia.
  - constructor; [lia|]. eapply Permutation_Forall; [exact P|]. eapply Forall_impl; [|exact B]. simpl. intros; lia.
Qed.
Lemma combine_fst {A B} (l : list A) (m : list B) : length l = length m -> map snd (combine l m) = m.
Proof. revert m. induction l as [|x l IH]; intros [|y m] L; simpl in *; try lia; auto. f_equal. apply IH. lia. Qed.
Lemma clone_with_ok c h x t : fits (val h) x t ->
  (forall a u h', size u < size t -> val h' a u -> exists new b, c h' a = Ok (h' ++ new, b) /\ val (h' ++ new) b u /\ fresh (length h') new [b]) ->
  exists new b, clone_with c h x = Ok (h ++ new, b) /\ val (h ++ new) b t /\ fresh (length h) new [b].
Proof.
  intros F H. destruct F as [s|l ts F|l ts F]; simpl.
  - exists [CS s], (length h). unfold alloc. split; [reflexivity|]. split; [|now apply fresh_leaf].
    exists (CS s); [|constructor]. rewrite nth_error_app2, Nat.sub_diag by lia. reflexivity.
  - destruct (clones_ok c l ts h F) as (new & m & E & V & Fr).
    { intros a u h' Hu Vu. apply H; auto. simpl. pose proof (sum_in size ts u Hu). lia. }
    rewrite E. cbn [obind]. exists (new ++ [CA m]), (length (h ++ new)). rewrite app_assoc. split; [reflexivity|]. split.
    + exists (CA m); [rewrite nth_error_app2, Nat.sub_diag by lia; reflexivity|]. constructor. apply F2_imp with (2 := V). intros. now apply val_ext.
    + rewrite app_length. apply fresh_cell with m; auto.
  - assert (F' : Forall2 (val h) (map snd l) (map snd ts)) by (clear H; induction F as [|? ? ? ? (? & ?)]; simpl; constructor; auto).
    destruct (clones_ok c (map snd l) (map snd ts) h F') as (new & m & E & V & Fr).
    { intros a u h' Hu Vu. apply H; auto. simpl. apply in_map_iff in Hu as (y & <- & Hy). pose proof (sum_in (fun x => size (snd x)) ts y Hy). simpl in *. lia. }
    rewrite E. cbn [obind]. exists (new ++ [CO (combine (map fst l) m)]), (length (h ++ new)). rewrite app_assoc. split; [reflexivity|].
    assert (Lm : length (map fst l) = length m).
    { apply F2_len in V. rewrite map_length in *. apply F2_len in F. congruence. }
    split.
    + exists (CO (combine (map fst l) m)); [rewrite nth_error_app2, Nat.sub_diag by lia; reflexivity|]. constructor.
      assert (K : map fst l = map fst ts) by (clear - F; induction F as [|? ? ? ? (? & ?)]; simpl; congruence).
      rewrite K. generalize [CO (combine (map fst ts) m)] as z. intros z. clear - V. revert m V. induction ts as [|(k & u) ts IH]; intros m V; inversion V; subst; simpl; constructor; auto.
      split; auto. simpl. now apply val_ext.
    + rewrite app_length. apply fresh_cell with m; auto. simpl. now apply combine_fst.
Qed.
Lemma clone_ok : forall n f t h a, size t <= n -> n <= f -> val h a t -> exists new b, clone f h a = Ok (h ++ new, b) /\ val (h ++ new) b t /\ fresh (length h) new [b].
Proof.
  induction n as [|n IH]; intros f t h a Hn Hf [c E F]; [destruct t; simpl in Hn; lia|]. destruct f as [|f]; [lia|]. simpl. rewrite E.
  apply clone_with_ok; auto. intros a' u h' Hu Vu. apply IH; auto; lia.
Qed.

(** * Reading and changing at a place *)
Lemma lookup_last {A} k (l : list (key * A)) v : lookup k l = None -> lookup k (l ++ [(k, v)]) = Some v.
Proof.
  induction l as [|(j & u) l IH]; simpl; [|destruct (list_eq_dec Z.eq_dec j k); [discriminate|auto]].
  destruct (list_eq_dec Z.eq_dec k k); congruence.
Qed.
Lemma set_last {A} k (l : list (key * A)) v w : lookup k l = None -> set k w (l ++ [(k, v)]) = l ++ [(k, w)].
Proof.
  induction l as [|(j & u) l IH]; simpl.
  - destruct (list_eq_dec Z.eq_dec k k); congruence.
  - destruct (list_eq_dec Z.eq_dec j k); [discriminate|]. intros H. now rewrite IH.
Qed.
Lemma lookup_set {A} k (l : list (key * A)) v u : lookup k l = Some u -> lookup k (set k v l) = Some v.
Proof. induction l as [|(j & w) l IH]; simpl; [discriminate|]. destruct (list_eq_dec Z.eq_dec j k) eqn:D; simpl; rewrite D; auto. Qed.
Lemma set_set {A} k (l : list (key * A)) v w : set k v (set k w l) = set k v l.
Proof.
  induction l as [|(j & u) l IH]; simpl.
  - destruct (list_eq_dec Z.eq_dec k k); congruence.
  - destruct (list_eq_dec Z.eq_dec j k) eqn:D; simpl; rewrite D; congruence.
Qed.
Lemma set_same {A} k (l : list (key * A)) v : lookup k l = Some v -> set k v l = l.
Proof. intros H. destruct (lookup_idx _ _ _ H) as (i & E & G). rewrite G. now apply upd_same. Qed.
Lemma upd_upd {A} i (x y : A) l : upd i x (upd i y l) = upd i x l.
Proof. revert i. induction l as [|z l IH]; intros [|i]; simpl; auto. now rewrite IH. Qed.

Lemma modify_touch p : forall t,
  match modify p Ok t with
  | Ok t' => exists u, get p t' = Some u /\ forall f, modify p f t = (let* v := f u in Ok (repl p v t'))
  | Throw => forall f, modify p f t = Throw
  | UB => forall f, modify p f t = UB
  | Fuel => False
  end.
Proof.
  induction p as [|s p IH]; intros t.
  - simpl. exists t. split; auto. intros f. destruct (f t); reflexivity.
  - destruct s as [k|i], t as [s|l|l]; simpl; auto.
    + destruct (lookup k l) as [v|] eqn:E.
      * specialize (IH v). destruct (modify p Ok v) as [w| | |] eqn:M; cbn [obind].
        -- destruct IH as (u & G & H). rewrite (lookup_set _ _ _ _ E). exists u. split; auto. intros f. rewrite H. destruct (f u); cbn [obind]; auto. now rewrite set_set.
        -- intros f. now rewrite IH.
        -- intros f. now rewrite IH.
        -- tauto.
      * specialize (IH (JS Null)). destruct (modify p Ok (JS Null)) as [w| | |] eqn:M; cbn [obind].
        -- destruct IH as (u & G & H). rewrite (lookup_last _ _ _ E). exists u. split; auto. intros f. rewrite H. destruct (f u); cbn [obind]; auto. now rewrite set_last.
        -- intros f. now rewrite IH.
        -- intros f. now rewrite IH.
        -- tauto.
    + destruct (nth_error l i) as [v|] eqn:E; [|auto].
      assert (Hi : i < length l) by (apply nth_error_Some; congruence).
      specialize (IH v). destruct (modify p Ok v) as [w| | |] eqn:M; cbn [obind].
      * destruct IH as (u & G & H). rewrite nth_upd_eq by auto. exists u. split; auto. intros f. rewrite H. destruct (f u); cbn [obind]; auto. now rewrite upd_upd.
      * intros f. now rewrite IH.
      * intros f. now rewrite IH.
      * tauto.
Qed.
Lemma walk_touch p : forall h a t, val h a t ->
  match modify p Ok t with
  | Ok t' =>
      (t' = t /\ exists b, walk p h a = Ok (h, b) /\ follow h a p b) \/
      (exists q k c l tl, p = q ++ [Key k] /\ follow h a q c /\ nth_error h c = Some (CO l) /\ lookup k l = None /\ val h c (JO tl) /\
         t' = repl q (JO (tl ++ [(k, JS Null)])) t /\ walk p h a = Ok (upd c (CO (l ++ [(k, length h)])) (h ++ [CS Null]), length h))
  | Throw => walk p h a = Throw
  | UB => walk p h a = UB
  | Fuel => False
  end.
Proof.
  induction p as [|s p IH]; intros h a t V.
  - simpl. left. split; auto. now exists a.
  - pose proof V as [c E F]. simpl. unfold child. rewrite E.
    destruct F as [x|l ts F|l ts F]; destruct s as [k|i]; cbn [obind]; auto.
    + destruct (nth_error ts i) as [u|] eqn:Eu.
      * destruct (F2_nth' _ _ _ _ _ F Eu) as (b & Eb & Vb). rewrite Eb. cbn [obind]. specialize (IH h b u Vb).
        destruct (modify p Ok u) as [w| | |] eqn:M; cbn [obind]; auto. destruct IH as [(-> & d & W & Fo)|(q & k & d & m & tl & -> & Fo & Em & Lm & Vd & -> & W)].
        -- left. rewrite upd_same by auto. split; auto. exists d. split; auto. simpl. exists (CA l), b. auto.
        -- right. exists (Ix i :: q), k, d, m, tl. repeat split; auto.
           ++ simpl. exists (CA l), b. auto.
           ++ simpl. now rewrite Eu.
      * destruct (nth_error l i) as [b|] eqn:Eb; auto. destruct (F2_nth _ _ _ _ _ F Eb) as (u & Eu' & _). congruence.
    + pose proof (lookup_rel (val h) k _ _ F) as L. destruct (lookup k ts) as [u|] eqn:Eu, (lookup k l) as [b|] eqn:Eb; try tauto; cbn [obind].
      * specialize (IH h b u L).
        destruct (modify p Ok u) as [w| | |] eqn:M; cbn [obind]; auto. destruct IH as [(-> & d & W & Fo)|(q & k' & d & m & tl & -> & Fo & Em & Lm & Vd & -> & W)].
        -- left. rewrite set_same by auto. split; auto. exists d. split; auto. simpl. exists (CO l), b. auto.
        -- right. exists (Key k :: q), k', d, m, tl. repeat split; auto.
           ++ simpl. exists (CO l), b. auto.
           ++ simpl. now rewrite Eu.
      * simpl. destruct p as [|s p]; simpl.
        -- right. exists [], k, a, l, ts. repeat split; auto.
        -- assert (Ea : a < length h) by (apply nth_error_Some; congruence).
           unfold child. rewrite nth_upd_ne, nth_error_app2, Nat.sub_diag by lia. simpl. destruct s; reflexivity.
Qed.
Lemma follow_ext h m p : forall a b, follow h a p b -> follow (h ++ m) a p b.
Proof. induction p as [|s p IH]; simpl; auto. intros a b (c & d & E & K & F). exists c, d. repeat split; auto. now apply nth_app_l. Qed.
Lemma follow_upd h b x p : forall a t, val h a t -> follow h a p b -> follow (upd b x h) a p b.
Proof.
  induction p as [|s p IH]; simpl; auto. intros a t V (c & d & E & K & F). exists c, d.
  destruct (kid_in _ _ _ K) as (i & I). apply nth_error_In in I.
  assert (b <> a) by (intros ->; eapply no_cycle; [exact V|exact E|exact I|eapply follow_reach; eauto]).
  repeat split; auto; [rewrite nth_upd_ne; auto|]. destruct V as [c' E' Fi]. rewrite E in E'. injection E' as <-.
  destruct (fits_kid _ _ _ _ Fi I) as (u & Vu & _). eapply IH; eauto.
Qed.
Lemma follow_app h p q : forall a b c, follow h a p b -> follow h b q c -> follow h a (p ++ q) c.
Proof. induction p as [|s p IH]; simpl; intros a b c; [now intros ->|]. intros (x & d & E & K & F) G. exists x, d. repeat split; auto. eapply IH; eauto. Qed.
Lemma val_follow h p : forall a t b u, val h a t -> follow h a p b -> get p t = Some u -> val h b u.
Proof.
  induction p as [|s p IH]; simpl; intros a t b u V F G; [congruence|].
  destruct F as (c & d & E & K & F). destruct V as [c' E' Fi]. rewrite E in E'. injection E' as <-.
  destruct s as [k|i], c as [x|l|l]; simpl in K; try discriminate; inversion Fi as [|? ts HF|? ts HF]; subst.
  - pose proof (lookup_rel (val h) k _ _ HF) as L. rewrite K in L. destruct (lookup k ts); [|tauto]. eapply IH; eauto.
  - destruct (F2_nth _ _ _ _ _ HF K) as (w & Ew & Vw). rewrite Ew in G. eapply IH; eauto.
Qed.

Lemma inv_len h vs ts : Inv h vs ts -> length vs = length ts. Proof. intros (_ & _ & V). eapply F2_len; eauto. Qed.
Lemma F2_nth_both {A B} (R : A -> B -> Prop) l m i a b : Forall2 R l m -> nth_error l i = Some a -> nth_error m i = Some b -> R a b.
Proof. intros F E E'. destruct (F2_nth _ _ _ _ _ F E) as (b' & Eb & H). congruence. Qed.
Lemma nth_len {A B} (l : list A) (m : list B) i b : length l = length m -> nth_error m i = Some b -> exists a, nth_error l i = Some a.
Proof. intros L E. destruct (nth_error l i) eqn:El; eauto. apply nth_error_None in El. assert (i < length m) by (apply nth_error_Some; congruence). lia. Qed.
Lemma nodup_kids h c cc : NoDup (slots h) -> nth_error h c = Some cc -> NoDup (kids cc).
Proof.
  intros N E. apply nth_error_split in E as (p & q & -> & _). unfold slots in N. rewrite flat_map_app in N. simpl in N.
  apply NoDup_app_inv in N as (_ & N & _). now apply NoDup_app_inv in N as (N & _ & _).
Qed.
Lemma slot_bound h vs ts c cc y : Inv h vs ts -> nth_error h c = Some cc -> In y (kids cc) -> y < length h.
Proof. intros (_ & B & _) E I. rewrite Forall_forall in B. apply B. eapply slots_in; eauto. Qed.
Lemma nodup_snoc {A} (l : list A) x : NoDup l -> ~ In x l -> NoDup (l ++ [x]).
Proof. intros N I. apply NoDup_app_intro; auto; [repeat constructor; simpl; tauto|]. intros y Hy [<-|[]]. auto. Qed.

Lemma touch_spec h vs w ts s x a t p : length vs = length ts -> Inv h (vs ++ w) (ts ++ s) -> nth_error vs x = Some a -> nth_error ts x = Some t ->
  match modify p Ok t with
  | Ok t' => exists h' b, walk p h a = Ok (h', b) /\ Inv h' (vs ++ w) (upd x t' ts ++ s) /\ follow h' a p b
  | Throw => walk p h a = Throw
  | UB => walk p h a = UB
  | Fuel => False
  end.
Proof.
  intros L I Ea Et. assert (Lw : length w = length s) by (apply inv_len in I; rewrite !app_length in I; lia).
  assert (V : val h a t) by (destruct I as (_ & _ & V); exact (F2_nth_both _ _ _ x _ _ V (nth_app_l _ _ _ _ Ea) (nth_app_l _ _ _ _ Et))).
  pose proof (walk_touch p h a t V) as W. destruct (modify p Ok t) as [t'| | |]; auto.
  destruct W as [(-> & b & W & F)|(q & k & c & l & tl & -> & F & Ec & Lk & Vc & -> & W)].
  - exists h, b. rewrite upd_same by auto. auto.
  - exists (upd c (CO (l ++ [(k, length h)])) (h ++ [CS Null])), (length h). split; auto.
    assert (Hx : x < length ts) by (apply nth_error_Some; congruence).
    assert (Hc : c < length h) by (eapply val_lt; eauto).
    assert (I1 : Inv (h ++ [CS Null]) ((vs ++ w) ++ [length h]) ((ts ++ s) ++ [JS Null])).
    { apply inv_ext; auto; [now apply fresh_leaf|]. exists (CS Null); [|constructor]. rewrite nth_error_app2, Nat.sub_diag by lia. reflexivity. }
    assert (F1 : follow (h ++ [CS Null]) a q c) by now apply follow_ext.
    assert (Ec1 : nth_error (h ++ [CS Null]) c = Some (CO l)) by now apply nth_app_l.
    split.
    + rewrite <- upd_app by auto.
      refine (inv_store _ _ _ x a t q c (CO l) _ (length h) (JS Null) _ _ I1 _ _ F1 Ec1 _ _ _).
      * rewrite !app_length. lia.
      * now apply nth_app_l.
      * now apply nth_app_l.
      * simpl. intros y. rewrite map_app, in_app_iff. simpl. intros [?|[?|[]]]; auto.
      * simpl. rewrite map_app. simpl. apply nodup_snoc.
        -- destruct I as (N & _ & _). apply nodup_l in N. apply (nodup_kids _ _ _ N Ec).
        -- intros Hi. pose proof (slot_bound _ _ _ _ _ _ I Ec Hi). lia.
      * constructor. apply Forall2_app.
        -- pose proof (val_ext h [CS Null] c _ Vc) as [c' E' Fi]. rewrite Ec1 in E'. injection E' as <-. now inversion Fi.
        -- constructor; [|constructor]. split; auto. simpl. exists (CS Null); [|constructor]. rewrite nth_error_app2, Nat.sub_diag by lia. reflexivity.
    + apply follow_app with c.
      * eapply follow_upd; eauto. apply val_ext. exact V.
      * simpl. exists (CO (l ++ [(k, length h)])), (length h). split; [apply nth_upd_eq; rewrite app_length; simpl; lia|]. split; auto. simpl. now apply lookup_last.
Qed.
Definition like {A B} (R : A -> B -> Prop) (o : outcome A) (o' : outcome B) : Prop :=
  match o with
  | Ok x => exists y, o' = Ok y /\ R x y
  | Throw => o' = Throw
  | UB => o' = UB
  | Fuel => False
  end.
Lemma read_spec h vs w ts s r : length vs = length ts -> Inv h (vs ++ w) (ts ++ s) ->
  like (fun x y => exists h', fst y = (h', vs) /\ Inv h' (vs ++ w) (snd x ++ s) /\ length vs = length (snd x) /\ val h' (snd y) (fst x)) (d_read r ts) (at_place r (h, vs)).
Proof.
  intros L I. destruct r as (x & p). unfold d_read, at_place. simpl.
  destruct (nth_error ts x) as [t|] eqn:Et.
  2: { apply nth_error_None in Et. destruct (nth_error vs x) eqn:Ea; [|reflexivity]. assert (x < length vs) by (apply nth_error_Some; congruence). lia. }
  destruct (nth_len vs ts x t L Et) as (a & Ea). rewrite Ea.
  pose proof (touch_spec _ _ _ _ _ _ _ _ p L I Ea Et) as T. pose proof (modify_touch p t) as M.
  destruct (modify p Ok t) as [t'| | |]; cbn [obind]; try (rewrite T; reflexivity); [|tauto].
  destruct T as (h' & b & W & I' & F). destruct M as (u & G & _). rewrite G, W. cbn [obind like].
  eexists. split; [reflexivity|]. exists h'. simpl. split; auto. split; auto. split; [now rewrite upd_len|].
  eapply val_follow; [|exact F|exact G]. destruct I' as (_ & _ & V). eapply F2_nth_both; [exact V|apply nth_app_l; exact Ea|].
  apply nth_app_l. apply nth_upd_eq. apply nth_error_Some. congruence.
Qed.
Lemma modify_app p q f : forall t, modify (p ++ q) f t = modify p (modify q f) t.
Proof.
  induction p as [|s p IH]; intros t; simpl; auto. destruct s as [k|i], t as [x|l|l]; auto.
  - destruct (lookup k l); now rewrite IH.
  - destruct (nth_error l i); now rewrite ?IH.
Qed.
Lemma set_kids {A} k (v : A) l : (forall y, In y (map snd (set k v l)) -> In y (map snd l) \/ y = v) /\ (NoDup (map snd l) -> ~ In v (map snd l) -> NoDup (map snd (set k v l))).
Proof.
  induction l as [|(j & w) l (IH1 & IH2)]; simpl.
  - split; [intuition auto|]. intros. repeat constructor. auto.
  - destruct (list_eq_dec Z.eq_dec j k) as [->|N]; simpl; split.
    + intros y [?|?]; auto.
    + intros N1 N2. inversion N1; subst. constructor; auto.
    + intros y [?|H]; auto. apply IH1 in H. tauto.
    + intros N1 N2. inversion N1; subst. constructor; auto. intros H. apply IH1 in H as [?| ->]; auto.
Qed.
Lemma upd_kids {A} i (v : A) l : (forall y, In y (upd i v l) -> In y l \/ y = v) /\ (NoDup l -> ~ In v l -> NoDup (upd i v l)).
Proof.
  revert i. induction l as [|w l IH]; intros [|i]; simpl; split; auto.
  - intros y [?|?]; auto.
  - intros N1 N2. inversion N1; subst. constructor; auto.
  - intros y [?|H]; auto. apply (proj1 (IH i)) in H. tauto.
  - intros N1 N2. inversion N1; subst. constructor; [|apply IH; auto]. intros H. apply (proj1 (IH i)) in H as [?| ->]; auto.
Qed.
Lemma pending_out h vs v c cc : NoDup ((vs ++ [v]) ++ slots h) -> nth_error h c = Some cc -> ~ In v (kids cc).
Proof.
  intros N E I. apply NoDup_app_inv in N as (_ & _ & N). apply (N v).
  - apply in_app_iff. right. now left.
  - eapply slots_in; eauto.
Qed.
Definition rel (ts : store) (y : state) : Prop := Inv (fst y) (snd y) ts.

Lemma assign_spec h vs ts v u r : length vs = length ts -> Inv h (vs ++ [v]) (ts ++ [u]) -> like rel (d_change r (fun _ => Ok u) ts) (assign r v (h, vs)).
Proof.
  intros L I. destruct r as (x & p). unfold d_change, assign. simpl.
  destruct (rev p) as [|s q'] eqn:Rp.
  - assert (p = []) by (destruct p; [auto|]; simpl in Rp; destruct (rev p); discriminate). subst p. simpl.
    destruct (nth_error ts x) as [t|] eqn:Et.
    + assert (Hx : x < length vs) by (rewrite L; apply nth_error_Some; congruence).
      rewrite (proj2 (Nat.ltb_lt _ _) Hx). simpl. eexists. split; [reflexivity|]. unfold rel. simpl. eapply inv_assign; eauto.
    + apply nth_error_None in Et. rewrite (proj2 (Nat.ltb_ge _ _)) by lia. reflexivity.
  - assert (p = rev q' ++ [s]) by (rewrite <- (rev_involutive p), Rp; reflexivity). subst p. generalize (rev q'). intros q. clear Rp q'.
    unfold at_place. simpl.
    destruct (nth_error ts x) as [t|] eqn:Et.
    2: { apply nth_error_None in Et. destruct (nth_error vs x) eqn:Ea; [|reflexivity]. assert (x < length vs) by (apply nth_error_Some; congruence). lia. }
    destruct (nth_len vs ts x t L Et) as (a & Ea). rewrite Ea, modify_app.
    pose proof (touch_spec _ _ _ _ _ _ _ _ q L I Ea Et) as T. pose proof (modify_touch q t) as M.
    destruct (modify q Ok t) as [t'| | |]; try (rewrite T, M; reflexivity); [|tauto].
    destruct T as (h' & b & W & I' & F). destruct M as (u0 & G & M). rewrite M, W. cbn [obind].
    assert (Et' : nth_error (upd x t' ts) x = Some t') by (apply nth_upd_eq; apply nth_error_Some; congruence).
    assert (L' : length vs = length (upd x t' ts)) by now rewrite upd_len.
    assert (Va : val h' a t') by (destruct I' as (_ & _ & V); exact (F2_nth_both _ _ _ x _ _ V (nth_app_l _ _ _ _ Ea) (nth_app_l _ _ _ _ Et'))).
    pose proof (val_follow _ _ _ _ _ _ Va F G) as [c Ec Fi]. unfold put_slot. rewrite Ec.
    assert (Nv : ~ In v (kids c)) by (destruct I' as (N & _); exact (pending_out _ _ _ _ _ N Ec)).
    assert (Nk : NoDup (kids c)) by (destruct I' as (N & _); apply nodup_l in N; exact (nodup_kids _ _ _ N Ec)).
    assert (Vv : val h' v u) by (destruct I' as (_ & _ & V); destruct (F2_last _ _ _ _ _ L' V); auto).
    destruct Fi as [y|l tl Fi|l tl Fi], s as [k|i]; simpl; try reflexivity.
    + destruct (nth_error tl i) as [w|] eqn:Ei; simpl.
      * destruct (F2_nth' _ _ _ _ _ Fi Ei) as (b' & Ei' & _). assert (Hi : i < length l) by (apply nth_error_Some; congruence).
        rewrite (proj2 (Nat.ltb_lt _ _) Hi). cbn [obind]. eexists. split; [reflexivity|]. unfold rel. simpl.
        rewrite <- (upd_upd x _ t' ts). destruct (upd_kids i v l) as (K1 & K2).
        refine (inv_store _ _ _ x a t' q b _ _ v u _ L' I' Ea Et' F Ec _ _ _); simpl; auto.
        constructor. refine (F2_upd _ _ _ _ _ _ _ Fi _ _); auto.
      * apply nth_error_None in Ei. apply F2_len in Fi. rewrite (proj2 (Nat.ltb_ge _ _)) by lia. reflexivity.
    + assert (E : forall B (g : doc -> outcome B), (let* v0 := match lookup k tl with Some _ => Ok (JO (set k u tl)) | None => Ok (JO (tl ++ [(k, u)])) end in g v0) = g (JO (set k u tl))).
      { intros B g. destruct (lookup k tl) eqn:El; cbn [obind]; auto. now rewrite set_none. }
      rewrite (E _ (fun v0 => Ok (repl q v0 t'))). simpl. eexists. split; [reflexivity|]. unfold rel. simpl.
      rewrite <- (upd_upd x _ t' ts). destruct (set_kids k v l) as (K1 & K2).
      refine (inv_store _ _ _ x a t' q b _ _ v u _ L' I' Ea Et' F Ec _ _ _); simpl; auto.
      constructor. apply (set_rel (val h')); auto.
Qed.
Lemma push_spec h vs ts v u r : length vs = length ts -> Inv h (vs ++ [v]) (ts ++ [u]) ->
  like rel (d_change r (fun t => match t with JA l => Ok (JA (l ++ [u])) | _ => Throw end) ts) (push r v (h, vs)).
Proof.
  intros L I. destruct r as (x & q). unfold d_change, push, at_place. simpl.
  destruct (nth_error ts x) as [t|] eqn:Et.
  2: { apply nth_error_None in Et. destruct (nth_error vs x) eqn:Ea; [|reflexivity]. assert (x < length vs) by (apply nth_error_Some; congruence). lia. }
  destruct (nth_len vs ts x t L Et) as (a & Ea). rewrite Ea.
  pose proof (touch_spec _ _ _ _ _ _ _ _ q L I Ea Et) as T. pose proof (modify_touch q t) as M.
  destruct (modify q Ok t) as [t'| | |]; try (rewrite T, M; reflexivity); [|tauto].
  destruct T as (h' & b & W & I' & F). destruct M as (u0 & G & M). rewrite M, W. cbn [obind].
  assert (Et' : nth_error (upd x t' ts) x = Some t') by (apply nth_upd_eq; apply nth_error_Some; congruence).
  assert (L' : length vs = length (upd x t' ts)) by now rewrite upd_len.
  assert (Va : val h' a t') by (destruct I' as (_ & _ & V); exact (F2_nth_both _ _ _ x _ _ V (nth_app_l _ _ _ _ Ea) (nth_app_l _ _ _ _ Et'))).
  pose proof (val_follow _ _ _ _ _ _ Va F G) as [c Ec Fi]. rewrite Ec.
  assert (Nv : ~ In v (kids c)) by (destruct I' as (N & _); exact (pending_out _ _ _ _ _ N Ec)).
  assert (Nk : NoDup (kids c)) by (destruct I' as (N & _); apply nodup_l in N; exact (nodup_kids _ _ _ N Ec)).
  assert (Vv : val h' v u) by (destruct I' as (_ & _ & V); destruct (F2_last _ _ _ _ _ L' V); auto).
  destruct Fi as [y|l tl Fi|l tl Fi]; simpl; try reflexivity.
  eexists. split; [reflexivity|]. unfold rel. simpl. rewrite <- (upd_upd x _ t' ts).
  refine (inv_store _ _ _ x a t' q b _ _ v u _ L' I' Ea Et' F Ec _ _ _); simpl; auto.
  - intros y. rewrite in_app_iff. simpl. intros [?|[?|[]]]; auto.
  - now apply nodup_snoc.
  - constructor. apply Forall2_app; auto.
Qed.
(** What is stored is owned by nobody yet. *)
Definition rel1 (vs : vars) (x : doc * store) (y : state * addr) : Prop :=
  exists h', fst y = (h', vs) /\ Inv h' (vs ++ [snd y]) (snd x ++ [fst x]) /\ length vs = length (snd x).
Lemma read0 h vs ts r : Inv h vs ts ->
  like (fun x y => exists h', fst y = (h', vs) /\ Inv h' vs (snd x) /\ val h' (snd y) (fst x)) (d_read r ts) (at_place r (h, vs)).
Proof.
  intros I. pose proof (read_spec h vs [] ts [] r (inv_len _ _ _ I)) as H. rewrite !app_nil_r in H. specialize (H I).
  destruct (d_read r ts) as [(u & st)| | |]; auto. destruct H as (y & E & h' & E1 & I' & _ & V). rewrite !app_nil_r in I'. simpl. eauto 6.
Qed.
Lemma eval_spec h vs ts s : Inv h vs ts -> match s with Share _ => False | _ => True end -> exists F, forall f, F <= f -> like (rel1 vs) (d_eval s ts) (eval f s (h, vs)).
Proof.
  intros I C. destruct s as [l|r|r]; [|tauto|].
  - exists 0. intros f _. simpl. eexists. split; [reflexivity|]. exists (h ++ [match l with LS s => CS s | LA => CA [] | LO => CO [] end]). simpl. split; auto.
    split; [|exact (inv_len _ _ _ I)]. apply inv_ext; auto; [apply fresh_leaf; now destruct l|].
    eexists; [rewrite nth_error_app2, Nat.sub_diag by lia; reflexivity|]. destruct l; repeat constructor.
  - unfold eval. pose proof (read0 h vs ts r I) as H. simpl d_eval. destruct (d_read r ts) as [(u & st)| | |] eqn:E; cbn [like] in H.
    + destruct H as (((h0 & vs0) & a) & Ea & h' & E1 & I' & V). simpl in *. injection E1 as -> ->.
      exists (size u). intros f Hf. rewrite Ea. cbn [obind fst snd].
      destruct (clone_ok (size u) f u h' a (le_n _) Hf V) as (new & b & Ec & Vb & Fr). rewrite Ec. cbn [obind like].
      eexists. split; [reflexivity|]. exists (h' ++ new). simpl. split; auto. split; [|exact (inv_len _ _ _ I')]. now apply inv_ext.
    + exists 0. intros. rewrite H. reflexivity.
    + exists 0. intros. rewrite H. reflexivity.
    + tauto.
Qed.
Lemma walk_follow h p : forall a b, follow h a p b -> walk p h a = Ok (h, b).
Proof.
  induction p as [|s p IH]; simpl; intros a b; [now intros ->|]. intros (c & d & E & K & F). unfold child. rewrite E.
  destruct s as [k|i], c as [x|l|l]; simpl in K; try discriminate; rewrite K; cbn [obind]; auto.
Qed.
Lemma lookup_app {A} k (l m : list (key * A)) v : lookup k l = Some v -> lookup k (l ++ m) = Some v.
Proof. induction l as [|(j & u) l IH]; simpl; [discriminate|]. destruct (list_eq_dec Z.eq_dec j k); auto. Qed.
Lemma child_keeps s h x h' y : child s h x = Ok (h', y) -> forall p a b, follow h a p b -> follow h' a p b.
Proof.
  unfold child. destruct (nth_error h x) as [c|] eqn:E; [|discriminate].
  destruct s as [k|i], c as [z|l|l]; try discriminate.
  - destruct (lookup k l) as [d|] eqn:El; intros H; apply ok_inj in H; injection H as -> ->; auto.
    assert (Hx : x < length h) by (apply nth_error_Some; congruence).
    induction p as [|s p IH]; simpl; auto. intros a b (c & d & Ec & K & F).
    destruct (Nat.eq_dec x a) as [->|Na].
    + exists (CO (l ++ [(k, length h)])), d. split; [apply nth_upd_eq; rewrite app_length; simpl; lia|]. split; auto.
      rewrite E in Ec. injection Ec as <-. destruct s; simpl in *; [|discriminate]. now apply lookup_app.
    + exists c, d. repeat split; auto. rewrite nth_upd_ne by auto. now apply nth_app_l.
  - destruct (nth_error l i); [|discriminate]. intros H. apply ok_inj in H. injection H as -> ->. auto.
Qed.
Lemma walk_keeps q : forall h x h' y, walk q h x = Ok (h', y) -> forall p a b, follow h a p b -> follow h' a p b.
Proof.
  induction q as [|s q IH]; simpl; intros h x h' y W p a b F; [apply ok_inj in W; injection W as -> ->; auto|].
  destruct (child s h x) as [(h1 & d)| | |] eqn:E; try discriminate. cbn [obind] in W. eapply IH; eauto. eapply child_keeps; eauto.
Qed.
Lemma child_follow s h x h' y : child s h x = Ok (h', y) -> follow h' x [s] y.
Proof.
  unfold child. destruct (nth_error h x) as [c|] eqn:E; [|discriminate].
  destruct s as [k|i], c as [z|l|l]; try discriminate.
  - destruct (lookup k l) as [d|] eqn:El; intros H; apply ok_inj in H; injection H as -> ->.
    + simpl. exists (CO l), d. auto.
    + assert (Hx : x < length h) by (apply nth_error_Some; congruence).
      simpl. exists (CO (l ++ [(k, length h)])), (length h). split; [apply nth_upd_eq; rewrite app_length; simpl; lia|]. split; auto. simpl. now apply lookup_last.
  - destruct (nth_error l i) as [d|] eqn:Ei; [|discriminate]. intros H. apply ok_inj in H. injection H as -> ->. simpl. exists (CA l), d. auto.
Qed.
Lemma walk_to q : forall h x h' y, walk q h x = Ok (h', y) -> follow h' x q y.
Proof.
  induction q as [|s q IH]; simpl; intros h x h' y W; [apply ok_inj in W; injection W as -> ->; auto|].
  destruct (child s h x) as [(h1 & d)| | |] eqn:E; try discriminate. cbn [obind] in W.
  change (follow h' x ([s] ++ q) y). apply follow_app with d; eauto. eapply walk_keeps; eauto. eapply child_follow; eauto.
Qed.
Lemma at_place_again a b x x1 x2 u v : at_place a x = Ok (x1, u) -> at_place b x1 = Ok (x2, v) -> at_place a x2 = Ok (x2, u).
Proof.
  destruct x as (h & vs). unfold at_place. destruct (nth_error vs (fst a)) as [ra|] eqn:Ea; [|discriminate].
  destruct (walk (snd a) h ra) as [(h1 & y)| | |] eqn:W; try discriminate. cbn [obind]. intros H. apply ok_inj in H. injection H as -> ->.
  destruct (nth_error vs (fst b)) as [rb|] eqn:Eb; [|discriminate].
  destruct (walk (snd b) h1 rb) as [(h2 & z)| | |] eqn:W2; try discriminate. cbn [obind]. intros H. apply ok_inj in H. injection H as -> ->.
  rewrite Ea. rewrite (walk_follow h2 (snd a) ra y); auto. eapply walk_keeps; eauto. eapply walk_to; eauto.
Qed.

Lemma step_spec h vs ts o : Inv h vs ts -> cloning o -> exists F, forall f, F <= f -> like rel (d_step o ts) (step f o (h, vs)).
Proof.
  intros I C. destruct o as [r s|r s|x d a b].
  - destruct (eval_spec h vs ts s I) as (F & H); [destruct s; auto|]. exists F. intros f Hf. specialize (H f Hf). unfold d_step, step.
    destruct (d_eval s ts) as [(u & st)| | |]; cbn [like] in H; try (rewrite H; reflexivity); [|tauto].
    destruct H as (((h0 & vs0) & v) & Ev & h' & E1 & I' & L). simpl in E1, I', L. injection E1 as -> ->. rewrite Ev. cbn [obind].
    now apply assign_spec.
  - destruct (eval_spec h vs ts s I) as (F & H); [destruct s; auto|]. exists F. intros f Hf. specialize (H f Hf). unfold d_step, step.
    destruct (d_eval s ts) as [(u & st)| | |]; cbn [like] in H; try (rewrite H; reflexivity); [|tauto].
    destruct H as (((h0 & vs0) & v) & Ev & h' & E1 & I' & L). simpl in E1, I', L. injection E1 as -> ->. rewrite Ev. cbn [obind].
    now apply push_spec.
  - destruct d; [|destruct C]. unfold d_step, step.
    pose proof (read0 h vs ts a I) as H. destruct (d_read a ts) as [(u0 & st)| | |]; cbn [like] in H; try (exists 0; intros f _; rewrite H; reflexivity); [|tauto].
    destruct H as (((h0 & vs0) & va) & Ea & h1 & E1 & I1 & V1). cbn [fst snd] in *. injection E1 as -> ->. cbn [obind].
    pose proof (read0 h1 vs st b I1) as H. destruct (d_read b st) as [(v & st2)| | |]; cbn [like] in H; try (exists 0; intros f _; rewrite Ea; cbn [obind]; rewrite H; reflexivity); [|tauto].
    destruct H as (((h0 & vs0) & vb) & Eb & h2 & E2 & I2 & V2). cbn [fst snd] in *. injection E2 as -> ->. cbn [obind].
    pose proof (at_place_again _ _ _ _ _ _ _ Ea Eb) as Ea'.
    pose proof (read0 h2 vs st2 a I2) as H. rewrite Ea' in H. destruct (d_read a st2) as [(u & st3)| | |]; cbn [like] in H; try discriminate; [|tauto].
    destruct H as (y & E3 & h3 & E4 & I3 & V3). apply ok_inj in E3 as ->. cbn [fst snd] in *. injection E4 as <-. cbn [obind].
    exists (S (size u + size v + size (JO (match u, v with JO l, JO m => merged l m | _, _ => [] end)))). intros f Hf. rewrite Ea. cbn [obind]. rewrite Eb. cbn [obind fst snd].
    unfold merge. pose proof V3 as [cu Eu Fu]. pose proof V2 as [cv Ev Fv]. rewrite Eu, Ev.
    destruct Fu as [xu|lu tu Fu|lu tu Fu]; try reflexivity; destruct Fv as [xv|lv tv Fv|lv tv Fv]; try reflexivity.
    cbn [obind].
    assert (Fit : fits (val h2) (CO (merged lu lv)) (JO (merged tu tv))) by (constructor; now apply (merged_rel (val h2))).
    destruct (clone_with_ok (clone f) _ _ _ Fit) as (new & w & Ec & Vw & Fr).
    { intros y t h' Ht Vt. apply clone_ok with (size t); auto. lia. }
    rewrite Ec. cbn [obind]. refine (assign_spec (h2 ++ new) vs st3 w _ (x, []) _ _); [exact (inv_len _ _ _ I3)|]. now apply inv_ext.
Qed.
(** More depth changes nothing. *)
Lemma clones_mono (c c' : heap -> addr -> outcome (heap * addr)) : (forall h a r, c h a = Ok r -> c' h a = Ok r) -> forall l h r, clones c h l = Ok r -> clones c' h l = Ok r.
Proof.
  intros H. induction l as [|a l IH]; simpl; auto. intros h r.
  destruct (c h a) as [(h1 & b)| | |] eqn:E; try discriminate. rewrite (H _ _ _ E). cbn [obind].
  destruct (clones c h1 l) as [(h2 & m)| | |] eqn:E2; try discriminate. rewrite (IH _ _ E2). auto.
Qed.
Lemma clone_with_mono (c c' : heap -> addr -> outcome (heap * addr)) h x r : (forall h a r, c h a = Ok r -> c' h a = Ok r) -> clone_with c h x = Ok r -> clone_with c' h x = Ok r.
Proof.
  intros H. destruct x as [s|l|l]; simpl; auto.
  - destruct (clones c h l) as [p| | |] eqn:E; try discriminate. now rewrite (clones_mono _ _ H _ _ _ E).
  - destruct (clones c h (map snd l)) as [p| | |] eqn:E; try discriminate. now rewrite (clones_mono _ _ H _ _ _ E).
Qed.
Lemma clone_mono f : forall g, f <= g -> forall h a r, clone f h a = Ok r -> clone g h a = Ok r.
Proof.
  induction f as [|f IH]; intros g L h a r H; [discriminate|]. destruct g as [|g]; [lia|]. simpl in *.
  destruct (nth_error h a); [|discriminate]. eapply clone_with_mono; [|exact H]. intros. eapply IH; eauto. lia.
Qed.
Lemma eval_mono f g s x r : f <= g -> eval f s x = Ok r -> eval g s x = Ok r.
Proof.
  intros L. destruct s as [l|q|q]; simpl; auto. destruct (at_place q x) as [(y & a)| | |]; try discriminate. cbn [obind].
  destruct (clone f (fst y) a) as [p| | |] eqn:E; try discriminate. now rewrite (clone_mono f g L _ _ _ E).
Qed.
Lemma step_mono f g o x r : f <= g -> step f o x = Ok r -> step g o x = Ok r.
Proof.
  intros L. destruct o as [q s|q s|z d a b]; unfold step.
  - destruct (eval f s x) as [p| | |] eqn:E; try discriminate. now rewrite (eval_mono _ _ _ _ _ L E).
  - destruct (eval f s x) as [p| | |] eqn:E; try discriminate. now rewrite (eval_mono _ _ _ _ _ L E).
  - destruct (at_place a x) as [(y & u)| | |]; try discriminate. cbn [obind].
    destruct (at_place b y) as [(y' & u')| | |]; try discriminate. cbn [obind].
    destruct (merge (fst y') u u') as [c| | |]; try discriminate. cbn [obind]. destruct d; auto.
    destruct (clone_with (clone f) (fst y') c) as [p| | |] eqn:E; try discriminate.
    rewrite (clone_with_mono _ (clone g) _ _ _ (clone_mono f g L) E). auto.
Qed.
Theorem run_spec p : forall h vs ts, Inv h vs ts -> Forall cloning p -> exists F, forall f, F <= f -> like rel (d_run p ts) (run f p (h, vs)).
Proof.
  induction p as [|o p IH]; intros h vs ts I C.
  - exists 0. intros f _. simpl. eexists. split; [reflexivity|]. exact I.
  - inversion C as [|? ? C1 C2]; subst. destruct (step_spec h vs ts o I C1) as (F1 & H1). cbn [d_run run].
    destruct (d_step o ts) as [ts'| | |] eqn:E; cbn [like] in H1.
    + destruct (H1 F1 (le_n _)) as ((h' & vs') & E1 & I1). destruct (IH h' vs' ts' I1 C2) as (F2 & H2).
      exists (Nat.max F1 F2). intros f Hf. rewrite (step_mono F1 f _ _ _ ltac:(lia) E1). cbn [obind]. apply H2. lia.
    + exists F1. intros f Hf. rewrite (H1 f Hf). reflexivity.
    + exists F1. intros f Hf. rewrite (H1 f Hf). reflexivity.
    + exists F1. intros f Hf. destruct (H1 f Hf).
Qed.
Lemma init_inv n : Inv (fst (init n)) (snd (init n)) (repeat (JS Null) n).
Proof.
  unfold init. simpl. assert (S0 : slots (repeat (CS Null) n) = []) by (induction n; simpl; auto).
  unfold Inv. rewrite S0, app_nil_r. split; [apply seq_NoDup|]. split; [constructor|].
  assert (G : forall k m, m + k = n -> Forall2 (val (repeat (CS Null) n)) (seq m k) (repeat (JS Null) k)).
  { induction k as [|k IH]; intros m E; simpl; constructor; [|apply IH; lia].
    exists (CS Null); [|constructor]. rewrite nth_error_repeat; auto. lia. }
  now apply G.
Qed.

(** * Addresses that a program cannot get at: those from lo to hi, and the variable z *)
Section apart.
Context (lo hi : nat) (z : option nat) (h0 : heap).
Definition inside (y : addr) : Prop := lo <= y < hi.
Definition oka (h : heap) (y : addr) : Prop := ~ inside y /\ y < length h.
Definition H (h : heap) : Prop :=
  hi <= length h /\ (forall b, inside b -> nth_error h b = nth_error h0 b) /\ (forall b c, ~ inside b -> nth_error h b = Some c -> Forall (oka h) (kids c)).
Definition K (x : state) : Prop := H (fst x) /\ forall y a, z <> Some y -> nth_error (snd x) y = Some a -> oka (fst x) a.
Lemma oka_ext h h' y : length h <= length h' -> oka h y -> oka h' y. Proof. unfold oka. intros L (A & B). split; auto; lia. Qed.
Lemma okas_ext h h' l : length h <= length h' -> Forall (oka h) l -> Forall (oka h') l.
Proof. intros L F. eapply Forall_impl; [|exact F]. intros. eapply oka_ext; eauto. Qed.
Lemma H_kids h a c : H h -> oka h a -> nth_error h a = Some c -> Forall (oka h) (kids c).
Proof. intros (_ & _ & H3) (N & _) E. eauto. Qed.
Lemma H_alloc h c : H h -> Forall (oka h) (kids c) -> H (h ++ [c]) /\ oka (h ++ [c]) (length h).
Proof.
  intros (H1 & H2 & H3) F. assert (L : length (h ++ [c]) = S (length h)) by (rewrite app_length; simpl; lia).
  split; [split; [|split]|split]; unfold inside in *; try lia.
  - intros b Hb. rewrite nth_error_app1 by lia. auto.
  - intros b x Hb E. apply okas_ext with h; [lia|]. destruct (Nat.lt_ge_cases b (length h)) as [Lb|Lb].
    + rewrite nth_error_app1 in E by lia. eauto.
    + rewrite nth_error_app2 in E by lia. destruct (b - length h) as [|n]; simpl in E; [injection E as <-; auto|]. destruct n; discriminate.
Qed.
Lemma H_upd h a c : H h -> oka h a -> Forall (oka h) (kids c) -> H (upd a c h).
Proof.
  intros (H1 & H2 & H3) (N & B) F. split; [|split]; rewrite ?upd_len; auto.
  - intros b Hb. rewrite nth_upd_ne; auto. intros ->. auto.
  - intros b x Hb E. apply okas_ext with h; [now rewrite upd_len|]. destruct (Nat.eq_dec a b) as [->|D].
    + rewrite nth_upd_eq in E by auto. injection E as <-. auto.
    + rewrite nth_upd_ne in E; eauto.
Qed.
Lemma lookup_in {A} k (l : list (key * A)) v : lookup k l = Some v -> In v (map snd l).
Proof. intros E. destruct (lookup_idx _ _ _ E) as (i & Ei & _). apply in_map_iff. exists (k, v). split; auto. eapply nth_error_In; eauto. Qed.
Lemma child_apart s h a h' b : H h -> oka h a -> child s h a = Ok (h', b) -> H h' /\ oka h' b /\ length h <= length h'.
Proof.
  intros Hh Ha. unfold child. destruct (nth_error h a) as [c|] eqn:E; [|discriminate]. pose proof (H_kids _ _ _ Hh Ha E) as Fk.
  destruct s as [k|i], c as [x|l|l]; try discriminate.
  - destruct (lookup k l) as [d|] eqn:El; intros G; apply ok_inj in G; injection G as -> ->.
    + split; auto. split; auto. rewrite Forall_forall in Fk. apply Fk. eapply lookup_in; eauto.
    + destruct (H_alloc h (CS Null) Hh (Forall_nil _)) as (Hh' & Hb).
      assert (L : length h <= length (h ++ [CS Null])) by (rewrite app_length; lia).
      rewrite upd_len. split; [|split; auto].
      * apply H_upd; auto; [eapply oka_ext; eauto|]. simpl. rewrite map_app, Forall_app. split; [eapply okas_ext; eauto|]. constructor; auto.
      * unfold oka. rewrite upd_len. auto.
  - destruct (nth_error l i) as [d|] eqn:Ei; [|discriminate]. intros G; apply ok_inj in G; injection G as -> ->.
    split; auto. split; auto. rewrite Forall_forall in Fk. apply Fk. eapply nth_error_In; eauto.
Qed.
Lemma walk_apart p : forall h a h' b, H h -> oka h a -> walk p h a = Ok (h', b) -> H h' /\ oka h' b /\ length h <= length h'.
Proof.
  induction p as [|s p IH]; simpl; intros h a h' b Hh Ha W; [apply ok_inj in W; injection W as -> ->; auto|].
  destruct (child s h a) as [(h1 & d)| | |] eqn:E; try discriminate. cbn [obind] in W.
  destruct (child_apart _ _ _ _ _ Hh Ha E) as (H1 & O1 & L1). destruct (IH _ _ _ _ H1 O1 W) as (H2 & O2 & L2). split; auto. split; auto. lia.
Qed.
Lemma place_apart r x x' a : K x -> z <> Some (fst r) -> at_place r x = Ok (x', a) -> K x' /\ oka (fst x') a /\ snd x' = snd x.
Proof.
  destruct x as (h & vs). unfold at_place. intros (Hh & Hv) Hz. destruct (nth_error vs (fst r)) as [b|] eqn:E; [|discriminate].
  destruct (walk (snd r) h b) as [(h1 & d)| | |] eqn:W; try discriminate. cbn [obind]. intros G. apply ok_inj in G. injection G as -> ->. simpl in *.
  destruct (walk_apart _ _ _ _ _ Hh (Hv _ _ Hz E) W) as (H1 & O1 & L1). split; [split; auto|]; auto. simpl. intros y c Hy Ec. eapply oka_ext; eauto.
Qed.
Lemma clones_apart (c : heap -> addr -> outcome (heap * addr)) : (forall h a h' b, H h -> oka h a -> c h a = Ok (h', b) -> H h' /\ oka h' b /\ length h <= length h') ->
  forall l h h' m, H h -> Forall (oka h) l -> clones c h l = Ok (h', m) -> H h' /\ Forall (oka h') m /\ length h <= length h'.
Proof.
  intros Hc. induction l as [|a l IH]; simpl; intros h h' m Hh F E; [apply ok_inj in E; injection E as -> ->; auto|].
  inversion F; subst. destruct (c h a) as [(h1 & b)| | |] eqn:E1; try discriminate. cbn [obind] in E.
  destruct (Hc _ _ _ _ Hh ltac:(eassumption) E1) as (A1 & A2 & A3).
  destruct (clones c h1 l) as [(h2 & m2)| | |] eqn:E2; try discriminate. cbn [obind] in E. apply ok_inj in E. injection E as -> ->.
  destruct (IH _ _ _ A1 ltac:(eapply okas_ext; eauto) E2) as (B1 & B2 & B3). split; auto. split; [|lia]. constructor; auto. eapply oka_ext; eauto.
Qed.
Lemma combine_snd_in {A B} (l : list A) (m : list B) y : In y (map snd (combine l m)) -> In y m.
Proof. intros I. apply in_map_iff in I as ((a & b) & <- & I). apply in_combine_r in I. auto. Qed.
Lemma clone_with_apart c h x h' b : (forall h a h' b, H h -> oka h a -> c h a = Ok (h', b) -> H h' /\ oka h' b /\ length h <= length h') ->
  H h -> Forall (oka h) (kids x) -> clone_with c h x = Ok (h', b) -> H h' /\ oka h' b /\ length h <= length h'.
Proof.
  intros Hc Hh F. destruct x as [s|l|l]; simpl.
  - intros G. apply ok_inj in G. injection G as -> ->. destruct (H_alloc h (CS s) Hh F) as (A & B). split; auto. split; auto. rewrite app_length. lia.
  - destruct (clones c h l) as [(h1 & m)| | |] eqn:E; try discriminate. cbn [obind]. intros G. apply ok_inj in G. injection G as -> ->.
    destruct (clones_apart c Hc _ _ _ _ Hh F E) as (A1 & A2 & A3). destruct (H_alloc h1 (CA m) A1 A2) as (A & B). split; auto. split; auto. rewrite app_length. lia.
  - destruct (clones c h (map snd l)) as [(h1 & m)| | |] eqn:E; try discriminate. cbn [obind]. intros G. apply ok_inj in G. injection G as -> ->.
    destruct (clones_apart c Hc _ _ _ _ Hh F E) as (A1 & A2 & A3).
    destruct (H_alloc h1 (CO (combine (map fst l) m)) A1) as (A & B).
    { simpl. apply Forall_forall. intros y Hy. apply combine_snd_in in Hy. rewrite Forall_forall in A2. auto. }
    split; auto. split; auto. rewrite app_length. lia.
Qed.
Lemma clone_apart f : forall h a h' b, H h -> oka h a -> clone f h a = Ok (h', b) -> H h' /\ oka h' b /\ length h <= length h'.
Proof.
  induction f as [|f IH]; simpl; intros h a h' b Hh Ha E; [discriminate|]. destruct (nth_error h a) as [x|] eqn:Ex; [|discriminate].
  eapply clone_with_apart; eauto. eapply H_kids; eauto.
Qed.
Lemma K_heap h h' vs : K (h, vs) -> H h' -> length h <= length h' -> K (h', vs).
Proof. intros (A & B) A' L. split; auto. simpl in *. intros. eapply oka_ext; eauto. Qed.
Lemma eval_apart f s x x' a : K x -> match s, z with Share q, Some v | Clone q, Some v => fst q <> v | _, _ => True end ->
  eval f s x = Ok (x', a) -> K x' /\ oka (fst x') a /\ snd x' = snd x.
Proof.
  intros Hx Hz. destruct s as [l|q|q]; unfold eval.
  - intros G. apply ok_inj in G. injection G as -> ->. destruct x as (h & vs). simpl.
    destruct (H_alloc h (match l with LS s => CS s | LA => CA [] | LO => CO [] end) (proj1 Hx)) as (A & B); [destruct l; constructor|].
    split; auto. eapply K_heap; eauto. rewrite app_length. lia.
  - intros G. eapply place_apart; eauto. destruct z; congruence.
  - destruct (at_place q x) as [(x1 & b)| | |] eqn:E; try discriminate. cbn [obind].
    destruct (place_apart q x x1 b Hx ltac:(destruct z; congruence) E) as (A1 & A2 & A3).
    destruct (clone f (fst x1) b) as [(h2 & d)| | |] eqn:Ec; try discriminate. cbn [obind]. intros G. apply ok_inj in G. injection G as -> ->.
    destruct (clone_apart f _ _ _ _ (proj1 A1) A2 Ec) as (B1 & B2 & B3). simpl. split; auto. destruct x1. eapply K_heap; eauto.
Qed.
Lemma K_upd h vs a c : K (h, vs) -> oka h a -> Forall (oka h) (kids c) -> K (upd a c h, vs).
Proof.
  intros (A & B) Ha F. split; simpl in *; [apply H_upd; auto|]. intros y b Hy E. apply oka_ext with h; [rewrite upd_len; apply le_n|]. eauto.
Qed.
Lemma assign_apart r v x x' : K x -> oka (fst x) v -> z <> Some (fst r) -> assign r v x = Ok x' ->
  K x' /\ length (snd x') = length (snd x) /\ forall y, z = Some y -> nth_error (snd x') y = nth_error (snd x) y.
Proof.
  destruct r as (y & p), x as (h & vs). intros Hx Hv Hz. unfold assign. simpl in Hz. destruct (rev p) as [|s q].
  - destruct (y <? length vs) eqn:E; [|discriminate]. intros G. apply ok_inj in G as ->. simpl in *. rewrite upd_len. split; [|split; auto].
    + destruct Hx as (A & B). split; auto. simpl in *. intros u a Hu Eu. destruct (Nat.eq_dec y u) as [->|D].
      * rewrite nth_upd_eq in Eu by now apply Nat.ltb_lt. congruence.
      * rewrite nth_upd_ne in Eu; eauto.
    + intros u Hu. apply nth_upd_ne. congruence.
  - destruct (at_place (y, rev q) (h, vs)) as [((h1 & vs1) & a)| | |] eqn:E; try discriminate. cbn [obind].
    destruct (place_apart (y, _) _ _ _ Hx Hz E) as (A1 & A2 & A3). simpl in A3, A2. subst vs1.
    assert (L : length h <= length h1).
    { unfold at_place in E. simpl in E. destruct (nth_error vs y) as [b|] eqn:Ey; [|discriminate]. destruct (walk (rev q) h b) as [(h2 & d)| | |] eqn:W; try discriminate.
      cbn [obind] in E. apply ok_inj in E. injection E as -> ->.
      destruct (walk_apart _ _ _ _ _ (proj1 Hx) (proj2 Hx _ _ Hz Ey) W) as (_ & _ & L). exact L. }
    unfold put_slot. destruct (nth_error h1 a) as [c|] eqn:Ec; [|discriminate]. pose proof (H_kids _ _ _ (proj1 A1) A2 Ec) as Fk.
    assert (Hv' : oka h1 v) by (eapply oka_ext; eauto). rewrite Forall_forall in Fk.
    destruct s as [k|i], c as [t|l|l]; try discriminate.
    + cbn [obind]. intros G. apply ok_inj in G as ->. simpl. split; auto. apply K_upd; auto. apply Forall_forall. intros u Hu. simpl in Hu.
      apply set_kids in Hu as [Hu| ->]; auto.
    + destruct (i <? length l); [|discriminate]. cbn [obind]. intros G. apply ok_inj in G as ->. simpl. split; auto. apply K_upd; auto. apply Forall_forall. intros u Hu. simpl in Hu.
      apply upd_kids in Hu as [Hu| ->]; auto.
Qed.
Lemma push_apart r v x x' : K x -> oka (fst x) v -> z <> Some (fst r) -> push r v x = Ok x' -> K x' /\ snd x' = snd x.
Proof.
  destruct r as (y & p), x as (h & vs). intros Hx Hv Hz. unfold push. simpl in Hz.
  destruct (at_place (y, p) (h, vs)) as [((h1 & vs1) & a)| | |] eqn:E; try discriminate. cbn [obind].
  destruct (place_apart (y, _) _ _ _ Hx Hz E) as (A1 & A2 & A3). simpl in A3, A2. subst vs1.
  assert (L : length h <= length h1).
  { unfold at_place in E. simpl in E. destruct (nth_error vs y) as [b|] eqn:Ey; [|discriminate]. destruct (walk p h b) as [(h2 & d)| | |] eqn:W; try discriminate.
    cbn [obind] in E. apply ok_inj in E. injection E as -> ->.
    destruct (walk_apart _ _ _ _ _ (proj1 Hx) (proj2 Hx _ _ Hz Ey) W) as (_ & _ & L). exact L. }
  destruct (nth_error h1 a) as [c|] eqn:Ec; [|discriminate]. pose proof (H_kids _ _ _ (proj1 A1) A2 Ec) as Fk.
  destruct c as [t|l|l]; try discriminate. intros G. apply ok_inj in G as ->. split; auto. apply K_upd; auto. simpl. rewrite Forall_app. split; auto.
  constructor; auto. eapply oka_ext; eauto.
Qed.
Lemma merged_kids {A} (m : list (key * A)) : forall l y, In y (map snd (merged l m)) -> In y (map snd l) \/ In y (map snd m).
Proof.
  unfold merged. induction m as [|(k & v) m IH]; simpl; auto. intros l y I. apply IH in I as [I|I]; auto. apply set_kids in I as [I| ->]; auto.
Qed.
Lemma step_apart f o x x' : K x -> match z with Some v => without v o | None => True end -> step f o x = Ok x' ->
  K x' /\ length (snd x') = length (snd x) /\ forall y, z = Some y -> nth_error (snd x') y = nth_error (snd x) y.
Proof.
  intros Hx Hz. destruct o as [r s|r s|u d a b]; unfold step.
  - destruct (eval f s x) as [(x1 & v)| | |] eqn:E; try discriminate. cbn [obind]. intros G.
    destruct (eval_apart f s x x1 v Hx) as (A1 & A2 & A3); [destruct z, s; simpl in *; tauto|exact E|]. rewrite <- A3.
    apply assign_apart with r v; auto. destruct z; simpl in *; [|congruence]. destruct Hz. congruence.
  - destruct (eval f s x) as [(x1 & v)| | |] eqn:E; try discriminate. cbn [obind]. intros G.
    destruct (eval_apart f s x x1 v Hx) as (A1 & A2 & A3); [destruct z, s; simpl in *; tauto|exact E|]. rewrite <- A3.
    apply push_apart in G as (A & B); auto; [rewrite B; auto|]. destruct z; simpl in *; [|congruence]. destruct Hz. congruence.
  - assert (Za : z <> Some (fst a)) by (destruct z; simpl in *; [destruct Hz as (? & ? & ?)|]; congruence).
    assert (Zb : z <> Some (fst b)) by (destruct z; simpl in *; [destruct Hz as (? & ? & ?)|]; congruence).
    destruct (at_place a x) as [(x1 & v)| | |] eqn:E; try discriminate. cbn [obind].
    destruct (place_apart _ _ _ _ Hx Za E) as (A1 & A2 & A3).
    destruct (at_place b x1) as [(x2 & w)| | |] eqn:E2; try discriminate. cbn [obind].
    destruct (place_apart _ _ _ _ A1 Zb E2) as (B1 & B2 & B3).
    unfold merge. destruct (nth_error (fst x2) v) as [c1|] eqn:Ec1; [|discriminate]. destruct (nth_error (fst x2) w) as [c2|] eqn:Ec2; [|now destruct c1].
    assert (Lx : oka (fst x2) v) by (split; [apply A2|]; apply nth_error_Some; congruence).
    pose proof (H_kids _ _ _ (proj1 B1) Lx Ec1) as F1. pose proof (H_kids _ _ _ (proj1 B1) B2 Ec2) as F2.
    destruct c1 as [|l1|l1]; try discriminate; destruct c2 as [|l2|l2]; try discriminate. cbn [obind].
    assert (F : Forall (oka (fst x2)) (kids (CO (merged l1 l2)))).
    { apply Forall_forall. simpl. intros y Hy. rewrite Forall_forall in F1, F2. apply merged_kids in Hy as [?|?]; auto. }
    assert (D : forall h w0, (if d then clone_with (clone f) (fst x2) (CO (merged l1 l2)) else Ok (alloc (fst x2) (CO (merged l1 l2)))) = Ok (h, w0) ->
      H h /\ oka h w0 /\ length (fst x2) <= length h).
    { destruct d; intros h w0 G.
      - exact (clone_with_apart _ _ _ _ _ (clone_apart f) (proj1 B1) F G).
      - apply ok_inj in G. injection G as -> ->. destruct (H_alloc (fst x2) _ (proj1 B1) F) as (P & Q). split; auto. split; auto. rewrite app_length. lia. }
    destruct (if d then _ else _) as [(h & w0)| | |]; try discriminate. cbn [obind]. destruct (D h w0 eq_refl) as (P & Q & R). intros G.
    rewrite <- A3, <- B3. change (snd x2) with (snd (h, snd x2)). apply assign_apart with (u, []) w0; auto.
    + destruct x2. eapply K_heap; eauto.
    + simpl. destruct z; simpl in *; [destruct Hz as (? & ? & ?)|]; congruence.
Qed.
Lemma run_apart f p : forall x x', K x -> Forall (fun o => match z with Some v => without v o | None => True end) p -> run f p x = Ok x' ->
  K x' /\ length (snd x') = length (snd x) /\ forall y, z = Some y -> nth_error (snd x') y = nth_error (snd x) y.
Proof.
  induction p as [|o p IH]; cbn [run]; intros x x' Hx F E; [apply ok_inj in E as ->; auto|]. inversion F; subst.
  destruct (step f o x) as [x1| | |] eqn:E1; try discriminate. cbn [obind] in E.
  destruct (step_apart f o x x1 Hx ltac:(assumption) E1) as (A1 & A2 & A3). destruct (IH x1 x' A1 ltac:(assumption) E) as (B1 & B2 & B3).
  split; auto. split; [congruence|]. intros y Hy. rewrite B3, A3; auto.
Qed.
End apart.

(** * A clone shares nothing *)
Definition within (n m : nat) (l : list addr) : Prop := Forall (fun y => n <= y < m) l.
Lemma within_imp n m n' m' l : n' <= n -> m <= m' -> within n m l -> within n' m' l.
Proof. intros A B. apply Forall_impl. intros; lia. Qed.
Lemma clones_new (c : heap -> addr -> outcome (heap * addr)) :
  (forall h a h' b, c h a = Ok (h', b) -> exists new, h' = h ++ new /\ within (length h) (length h') (b :: slots new)) ->
  forall l h h' m, clones c h l = Ok (h', m) -> exists new, h' = h ++ new /\ within (length h) (length h') (m ++ slots new).
Proof.
  intros Hc. induction l as [|a l IH]; simpl; intros h h' m E.
  - apply ok_inj in E. injection E as -> ->. exists []. rewrite app_nil_r. split; auto. constructor.
  - destruct (c h a) as [(h1 & b)| | |] eqn:E1; try discriminate. cbn [obind] in E.
    destruct (clones c h1 l) as [(h2 & m2)| | |] eqn:E2; try discriminate. cbn [obind] in E. apply ok_inj in E. injection E as -> ->.
    destruct (Hc _ _ _ _ E1) as (n1 & -> & W1). destruct (IH _ _ _ E2) as (n2 & -> & W2). exists (n1 ++ n2). rewrite app_assoc. split; auto.
    assert (L1 : length h <= length (h ++ n1)) by (rewrite app_length; lia). assert (L2 : length (h ++ n1) <= length ((h ++ n1) ++ n2)) by (rewrite (app_length (h ++ n1)); lia).
    apply within_imp with (n' := length h) (m' := length ((h ++ n1) ++ n2)) in W1; auto. apply within_imp with (n' := length h) (m' := length ((h ++ n1) ++ n2)) in W2; auto.
    unfold within in *. rewrite slots_app. inversion W1; subst. simpl. constructor; auto. rewrite !Forall_app in *. tauto.
Qed.
Lemma clone_with_new c h x h' b :
  (forall h a h' b, c h a = Ok (h', b) -> exists new, h' = h ++ new /\ within (length h) (length h') (b :: slots new)) ->
  clone_with c h x = Ok (h', b) -> exists new, h' = h ++ new /\ within (length h) (length h') (b :: slots new).
Proof.
  intros Hc. assert (G : forall m h1 y, clones c h m = Ok (h1, kids y) \/ (exists m', clones c h m = Ok (h1, m') /\ incl (kids y) m') -> Ok (alloc h1 y) = Ok (h', b) ->
    exists new, h' = h ++ new /\ within (length h) (length h') (b :: slots new)).
  { intros m h1 y E E'. apply ok_inj in E'. injection E' as -> ->.
    assert (E' : exists m', clones c h m = Ok (h1, m') /\ incl (kids y) m') by (destruct E; [eexists; split; [eauto|apply incl_refl]|auto]).
    destruct E' as (m' & E1 & I). destruct (clones_new c Hc _ _ _ _ E1) as (new & -> & W). exists (new ++ [y]). rewrite app_assoc. split; auto.
    unfold within in *. rewrite slots_app. rewrite Forall_app in W. destruct W as (W1 & W2). unfold slots at 2. simpl. rewrite app_nil_r.
    rewrite (app_length (h ++ new)), app_length in *. simpl. constructor; [lia|]. rewrite Forall_app. split.
    - eapply Forall_impl; [|exact W2]. simpl. intros; lia.
    - apply Forall_forall. intros u Hu. apply I in Hu. rewrite Forall_forall in W1. apply W1 in Hu. lia. }
  destruct x as [s|l|l]; simpl.
  - intros E. apply (G [] h (CS s)); auto.
  - destruct (clones c h l) as [(h1 & m)| | |] eqn:E; try discriminate. cbn [obind]. apply (G l h1 (CA m)). auto.
  - destruct (clones c h (map snd l)) as [(h1 & m)| | |] eqn:E; try discriminate. cbn [obind]. apply (G (map snd l) h1). right. exists m. split; auto.
    intros y Hy. eapply combine_snd_in; eauto.
Qed.
Lemma clone_new f : forall h a h' b, clone f h a = Ok (h', b) -> exists new, h' = h ++ new /\ within (length h) (length h') (b :: slots new).
Proof.
  induction f as [|f IH]; simpl; [discriminate|]. intros h a h' b. destruct (nth_error h a); [|discriminate]. now apply clone_with_new.
Qed.
Definition wf (h : heap) : Prop := Forall (fun y => y < length h) (slots h).
Lemma val_shrink h m a t : wf h -> a < length h -> val (h ++ m) a t -> val h a t.
Proof.
  intros W L. apply (val_frame (h ++ m) h (fun y => y < length h)) with (n := size t); auto.
  intros b c Hb E. rewrite nth_error_app1 in E by auto. split; auto. apply Forall_forall. intros y Hy. unfold wf in W. rewrite Forall_forall in W. apply W. eapply slots_in; eauto.
Qed.
Lemma wf_new h new b : wf h -> within (length h) (length (h ++ new)) (b :: slots new) -> wf (h ++ new).
Proof.
  intros W N. unfold wf, within in *. inversion N; subst. rewrite slots_app, Forall_app. split.
  - eapply Forall_impl; [|exact W]. simpl. intros. rewrite app_length. lia.
  - eapply Forall_impl; [|eassumption]. simpl. intros; lia.
Qed.
Lemma clones_val f : (forall h a r, wf h -> a < length h -> clone f h a = Ok r -> exists t, val h a t) ->
  forall l h r, wf h -> Forall (fun y => y < length h) l -> clones (clone f) h l = Ok r -> exists ts, Forall2 (val h) l ts.
Proof.
  intros Hc. induction l as [|a l IH]; intros h r W F E; [exists []; constructor|]. inversion F as [|? ? Fa Fl]; subst. simpl in E.
  destruct (clone f h a) as [(h1 & b)| | |] eqn:E1; try discriminate. cbn [obind] in E.
  destruct (Hc _ _ _ W Fa E1) as (t & V). destruct (clone_new _ _ _ _ _ E1) as (n1 & -> & N).
  destruct (clones (clone f) (h ++ n1) l) as [p| | |] eqn:E2; try discriminate.
  assert (F1 : Forall (fun y => y < length (h ++ n1)) l) by (eapply Forall_impl; [|eassumption]; simpl; intros; rewrite app_length; lia).
  destruct (IH _ _ (wf_new _ _ _ W N) F1 E2) as (ts & Vs). exists (t :: ts). constructor; auto.
  apply F2_imp with (2 := Vs). intros x y Hx _. apply val_shrink; auto. rewrite Forall_forall in *. auto.
Qed.
Lemma clone_val f : forall h a r, wf h -> a < length h -> clone f h a = Ok r -> exists t, val h a t.
Proof.
  induction f as [|f IH]; simpl; [discriminate|]. intros h a r W L. destruct (nth_error h a) as [x|] eqn:Ex; [|discriminate].
  assert (F : Forall (fun y => y < length h) (kids x)).
  { apply Forall_forall. intros y Hy. unfold wf in W. rewrite Forall_forall in W. apply W. eapply slots_in; eauto. }
  destruct x as [s|l|l]; simpl.
  - intros _. exists (JS s). eexists; eauto. constructor.
  - destruct (clones (clone f) h l) as [p| | |] eqn:E; try discriminate. intros _. destruct (clones_val f IH l h p W F E) as (ts & Fts).
    exists (JA ts). eexists; eauto. now constructor.
  - destruct (clones (clone f) h (map snd l)) as [p| | |] eqn:E; try discriminate. intros _. destruct (clones_val f IH _ h p W F E) as (ts & Fts).
    exists (JO (combine (map fst l) ts)). eexists; eauto. constructor. clear - Fts. revert ts Fts. induction l as [|(k & y) l IH]; intros ts Fts; inversion Fts; subst; simpl; constructor; auto.
Qed.
Lemma clone_same f h a h' b : wf h -> a < length h -> clone f h a = Ok (h', b) -> exists t, val h a t /\ val h' b t.
Proof.
  intros W L E. destruct (clone_val f h a _ W L E) as (t & V). exists t. split; auto.
  destruct (clone_ok (size t) (Nat.max f (size t)) t h a (le_n _) (Nat.le_max_r _ _) V) as (new & b' & E' & V' & _).
  rewrite (clone_mono f (Nat.max f (size t)) (Nat.le_max_l _ _) _ _ _ E) in E'. apply ok_inj in E'. injection E' as <- <-. auto.
Qed.
Lemma K_wf x : K 0 0 None [] x <-> wf (fst x) /\ Forall (fun y => y < length (fst x)) (snd x).
Proof.
  unfold K, H, oka, inside, wf. split.
  - intros ((_ & _ & H3) & V). split; apply Forall_forall; intros y Hy.
    + apply in_flat_map in Hy as (c & Hc & Hy). apply In_nth_error in Hc as (b & Eb). assert (F : Forall (fun y => ~ 0 <= y < 0 /\ y < length (fst x)) (kids c)) by (apply (H3 b); auto; lia).
      rewrite Forall_forall in F. now apply F.
    + apply In_nth_error in Hy as (i & Ei). apply (V i y); auto. discriminate.
  - intros (W & V). split; [split; [lia|split]|].
    + intros; lia.
    + intros b c _ E. apply Forall_forall. intros y Hy. split; [lia|]. rewrite Forall_forall in W. apply W. eapply slots_in; eauto.
    + intros y a _ E. split; [lia|]. rewrite Forall_forall in V. apply V. eapply nth_error_In; eauto.
Qed.
Lemma init_wf n : K 0 0 None [] (init n).
Proof.
  apply K_wf. pose proof (init_inv n) as (_ & B & V). split; auto. clear B. induction V; constructor; auto. eapply val_lt; eauto.
Qed.
Theorem clone_apart_run f n p x z r x1 q x2 : run f p (init n) = Ok x -> step f (Put (z, []) (Clone r)) x = Ok x1 -> Forall (without z) q -> run f q x1 = Ok x2 ->
  exists y a t, at_place r x = Ok (y, a) /\ val (fst y) a t /\ value x1 z t /\ value x2 z t.
Proof.
  intros R S Q R2. destruct (run_apart 0 0 None [] f p (init n) x (init_wf n)) as (Kx & _); auto; [clear; induction p; constructor; auto|].
  unfold step, eval in S. destruct (at_place r x) as [(y & a)| | |] eqn:E; try discriminate. cbn [obind] in S.
  destruct (place_apart 0 0 None [] r x y a Kx ltac:(discriminate) E) as (Ky & (_ & La) & Ev).
  destruct (clone f (fst y) a) as [(h' & b)| | |] eqn:Ec; try discriminate. cbn [obind] in S.
  apply K_wf in Ky as (W & Vy). destruct (clone_same f _ _ _ _ W La Ec) as (t & V & Vb).
  destruct (clone_new _ _ _ _ _ Ec) as (new & -> & N). destruct y as (h & vs). simpl in *.
  destruct (z <? length vs) eqn:Ez; [|discriminate]. apply ok_inj in S as ->. apply Nat.ltb_lt in Ez.
  assert (Vz : nth_error (upd z b vs) z = Some b) by now apply nth_upd_eq.
  assert (Nb : length h <= b < length (h ++ new)) by now inversion N.
  assert (Nn : within (length h) (length (h ++ new)) (slots new)) by now inversion N.
  exists (h, vs), a, t. split; auto. split; auto. split; [exists b; auto|].
  destruct (run_apart (length h) (length (h ++ new)) (Some z) (h ++ new) f q (h ++ new, upd z b vs) x2) as ((H2 & _) & _ & Ez2); auto.
  - split; simpl; [split; [lia|split]|]; auto.
    + intros c x0 Hc E0. unfold inside in Hc. assert (Lc : c < length (h ++ new)) by (apply nth_error_Some; congruence).
      rewrite nth_error_app1 in E0 by lia. apply Forall_forall. intros u Hu. unfold wf in W. rewrite Forall_forall in W.
      assert (u < length h) by (apply W; eapply slots_in; eauto). split; unfold inside; rewrite ?app_length; lia.
    + intros u c Hu Eu. rewrite nth_upd_ne in Eu by congruence. rewrite Forall_forall in Vy. assert (c < length h) by (apply Vy; eapply nth_error_In; eauto).
      split; unfold inside; rewrite ?app_length; lia.
  - exists b. split; [rewrite Ez2; auto|]. apply (val_frame (h ++ new) (fst x2) (inside (length h) (length (h ++ new)))) with (n := size t); auto.
    intros d c Hd E0. split.
    + destruct H2 as (_ & H2 & _). rewrite H2; auto.
    + apply Forall_forall. intros u Hu. unfold within in Nn. rewrite Forall_forall in Nn. apply Nn. unfold inside in Hd.
      rewrite nth_error_app2 in E0 by lia. eapply slots_in; eauto.
Qed.
(** Two variables with the same json *)
Lemma at_place_vars r x x' a : at_place r x = Ok (x', a) -> snd x' = snd x.
Proof.
  destruct x as (h & vs). unfold at_place. destruct (nth_error vs (fst r)); [|discriminate]. destruct (walk (snd r) h a0) as [(h1 & b)| | |]; try discriminate.
  cbn [obind]. intros E. apply ok_inj in E. now injection E as -> ->.
Qed.
Lemma step_keeps f o x x' z : keeps z o -> step f o x = Ok x' -> nth_error (snd x') z = nth_error (snd x) z.
Proof.
  assert (As : forall r v y y', (snd r = [] -> fst r <> z) -> assign r v y = Ok y' -> nth_error (snd y') z = nth_error (snd y) z).
  { intros (u & p) v (h & vs) y' Hr. unfold assign. destruct (rev p) as [|s q] eqn:Rp.
    - assert (p = []) by (destruct p; [auto|]; simpl in Rp; destruct (rev p); discriminate). subst p. simpl in Hr. specialize (Hr eq_refl).
      destruct (u <? length vs); [|discriminate]. intros E. apply ok_inj in E as ->. simpl. now apply nth_upd_ne.
    - destruct (at_place (u, rev q) (h, vs)) as [((h1 & vs1) & a)| | |] eqn:E; try discriminate. cbn [obind].
      apply at_place_vars in E. simpl in E. subst. destruct (put_slot s h1 a v); try discriminate. cbn [obind]. intros E. now apply ok_inj in E as ->. }
  assert (Ev : forall s y y' v, eval f s y = Ok (y', v) -> snd y' = snd y).
  { intros [l|r|r] y y' v; unfold eval.
    - intros E. apply ok_inj in E. now injection E as -> ->.
    - apply at_place_vars.
    - destruct (at_place r y) as [(y1 & a)| | |] eqn:E; try discriminate. cbn [obind]. destruct (clone f (fst y1) a) as [(h & b)| | |]; try discriminate. cbn [obind].
      intros E'. apply ok_inj in E'. injection E' as -> ->. simpl. eapply at_place_vars; eauto. }
  intros Hk. destruct o as [r s|r s|u d a b]; unfold step.
  - destruct (eval f s x) as [(y & v)| | |] eqn:E; try discriminate. cbn [obind]. intros E'. rewrite <- (Ev _ _ _ _ E). eapply As; eauto.
    destruct r as (u & p). simpl in *. now intros ->.
  - destruct (eval f s x) as [(y & v)| | |] eqn:E; try discriminate. cbn [obind]. intros E'. rewrite <- (Ev _ _ _ _ E). unfold push in E'.
    destruct (at_place r y) as [((h & vs) & a)| | |] eqn:E1; try discriminate. cbn [obind] in E'. apply at_place_vars in E1. rewrite <- E1.
    destruct (nth_error h a) as [[|l|l]|]; try discriminate. now apply ok_inj in E' as ->.
  - destruct (at_place a x) as [(y & v)| | |] eqn:E; try discriminate. cbn [obind]. apply at_place_vars in E. rewrite <- E. clear E.
    destruct (at_place b y) as [(y1 & w)| | |] eqn:E; try discriminate. cbn [obind]. apply at_place_vars in E. rewrite <- E. clear E.
    destruct (merge (fst y1) v w); try discriminate. cbn [obind]. destruct (if d then _ else _) as [(h & u0)| | |]; try discriminate. cbn [obind].
    intros E. apply As in E; auto.
Qed.
Lemma run_keeps f p z : forall x x', Forall (keeps z) p -> run f p x = Ok x' -> nth_error (snd x') z = nth_error (snd x) z.
Proof.
  induction p as [|o p IH]; cbn [run]; intros x x' F E; [apply ok_inj in E as ->; auto|]. inversion F; subst.
  destruct (step f o x) as [x1| | |] eqn:E1; try discriminate. cbn [obind] in E. rewrite (IH _ _ ltac:(assumption) E). eapply step_keeps; eauto.
Qed.
