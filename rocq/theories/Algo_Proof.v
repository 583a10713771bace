From Verif Require Import Common CommonLemmas Algo_Model Algo_Spec.

Section Tables.
  Variable A : Type.
  Variable aeq : forall a b : A, {a = b} + {a <> b}.

  (** ** Edit distance *)
  (** Distance on reversed prefixes. *)
  Fixpoint dist (a : list A) : list A -> nat :=
    fix go (b : list A) :=
      match a, b with
      | [], _ => length b
      | _, [] => length a
      | x :: a', y :: b' => Nat.min (dist a' b' + (if aeq x y then 0 else 1)) (Nat.min (dist a' b) (go b') + 1)
      end.
  Lemma dist_nil_l b : dist [] b = length b.
  Proof. destruct b; reflexivity. Qed.
  Lemma dist_nil_r a : dist a [] = length a.
  Proof. destruct a; reflexivity. Qed.
  Lemma dist_cons x a y b :
    dist (x :: a) (y :: b) = Nat.min (dist a b + (if aeq x y then 0 else 1)) (Nat.min (dist a (y :: b)) (dist (x :: a) b) + 1).
  Proof. reflexivity. Qed.
  Arguments dist : simpl never.

  Inductive al : list A -> list A -> nat -> Prop :=
    | al_nil : al [] [] 0
    | al_match x a b n : al a b n -> al (x :: a) (x :: b) n
    | al_sub x y a b n : al a b n -> al (x :: a) (y :: b) (S n)
    | al_del x a b n : al a b n -> al (x :: a) b (S n)
    | al_ins y a b n : al a b n -> al a (y :: b) (S n).

  Lemma al_len_l b : al [] b (length b).
  Proof. induction b; cbn; constructor; auto. Qed.
  Lemma al_len_r a : al a [] (length a).
  Proof. induction a; cbn; constructor; auto. Qed.
  Lemma al_dist a : forall b, al a b (dist a b).
  Proof.
    induction a as [|x a IH]; [intros b; rewrite dist_nil_l; apply al_len_l|].
    induction b as [|y b IHb]; [rewrite dist_nil_r; apply al_len_r|].
    rewrite dist_cons.
    destruct (Nat.min_spec (dist a b + (if aeq x y then 0 else 1)) (Nat.min (dist a (y :: b)) (dist (x :: a) b) + 1)) as [[_ ->]|[_ ->]].
    - destruct (aeq x y) as [<-|]; [rewrite Nat.add_0_r; apply al_match, IH|rewrite Nat.add_1_r; apply al_sub, IH].
    - rewrite Nat.add_1_r. destruct (Nat.min_spec (dist a (y :: b)) (dist (x :: a) b)) as [[_ ->]|[_ ->]].
      + apply al_del, IH.
      + apply al_ins, IHb.
  Qed.
  Lemma dist_del x a b : dist (x :: a) b <= S (dist a b).
  Proof. destruct b as [|y b]; [rewrite !dist_nil_r; cbn; lia|rewrite dist_cons; lia]. Qed.
  Lemma dist_ins y a b : dist a (y :: b) <= S (dist a b).
  Proof. destruct a as [|x a]; [rewrite !dist_nil_l; cbn; lia|rewrite dist_cons; lia]. Qed.
  Lemma dist_least a b n : al a b n -> dist a b <= n.
  Proof.
    induction 1 as [|x a b n H IH|x y a b n H IH|x a b n H IH|y a b n H IH].
    - rewrite dist_nil_l. cbn. lia.
    - rewrite dist_cons. destruct (aeq x x); [lia|congruence].
    - rewrite dist_cons. destruct (aeq x y); lia.
    - pose proof (dist_del x a b). lia.
    - pose proof (dist_ins y a b). lia.
  Qed.

  (** Single edits and alignments *)
  Lemma edit1_cons (x : A) a b : edit1 a b -> edit1 (x :: a) (x :: b).
  Proof.
    intros (p & s & y & z & H). exists (x :: p), s, y, z.
    destruct H as [[-> ->]|[[-> ->]|[-> ->]]]; cbn; auto.
  Qed.
  Lemma edits_cons (x : A) n : forall a b, edits n a b -> edits n (x :: a) (x :: b).
  Proof.
    induction n as [|n IH]; cbn; intros a b; [congruence|]. intros (c & H1 & H2). exists (x :: c). auto using edit1_cons.
  Qed.
  Lemma edits_tail n : forall a b c : list A, edit1 a b -> edits n b c -> edits (S n) a c.
  Proof.
    induction n as [|n IH]; intros a b c H1 H2.
    - cbn in *. subst. exists a. auto.
    - destruct H2 as (d & H2 & H3). exists d. split; [|exact H3]. now apply (IH a b d).
  Qed.
  Lemma al_edits a b n : al a b n -> edits n a b.
  Proof.
    induction 1 as [|x a b n H IH|x y a b n H IH|x a b n H IH|y a b n H IH].
    - reflexivity.
    - now apply edits_cons.
    - apply (edits_tail n (x :: a) (y :: a)); [|now apply edits_cons]. exists [], a, x, y. left. auto.
    - apply (edits_tail n (x :: a) a); [|exact IH]. exists [], a, x, x. right. right. auto.
    - exists b. split; [exact IH|]. exists [], b, y, y. right. left. auto.
  Qed.

  Lemma al_refl a : al a a 0.
  Proof. induction a; constructor; auto. Qed.
  (** An alignment with [p ++ t] splits. *)
  Lemma al_edit a b n c : al a b n -> edit1 b c -> exists m, m <= S n /\ al a c m.
  Proof.
    intros H (p & s & x & y & E). revert c p E.
    induction H as [|z a b n H IH|z w a b n H IH|z a b n H IH|w a b n H IH]; intros c p E.
    - destruct E as [[E _]|[[E ->]|[E _]]]; [destruct p; discriminate| |destruct p; discriminate].
      destruct p; [|discriminate]. cbn in E. subst s. exists 1. split; [lia|]. cbn. repeat constructor.
    - destruct p as [|v p]; cbn in E.
      + destruct E as [[E ->]|[[E ->]|[E ->]]].
        * injection E as -> ->. exists (S n). split; [lia|]. now constructor.
        * subst s. exists (S n). split; [lia|]. now constructor; constructor.
        * injection E as -> ->. exists (S n). split; [lia|]. now constructor.
      + assert (K : exists c', c = z :: c' /\ (b = p ++ x :: s /\ c' = p ++ y :: s \/ b = p ++ s /\ c' = p ++ y :: s \/ b = p ++ x :: s /\ c' = p ++ s)).
        { destruct E as [[E ->]|[[E ->]|[E ->]]]; injection E as -> ->; eexists; (split; [reflexivity|]); auto. }
        destruct K as (c' & -> & K). destruct (IH c' p K) as (m & Hm & Hal). exists m. split; [lia|]. now constructor.
    - destruct p as [|v p]; cbn in E.
      + destruct E as [[E ->]|[[E ->]|[E ->]]].
        * injection E as -> ->. exists (S n). split; [lia|]. now constructor.
        * subst s. exists (S (S n)). split; [lia|]. now apply al_ins, al_sub.
        * injection E as -> ->. exists (S n). split; [lia|]. now constructor.
      + assert (K : exists c', c = w :: c' /\ (b = p ++ x :: s /\ c' = p ++ y :: s \/ b = p ++ s /\ c' = p ++ y :: s \/ b = p ++ x :: s /\ c' = p ++ s)).
        { destruct E as [[E ->]|[[E ->]|[E ->]]]; injection E as -> ->; eexists; (split; [reflexivity|]); auto. }
        destruct K as (c' & -> & K). destruct (IH c' p K) as (m & Hm & Hal). exists (S m). split; [lia|]. now constructor.
    - destruct (IH c p E) as (m & Hm & Hal). exists (S m). split; [lia|]. now constructor.
    - destruct p as [|v p]; cbn in E.
      + destruct E as [[E ->]|[[E ->]|[E ->]]].
        * injection E as -> ->. exists (S n). split; [lia|]. now constructor.
        * subst s. exists (S (S n)). split; [lia|]. now apply al_ins, al_ins.
        * injection E as -> ->. exists n. split; [lia|]. assumption.
      + assert (K : exists c', c = w :: c' /\ (b = p ++ x :: s /\ c' = p ++ y :: s \/ b = p ++ s /\ c' = p ++ y :: s \/ b = p ++ x :: s /\ c' = p ++ s)).
        { destruct E as [[E ->]|[[E ->]|[E ->]]]; injection E as -> ->; eexists; (split; [reflexivity|]); auto. }
        destruct K as (c' & -> & K). destruct (IH c' p K) as (m & Hm & Hal). exists (S m). split; [lia|]. now constructor.
  Qed.
  Lemma edits_al n : forall a b, edits n a b -> exists m, m <= n /\ al a b m.
  Proof.
    induction n as [|n IH]; intros a b H.
    - cbn in H. subst. exists 0. split; [lia|apply al_refl].
    - destruct H as (c & H1 & H2). destruct (IH a c H1) as (m & Hm & Hal).
      destruct (al_edit a c m b Hal H2) as (m' & Hm' & Hal'). exists m'. split; [lia|assumption].
  Qed.

  Lemma edit1_rev (a b : list A) : edit1 a b -> edit1 (rev a) (rev b).
  Proof.
    intros (p & s & x & y & H). exists (rev s), (rev p), x, y.
    destruct H as [[-> ->]|[[-> ->]|[-> ->]]]; rewrite !rev_app_distr; cbn; rewrite <- ?app_assoc; cbn; auto.
  Qed.
  Lemma edits_rev n : forall a b : list A, edits n a b -> edits n (rev a) (rev b).
  Proof.
    induction n as [|n IH]; intros a b; cbn; [congruence|]. intros (c & H1 & H2). exists (rev c). auto using edit1_rev.
  Qed.

  Lemma dist_least_edits a b : least_edits a b (dist (rev a) (rev b)).
  Proof.
    split.
    - pose proof (edits_rev _ _ _ (al_edits _ _ _ (al_dist (rev a) (rev b)))) as H. now rewrite !rev_involutive in H.
    - intros m H. apply edits_rev, edits_al in H as (k & Hk & H). apply dist_least in H. lia.
  Qed.

  (** The rows of the table *)
  Fixpoint row (f : list A -> nat) (rb b : list A) : list nat :=
    f rb :: match b with [] => [] | y :: b' => row f (y :: rb) b' end.
  Definition tail_row (f : list A -> nat) (rb b : list A) : list nat :=
    match b with [] => [] | y :: b' => row f (y :: rb) b' end.
  Lemma row_eq f rb b : row f rb b = f rb :: tail_row f rb b.
  Proof. destruct b; reflexivity. Qed.

  Lemma ed_row_ok x ra : forall b rb,
    ed_row A aeq x (dist (x :: ra) rb) (dist ra rb) (tail_row (dist ra) rb b) b = Ok (tail_row (dist (x :: ra)) rb b).
  Proof.
    induction b as [|y b IH]; intros rb; [reflexivity|].
    cbn [tail_row]. rewrite row_eq. cbn [ed_row]. cbv zeta. specialize (IH (y :: rb)). rewrite dist_cons in IH. rewrite IH. cbn [obind].
    rewrite (row_eq (dist (x :: ra))), dist_cons. reflexivity.
  Qed.
  Lemma ed_rows_ok b : forall a ra, ed_rows A aeq (S (length ra)) a b (row (dist ra) [] b) = Ok (row (dist (rev a ++ ra)) [] b).
  Proof.
    induction a as [|x a IH]; intros ra; [reflexivity|].
    cbn [ed_rows]. rewrite row_eq. pose proof (ed_row_ok x ra b []) as H. rewrite (dist_nil_r (x :: ra)) in H. cbn [length] in H.
    rewrite H. cbn [obind]. specialize (IH (x :: ra)). rewrite row_eq, dist_nil_r in IH. cbn [length] in IH. rewrite IH.
    cbn [rev]. now rewrite <- app_assoc.
  Qed.
  Lemma row_last f : forall b rb, nth_error (row f rb b) (length b) = Some (f (rev b ++ rb)).
  Proof.
    induction b as [|y b IH]; intros rb; [reflexivity|]. cbn [row length nth_error]. rewrite IH. cbn [rev]. now rewrite <- app_assoc.
  Qed.
  Lemma row_nil : forall b rb, row (dist []) rb b = seq (length rb) (S (length b)).
  Proof.
    induction b as [|y b IH]; intros rb; cbn [row]; rewrite dist_nil_l; [reflexivity|]. rewrite IH. reflexivity.
  Qed.

  Theorem edit_distance_ok a b : exists n, edit_distance A aeq a b = Ok n /\ least_edits a b n.
  Proof.
    exists (dist (rev a) (rev b)). split; [|apply dist_least_edits].
    unfold edit_distance. pose proof (ed_rows_ok b a []) as H. rewrite row_nil in H. cbn [length] in H.
    rewrite H. cbn [obind]. unfold last_of. rewrite row_last. now rewrite !app_nil_r.
  Qed.

  (** ** Longest common subsequence *)
  Fixpoint lcs (a : list A) : list A -> nat :=
    fix go (b : list A) :=
      match a, b with
      | x :: a', y :: b' => Nat.max (lcs a' b' + (if aeq x y then 1 else 0)) (Nat.max (lcs a' b) (go b'))
      | _, _ => 0
      end.
  Lemma lcs_nil_l b : lcs [] b = 0.
  Proof. destruct b; reflexivity. Qed.
  Lemma lcs_nil_r a : lcs a [] = 0.
  Proof. destruct a; reflexivity. Qed.
  Lemma lcs_cons x a y b :
    lcs (x :: a) (y :: b) = Nat.max (lcs a b + (if aeq x y then 1 else 0)) (Nat.max (lcs a (y :: b)) (lcs (x :: a) b)).
  Proof. reflexivity. Qed.
  Arguments lcs : simpl never.

  Lemma subseq_nil {B} (l : list B) : subseq [] l.
  Proof. induction l; constructor; auto. Qed.
  Lemma subseq_nil_r {B} (s : list B) : subseq s [] -> s = [].
  Proof. inversion 1. reflexivity. Qed.
  Lemma subseq_tl {B} (x : B) s l : subseq (x :: s) l -> subseq s l.
  Proof.
    intros H. remember (x :: s) as r eqn:E. revert x s E. induction H; intros; [discriminate| |].
    - injection E as -> ->. now constructor.
    - constructor. eapply IHsubseq; eassumption.
  Qed.

  Lemma lcs_ex a : forall b, exists s, subseq s a /\ subseq s b /\ length s = lcs a b.
  Proof.
    induction a as [|x a IH]; [intros b; exists []; rewrite lcs_nil_l; auto using subseq_nil|].
    induction b as [|y b IHb]; [exists []; rewrite lcs_nil_r; auto using subseq_nil|].
    rewrite lcs_cons.
    destruct (Nat.max_spec (lcs a b + (if aeq x y then 1 else 0)) (Nat.max (lcs a (y :: b)) (lcs (x :: a) b))) as [[_ ->]|[_ ->]].
    - destruct (Nat.max_spec (lcs a (y :: b)) (lcs (x :: a) b)) as [[_ ->]|[_ ->]].
      + destruct IHb as (s & H1 & H2 & H3). exists s. split; [exact H1|]. split; [now constructor|exact H3].
      + destruct (IH (y :: b)) as (s & H1 & H2 & H3). exists s. split; [now constructor|]. split; [exact H2|exact H3].
    - destruct (IH b) as (s & H1 & H2 & H3). destruct (aeq x y) as [<-|].
      + exists (x :: s). split; [now constructor|]. split; [now constructor|]. cbn. lia.
      + exists s. split; [now constructor|]. split; [now constructor|]. lia.
  Qed.
  Lemma lcs_most a : forall b s, subseq s a -> subseq s b -> length s <= lcs a b.
  Proof.
    induction a as [|x a IH]; [intros b s H _; apply subseq_nil_r in H as ->; cbn; lia|].
    induction b as [|y b IHb]; intros s H1 H2; [apply subseq_nil_r in H2 as ->; cbn; lia|].
    rewrite lcs_cons. inversion H1 as [|z s' l Ha|z s' l Ha]; subst.
    - inversion H2 as [|z s'' l Hb|z s'' l Hb]; subst.
      + destruct (aeq y y); [|congruence]. pose proof (IH b s' Ha Hb). cbn [length]. lia.
      + pose proof (IHb (x :: s') H1 Hb). lia.
    - pose proof (IH (y :: b) s Ha H2). lia.
  Qed.

  Lemma lcs_row_ok x ra : forall b rb,
    lcs_row A aeq x (lcs (x :: ra) rb) (lcs ra rb) (tail_row (lcs ra) rb b) b = Ok (tail_row (lcs (x :: ra)) rb b).
  Proof.
    induction b as [|y b IH]; intros rb; [reflexivity|].
    cbn [tail_row]. rewrite row_eq. cbn [lcs_row]. cbv zeta. specialize (IH (y :: rb)). rewrite lcs_cons in IH. rewrite IH. cbn [obind].
    rewrite (row_eq (lcs (x :: ra))), lcs_cons. reflexivity.
  Qed.
  Lemma lcs_rows_ok b : forall a ra, lcs_rows A aeq a b (row (lcs ra) [] b) = Ok (row (lcs (rev a ++ ra)) [] b).
  Proof.
    induction a as [|x a IH]; intros ra; [reflexivity|].
    cbn [lcs_rows]. rewrite row_eq. pose proof (lcs_row_ok x ra b []) as H. rewrite (lcs_nil_r (x :: ra)) in H.
    rewrite H. cbn [obind]. specialize (IH (x :: ra)). rewrite row_eq, lcs_nil_r in IH. rewrite IH.
    cbn [rev]. now rewrite <- app_assoc.
  Qed.
  Lemma row_lcs_nil : forall b rb, row (lcs []) rb b = repeat 0 (S (length b)).
  Proof. induction b as [|y b IH]; intros rb; cbn [row]; rewrite lcs_nil_l; [reflexivity|]. rewrite IH. reflexivity. Qed.

  Lemma subseq_app {B} (s1 l1 s2 l2 : list B) : subseq s1 l1 -> subseq s2 l2 -> subseq (s1 ++ s2) (l1 ++ l2).
  Proof. induction 1; intros; cbn; [assumption|constructor; auto|constructor; auto]. Qed.
  Lemma subseq_rev {B} (s l : list B) : subseq s l -> subseq (rev s) (rev l).
  Proof.
    induction 1; cbn; [constructor| |].
    - apply subseq_app; [assumption|]. repeat constructor.
    - rewrite <- (app_nil_r (rev s)). apply subseq_app; [assumption|]. repeat constructor.
  Qed.

  Theorem lcs_ok a b : exists n, longest_common_subsequence A aeq a b = Ok n /\ longest_common a b n.
  Proof.
    exists (lcs (rev a) (rev b)). split.
    - unfold longest_common_subsequence. pose proof (lcs_rows_ok b a []) as H. rewrite row_lcs_nil in H.
      rewrite H. cbn [obind]. unfold last_of. rewrite row_last. now rewrite !app_nil_r.
    - split.
      + destruct (lcs_ex (rev a) (rev b)) as (s & H1 & H2 & H3). exists (rev s).
        apply subseq_rev in H1, H2. rewrite rev_involutive in H1, H2. rewrite rev_length. auto.
      + intros s H1 H2. rewrite <- rev_length. apply lcs_most; now apply subseq_rev.
  Qed.
End Tables.

(** ** Longest increasing subsequence *)
Local Open Scope Z_scope.
Definition sorted_tbl (tbl : list Z) : Prop := forall i j, (i <= j)%nat -> (j < length tbl)%nat -> nth i tbl 0 <= nth j tbl 0.

Lemma lower_bound_loop_ok tbl x : sorted_tbl tbl -> forall fuel first len,
  (len <= fuel)%nat -> (first + len <= length tbl)%nat ->
  (forall i, (i < first)%nat -> nth i tbl 0 < x) -> (forall i, (first + len <= i < length tbl)%nat -> x <= nth i tbl 0) ->
  exists k, lower_bound_loop fuel tbl x first len = Ok k /\ (k <= length tbl)%nat /\
    (forall i, (i < k)%nat -> nth i tbl 0 < x) /\ (forall i, (k <= i < length tbl)%nat -> x <= nth i tbl 0).
Proof.
  intros Hs. induction fuel as [|f IH]; intros first len Hf Hl H1 H2.
  - replace len with O in * by lia. exists first. cbn. rewrite Nat.add_0_r in *. auto.
  - destruct len as [|len']; [exists first; cbn; rewrite Nat.add_0_r in *; auto|].
    cbn [lower_bound_loop]. set (len := S len') in *. set (half := Nat.div len 2).
    assert (Hh : (half < len)%nat) by (apply Nat.div_lt; unfold len; lia).
    rewrite (nth_error_nth' tbl 0) by lia. destruct (Z.ltb_spec (nth (first + half) tbl 0) x) as [Hlt|Hge].
    + apply IH; try lia.
      * intros i Hi. apply Z.le_lt_trans with (nth (first + half) tbl 0); [apply Hs; lia|assumption].
      * intros i Hi. apply H2. lia.
    + apply IH; try lia; [assumption|]. intros i Hi. apply Z.le_trans with (nth (first + half) tbl 0); [assumption|apply Hs; lia].
Qed.

Lemma write_ok tbl k v : (k < length tbl)%nat -> exists t, write tbl k v = Ok t /\ length t = length tbl /\
  forall i, (i < length tbl)%nat -> nth i t 0 = if Nat.eqb i k then v else nth i tbl 0.
Proof.
  revert k. induction tbl as [|y tbl IH]; intros k Hk; [cbn in Hk; lia|]. destruct k as [|k]; cbn [write].
  - exists (v :: tbl). split; [reflexivity|]. split; [reflexivity|]. intros [|i] Hi; reflexivity.
  - destruct (IH k) as (t & E & L & N); [cbn in Hk; lia|]. rewrite E. exists (y :: t). split; [reflexivity|]. split; [cbn; lia|].
    intros [|i] Hi; [reflexivity|]. cbn. apply N. cbn in Hi. lia.
Qed.

(** [s ++ [v]] is an increasing subsequence of [p]. *)
Definition chain (p s : list Z) (v : Z) : Prop := subseq (s ++ [v]) p /\ increasing (s ++ [v]).

Definition inv (p tbl : list Z) : Prop := sorted_tbl tbl /\
  (forall s v, chain p s v -> (length s < length tbl)%nat -> nth (length s) tbl 0 <= v) /\
  (forall k, (k < length tbl)%nat -> nth k tbl 0 <= INT_MAX) /\
  (forall k, (k < length tbl)%nat -> nth k tbl 0 < INT_MAX -> exists s, length s = k /\ chain p s (nth k tbl 0)).

Lemma subseq_length {A} (s l : list A) : subseq s l -> (length s <= length l)%nat.
Proof. induction 1; cbn; lia. Qed.
Lemma subseq_snoc_inv (s : list Z) v p x : subseq (s ++ [v]) (p ++ [x]) ->
  subseq (s ++ [v]) p \/ (v = x /\ subseq s p).
Proof.
  intros H. apply subseq_rev in H. rewrite !rev_app_distr in H. cbn in H. inversion H; subst.
  - right. split; [reflexivity|]. apply subseq_rev in H1. now rewrite !rev_involutive in H1.
  - left. apply subseq_rev in H2. cbn in H2. now rewrite !rev_involutive in H2.
Qed.
Lemma subseq_app_l (s p q : list Z) : subseq s p -> subseq s (p ++ q).
Proof. intros H. rewrite <- (app_nil_r s). apply subseq_app; [assumption|apply subseq_nil]. Qed.
Lemma increasing_snoc s u v : increasing ((s ++ [u]) ++ [v]) <-> increasing (s ++ [u]) /\ u < v.
Proof.
  induction s as [|a s IH]; [cbn; tauto|]. cbn [app]. cbn [increasing]. rewrite IH.
  destruct s as [|b s]; cbn; tauto.
Qed.
Lemma snoc_cases (s : list Z) : s = [] \/ exists s' u, s = s' ++ [u].
Proof. destruct s; [auto|]. right. destruct (exists_last (l := z :: s)) as (s' & u & ->); [discriminate|eauto]. Qed.

(** One round: the index found is the length of the longest chain that can be extended by [x]. *)
Lemma round p tbl x : int32 x -> (length p < length tbl)%nat -> inv p tbl -> exists k tbl',
  lower_bound tbl x = Ok k /\ write tbl k (to_int x) = Ok tbl' /\ length tbl' = length tbl /\ inv (p ++ [x]) tbl' /\
  (exists s, length s = k /\ chain (p ++ [x]) s x) /\
  (forall s v, chain (p ++ [x]) s v -> chain p s v \/ (length s <= k)%nat).
Proof.
  intros Hx Hl (Hs & Hlow & Hmax & Hex).
  assert (Hxm : x <= INT_MAX) by (unfold INT_MAX, int32 in *; lia).
  destruct (lower_bound_loop_ok tbl x Hs (length tbl) 0 (length tbl)) as (k & E & Hk & Hlt & Hge); try lia.
  assert (Hk' : (k < length tbl)%nat).
  { destruct (Nat.eq_dec k (length tbl)) as [->|]; [|lia]. exfalso.
    specialize (Hlt (length tbl - 1)%nat ltac:(lia)).
    destruct (Hex (length tbl - 1)%nat ltac:(lia) ltac:(lia)) as (s & Ls & (Hc & _)). apply subseq_length in Hc. rewrite app_length in Hc. cbn in Hc. lia. }
  destruct (write_ok tbl k (to_int x) Hk') as (tbl' & Ew & Lt & Nt).
  assert (Ei : to_int x = x) by (unfold to_int, int32 in *; lia). rewrite Ei in *.
  (* a chain ending in x of length k *)
  assert (HC : exists s, length s = k /\ chain (p ++ [x]) s x).
  { destruct k as [|k'].
    - exists []. split; [reflexivity|]. split; [|cbn; tauto]. cbn. rewrite <- (app_nil_l [x]). apply subseq_app; [apply subseq_nil|repeat constructor].
    - specialize (Hlt k' ltac:(lia)). destruct (Hex k' ltac:(lia) ltac:(lia)) as (s & Ls & Hc1 & Hc2).
      exists (s ++ [nth k' tbl 0]). split; [rewrite app_length; cbn; lia|]. split.
      + apply subseq_app; [exact Hc1|repeat constructor].
      + apply increasing_snoc. auto. }
  (* chains ending at the new element are no longer *)
  assert (HB : forall s v, chain (p ++ [x]) s v -> chain p s v \/ (v = x /\ (length s <= k)%nat)).
  { intros s v (Hc1 & Hc2). apply subseq_snoc_inv in Hc1 as [Hc1|[-> Hc1]]; [left; split; assumption|right]. split; [reflexivity|].
    destruct (snoc_cases s) as [->|(s' & u & ->)]; [cbn; lia|]. apply increasing_snoc in Hc2 as (Hc2 & Hu).
    rewrite app_length. cbn. destruct (Nat.le_gt_cases (length s' + 1) k) as [|Hgt]; [assumption|exfalso].
    assert (Ls : (length s' < length tbl)%nat) by (apply subseq_length in Hc1; rewrite app_length in Hc1; cbn in Hc1; lia).
    specialize (Hge (length s') ltac:(lia)). specialize (Hlow s' u ltac:(split; assumption) Ls). lia. }
  exists k, tbl'. split; [exact E|]. split; [exact Ew|]. split; [exact Lt|]. split.
  - split.
    + intros i j Hij Hj. rewrite !Nt by lia. destruct (Nat.eqb_spec i k) as [Hi|Hi], (Nat.eqb_spec j k) as [Hjk|Hjk]; try lia.
      * apply Hge. lia.
      * specialize (Hlt i ltac:(lia)). lia.
      * apply Hs; lia.
    + split; [|split].
      * intros s v Hc Ls. rewrite Nt by lia. destruct (HB s v Hc) as [Hc'|[-> Hle]].
        -- specialize (Hlow s v Hc' ltac:(lia)). destruct (Nat.eqb_spec (length s) k) as [Hsk|]; [|lia].
           specialize (Hge k ltac:(lia)). rewrite Hsk in Hlow. lia.
        -- destruct (Nat.eqb_spec (length s) k) as [Hsk|]; [lia|]. specialize (Hlt (length s) ltac:(lia)). lia.
      * intros j Hj. rewrite Nt by lia. destruct (Nat.eqb_spec j k); [lia|apply Hmax; lia].
      * intros j Hj. rewrite Nt by lia. destruct (Nat.eqb_spec j k) as [->|]; intros Hlt'; [exact HC|].
        destruct (Hex j ltac:(lia) Hlt') as (s & Ls & Hc1 & Hc2). exists s. split; [exact Ls|]. split; [now apply subseq_app_l|exact Hc2].
  - split; [exact HC|]. intros s v Hc. destruct (HB s v Hc) as [|[_ ?]]; auto.
Qed.

Lemma lis_loop_ok : forall a p tbl M, Forall int32 a -> (length p + length a <= length tbl)%nat -> inv p tbl ->
  (forall s v, chain p s v -> (length s <= M)%nat) ->
  exists ids, lis_loop tbl a = Ok ids /\
    (forall s v, chain (p ++ a) s v -> (length s <= Nat.max M (fold_right Nat.max O ids))%nat) /\
    (forall k, In k ids -> exists s v, length s = k /\ chain (p ++ a) s v).
Proof.
  induction a as [|x a IH]; intros p tbl M Ha Hl Hi HM.
  - exists []. rewrite app_nil_r. split; [reflexivity|]. split; [intros s v Hc; apply HM in Hc; cbn; lia|intros k []].
  - inversion Ha as [|? ? Hx Ha']; subst. cbn [length] in Hl.
    destruct (round p tbl x Hx ltac:(lia) Hi) as (k & tbl' & E1 & E2 & L' & Hi' & (sk & Lk & Hk) & HB).
    destruct (IH (p ++ [x]) tbl' (Nat.max M k) Ha') as (ids & E3 & B3 & C3).
    + rewrite app_length. cbn. lia.
    + exact Hi'.
    + intros s v Hc. destruct (HB s v Hc) as [Hc'|?]; [apply HM in Hc'; lia|lia].
    + rewrite <- app_assoc in B3, C3. cbn [app] in B3, C3.
      exists (k :: ids). cbn [lis_loop]. rewrite E1. cbn [obind]. rewrite E2. cbn [obind]. rewrite E3. split; [reflexivity|]. split.
      * intros s v Hc. apply B3 in Hc. cbn [fold_right]. lia.
      * intros j [<-|Hj]; [|auto]. exists sk, x. split; [exact Lk|]. destruct Hk as (Hk1 & Hk2). split; [|exact Hk2].
        replace (p ++ x :: a) with ((p ++ [x]) ++ a) by (rewrite <- app_assoc; reflexivity). now apply subseq_app_l.
Qed.

Lemma fold_max_in l : l <> [] -> In (fold_right Nat.max O l) l.
Proof.
  induction l as [|x l IH]; [congruence|]. intros _. cbn. destruct l as [|y l]; [left; cbn; lia|].
  destruct (Nat.max_spec x (fold_right Nat.max O (y :: l))) as [[_ E]|[_ E]]; rewrite E; [right; apply IH; discriminate|auto].
Qed.

Theorem lis_ok a : Forall int32 a -> exists n, longest_increasing_subsequence a = Ok n /\ longest_increasing a n.
Proof.
  intros Ha. unfold longest_increasing_subsequence. destruct a as [|x0 a0].
  - exists O. split; [reflexivity|]. split; [exists []; repeat split; constructor|].
    intros s Hs _. apply subseq_nil_r in Hs as ->. cbn. lia.
  - set (a := x0 :: a0) in *.
    destruct (lis_loop_ok a [] (repeat INT_MAX (length a)) O Ha) as (ids & E & B & C).
    + rewrite repeat_length. cbn. lia.
    + assert (HN : forall i, (i < length a)%nat -> nth i (repeat INT_MAX (length a)) 0 = INT_MAX).
      { intros i Hi. apply repeat_spec with (n := length a). apply nth_In. now rewrite repeat_length. }
      unfold inv, sorted_tbl. rewrite repeat_length. split; [|split; [|split]].
      * intros i j Hij Hj. rewrite !HN by lia. lia.
      * intros s v (Hc & _). apply subseq_nil_r in Hc. destruct s; discriminate.
      * intros i Hi. rewrite HN by lia. lia.
      * intros i Hi. rewrite HN by lia. lia.
    + intros s v (Hc & _). apply subseq_nil_r in Hc. destruct s; discriminate.
    + rewrite E. cbn [obind app] in *. eexists. split; [reflexivity|].
      assert (Hne : ids <> []).
      { intros ->. cbn [lis_loop a] in E. unfold a in E. cbn [lis_loop] in E. destruct (lower_bound _ x0); try discriminate.
        cbn [obind] in E. destruct (write _ _ _); try discriminate. cbn [obind] in E. destruct (lis_loop _ _); discriminate. }
      split.
      * destruct (C _ (fold_max_in ids Hne)) as (s & v & Ls & Hc1 & Hc2). exists (s ++ [v]). rewrite app_length. cbn. split; [exact Hc1|]. split; [exact Hc2|lia].
      * intros s Hs Hinc. destruct (snoc_cases s) as [->|(s' & u & ->)]; [cbn; lia|].
        specialize (B s' u ltac:(split; assumption)). rewrite app_length. cbn. lia.
Qed.
