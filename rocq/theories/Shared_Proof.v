(** Proofs about shared_ptr and weak_ptr. *)
From Verif Require Import Common CommonLemmas Shared_Spec Shared_Model.

Definition is (b : nat) (x : option (option nat)) : nat := match x with Some (Some c) => if Nat.eqb c b then 1 else 0 | _ => 0 end.
Fixpoint cnt (b : nat) (l : list (option (option nat))) : nat := match l with [] => 0 | x :: r => is b x + cnt b r end.
Definition life (k : nat) (l : list event) : list event := filter (about k) l.

Lemma is_self b : is b (Some (Some b)) = 1.
Proof. cbn. now rewrite Nat.eqb_refl. Qed.
Lemma is_other b c : c <> b -> is b (Some (Some c)) = 0.
Proof. intros N. cbn. apply Nat.eqb_neq in N. now rewrite N. Qed.
Lemma cnt_app b l r : cnt b (l ++ r) = cnt b l + cnt b r.
Proof. induction l as [|x l IH]; cbn; [reflexivity|]. lia. Qed.
Lemma cnt_upd b l : forall i old x, nth_error l i = Some old -> cnt b (upd l i x) + is b old = cnt b l + is b x.
Proof. induction l as [|y l IH]; intros [|i] old x E; cbn in *; try discriminate; [injection E as ->; lia|]. specialize (IH i old x E). lia. Qed.
Lemma cnt_in b l : In (Some (Some b)) l -> 0 < cnt b l.
Proof. induction l as [|x l IH]; intros []; cbn [cnt]; [subst x; rewrite is_self; lia|specialize (IH H); lia]. Qed.
Lemma cnt_pos b l : 0 < cnt b l -> In (Some (Some b)) l.
Proof.
  induction l as [|x l IH]; cbn [cnt]; intros H; [lia|]. destruct (Nat.eq_dec (is b x) 0) as [E|N]; [right; apply IH; lia|left].
  destruct x as [[c|]|]; cbn in *; try congruence. destruct (Nat.eqb_spec c b); [now subst|congruence].
Qed.
Lemma get_nth l i v : get l i = Some v <-> nth_error l i = Some (Some v).
Proof. unfold get. destruct (nth_error l i) as [[w|]|]; split; congruence. Qed.
Lemma length_upd {A} (l : list A) : forall i x, length (upd l i x) = length l.
Proof. induction l as [|y l IH]; intros [|i] x; cbn; auto. Qed.
Lemma nth_upd {A} (l : list A) : forall i j x, nth_error (upd l i x) j = if Nat.eqb j i then match nth_error l i with Some _ => Some x | None => None end else nth_error l j.
Proof.
  induction l as [|y l IH]; intros [|i] [|j] x; cbn; try reflexivity.
  - now destruct (Nat.eqb j i).
  - apply IH.
Qed.
Lemma in_upd {A} (l : list A) : forall i x y, In y (upd l i x) -> y = x \/ In y l.
Proof. induction l as [|z l IH]; intros [|i] x y H; cbn in *; auto; [destruct H as [->|H]; auto|destruct H as [->|H]; auto; destruct (IH _ _ _ H); auto]. Qed.
Lemma in_alive k l : existsb (Nat.eqb k) l = true <-> In k l.
Proof. rewrite existsb_exists. split; [intros (x & H & E); apply Nat.eqb_eq in E; now subst|intros H; exists k; split; [exact H|apply Nat.eqb_refl]]. Qed.
Lemma nth_app_new {A} (l : list A) x j : nth_error (l ++ [x]) j = if Nat.eqb j (length l) then Some x else nth_error l j.
Proof.
  destruct (Nat.eqb_spec j (length l)) as [->|N]; [rewrite nth_error_app2, Nat.sub_diag by lia; reflexivity|].
  destruct (Nat.lt_ge_cases j (length l)); [now rewrite nth_error_app1 by lia|]. rewrite (proj2 (nth_error_None l j)) by lia. apply nth_error_None. rewrite app_length. cbn. lia.
Qed.

Lemma event_eq_dec (a b : event) : {a = b} + {a <> b}.
Proof. decide equality; apply Nat.eq_dec. Defined.
Lemma option_eq_dec_nat (a b : option nat) : {a = b} + {a <> b}.
Proof. decide equality. apply Nat.eq_dec. Defined.

Record Inv (h : heap) (T : list (option nat)) : Prop := {
  i_sh : forall b, In (Some (Some b)) (sh h) -> b < length (blocks h);
  i_tmp : forall b, In (Some b) T -> b < length (blocks h);
  i_wk : forall b, In (Some (Some b)) (wk h) -> b < length (blocks h);
  i_uses : forall b c, nth_error (blocks h) b = Some c -> uses c = cnt b (sh h) + cnt b (map Some T);
  i_obj : forall b c k, nth_error (blocks h) b = Some c -> obj c = Some k -> k < next h /\ self h k = Some b /\ life k (log h) = match uses c with O => [Given k; Deleted k] | _ => [Given k] end;
  i_given : forall k, life k (log h) = [] \/ exists b c, nth_error (blocks h) b = Some c /\ obj c = Some k;
  i_none : forall k, life k (log h) = [] -> self h k = None;
  i_alive : forall k, In k (alive h) <-> k < next h /\ ~ In (Deleted k) (log h)
}.
Lemma inv_empty : Inv empty [].
Proof. split; cbn; try tauto; try (intros [|b]; discriminate); auto. intros k. split; [tauto|lia]. Qed.
Lemma life_in k e l : about k e = true -> (In e l <-> In e (life k l)).
Proof. intros H. unfold life. rewrite filter_In. tauto. Qed.
Lemma life_deleted h T b c k : Inv h T -> nth_error (blocks h) b = Some c -> obj c = Some k -> (In (Deleted k) (log h) <-> uses c = 0) /\ In (Given k) (log h).
Proof.
  intros H E O. destruct (i_obj _ _ H b c k E O) as (_ & _ & L). rewrite (life_in k (Deleted k)), (life_in k (Given k)), L by (cbn; apply Nat.eqb_refl).
  destruct (uses c); split; cbn; try tauto; split; intros X; try discriminate; try tauto. destruct X as [X|[]]; discriminate.
Qed.
Lemma obj_unique h T b c b' c' k : Inv h T -> nth_error (blocks h) b = Some c -> obj c = Some k -> nth_error (blocks h) b' = Some c' -> obj c' = Some k -> b = b'.
Proof. intros H E O E' O'. destruct (i_obj _ _ H b c k E O) as (_ & S & _). destruct (i_obj _ _ H b' c' k E' O') as (_ & S' & _). congruence. Qed.

(** ** Pieces of the operations *)
Definition held (h : heap) (v : option nat) : Prop := v = None \/ 0 < count h v.
Lemma held_sh h T v : Inv h T -> In (Some v) (sh h) -> held h v.
Proof.
  intros H I. destruct v as [b|]; [right|now left]. pose proof (i_sh _ _ H b I) as L. cbn. destruct (nth_error (blocks h) b) as [c|] eqn:E; [|apply nth_error_None in E; lia].
  rewrite (i_uses _ _ H b c E). pose proof (cnt_in b _ I). lia.
Qed.
Lemma held_tmp h T v : Inv h T -> In v T -> held h v.
Proof.
  intros H I. destruct v as [b|]; [right|now left]. pose proof (i_tmp _ _ H b I) as L. cbn. destruct (nth_error (blocks h) b) as [c|] eqn:E; [|apply nth_error_None in E; lia].
  rewrite (i_uses _ _ H b c E). pose proof (cnt_in b (map Some T) ltac:(apply in_map_iff; eauto)). lia.
Qed.
Lemma retain_inv h T v : Inv h T -> held h v -> Inv (retain h v) (v :: T).
Proof.
  intros H [->|P]; [cbn [retain]; destruct H; split; auto; intros b [X|X]; [discriminate|auto]|]. destruct v as [b|]; [|cbn in P; lia].
  cbn in P |- *. destruct (nth_error (blocks h) b) as [c|] eqn:E; [|lia]. unfold with_blocks. assert (Lb : b < length (blocks h)) by (apply nth_error_Some; congruence).
  split; cbn [blocks sh wk self alive next log].
  - intros a X. rewrite length_upd. exact (i_sh _ _ H a X).
  - intros a [X|X]; rewrite length_upd; [injection X as <-; exact Lb|exact (i_tmp _ _ H a X)].
  - intros a X. rewrite length_upd. exact (i_wk _ _ H a X).
  - intros a d. rewrite nth_upd. cbn [map cnt]. destruct (Nat.eqb_spec a b) as [->|N].
    + rewrite E. intros X. injection X as <-. cbn [uses]. rewrite is_self, (i_uses _ _ H b c E). lia.
    + intros X. rewrite is_other, (i_uses _ _ H a d X) by congruence. reflexivity.
  - intros a d k. rewrite nth_upd. destruct (Nat.eqb_spec a b) as [->|N]; [|apply (i_obj _ _ H)].
    rewrite E. intros X O. injection X as <-. cbn [obj uses] in *. destruct (i_obj _ _ H b c k E O) as (A1 & A2 & A3). destruct (uses c); [lia|auto].
  - intros k. destruct (i_given _ _ H k) as [X|(a & d & X & O)]; [now left|right]. destruct (Nat.eq_dec a b) as [->|N].
    + exists b, (B (obj c) (S (uses c))). rewrite nth_upd, Nat.eqb_refl, E. split; [reflexivity|]. cbn. congruence.
    + exists a, d. rewrite nth_upd. apply Nat.eqb_neq in N. rewrite N. auto.
  - exact (i_none _ _ H).
  - exact (i_alive _ _ H).
Qed.
Lemma filter_snoc_same k l : life k (l ++ [Deleted k]) = life k l ++ [Deleted k].
Proof. unfold life. rewrite filter_app. cbn. now rewrite Nat.eqb_refl. Qed.
Lemma life_snoc_other k e l : about k e = false -> life k (l ++ [e]) = life k l.
Proof. intros E. unfold life. rewrite filter_app. cbn. rewrite E. apply app_nil_r. Qed.
Lemma about_deleted k j : j <> k -> about k (Deleted j) = false /\ about k (Given j) = false.
Proof. intros N. apply Nat.eqb_neq in N. cbn. auto. Qed.
Lemma release_inv h T v : Inv h (v :: T) -> exists h', release h v = Ok h' /\ Inv h' T /\ sh h' = sh h /\ map obj (blocks h') = map obj (blocks h) /\ wk h' = wk h.
Proof.
  intros H. destruct v as [b|].
  2: { exists h. split; [reflexivity|]. split; [|auto]. destruct H as [A1 A2 A3 A4 A5 A6 A7 A8]. split; auto. intros a X. apply A2. now right. }
  pose proof (i_tmp _ _ H b ltac:(now left)) as Lb. cbn [release]. destruct (nth_error (blocks h) b) as [c|] eqn:E; [|apply nth_error_None in E; lia].
  pose proof (i_uses _ _ H b c E) as U. cbn [map cnt] in U. rewrite is_self in U.
  assert (MO : forall n, map obj (upd (blocks h) b (B (obj c) n)) = map obj (blocks h)).
  { intros n. clear - E. revert b E. induction (blocks h) as [|x l IH]; intros [|b] E; cbn in *; try discriminate; [injection E as ->; reflexivity|]. f_equal. now apply IH. }
  destruct (uses c) as [|[|n]] eqn:Ec; [lia| |].
  - (* the last *)
    assert (G : forall al lg, (forall k, obj c = Some k -> lg = log h ++ [Deleted k] /\ al = filter (fun j => negb (Nat.eqb j k)) (alive h)) -> (obj c = None -> lg = log h /\ al = alive h) ->
      Inv (mk (upd (blocks h) b (B (obj c) 0)) (sh h) (wk h) (self h) al (next h) lg) T).
    { intros al lg G1 G2.
      assert (LO : forall k, obj c <> Some k -> life k lg = life k (log h)).
      { intros k N. destruct (obj c) as [j|] eqn:O; [destruct (G1 j eq_refl) as [-> _]; apply life_snoc_other, about_deleted; congruence|destruct (G2 eq_refl) as [-> _]; reflexivity]. }
      split; cbn [blocks sh wk self alive next log].
      - intros a X. rewrite length_upd. exact (i_sh _ _ H a X).
      - intros a X. rewrite length_upd. exact (i_tmp _ _ H a (or_intror X)).
      - intros a X. rewrite length_upd. exact (i_wk _ _ H a X).
      - intros a d. rewrite nth_upd. destruct (Nat.eqb_spec a b) as [->|N].
        + rewrite E. intros X. injection X as <-. cbn [uses]. lia.
        + intros X. rewrite (i_uses _ _ H a d X). cbn [map cnt]. rewrite is_other by congruence. reflexivity.
      - intros a d k. rewrite nth_upd. destruct (Nat.eqb_spec a b) as [->|N].
        + rewrite E. intros X O. injection X as <-. cbn [obj uses] in *. destruct (i_obj _ _ H b c k E O) as (A1 & A2 & A3). rewrite Ec in A3.
          split; [exact A1|]. split; [exact A2|]. destruct (G1 k O) as [-> _]. rewrite filter_snoc_same, A3. reflexivity.
        + intros X O. destruct (i_obj _ _ H a d k X O) as (A1 & A2 & A3). split; [exact A1|]. split; [exact A2|]. rewrite LO; [exact A3|].
          intros O'. apply N. exact (obj_unique h _ a d b c k H X O E O').
      - intros k. destruct (i_given _ _ H k) as [X|(a & d & X & O)].
        + left. rewrite LO; [exact X|]. intros O. destruct (i_obj _ _ H b c k E O) as (_ & _ & A3). rewrite A3, Ec in X. discriminate.
        + right. destruct (Nat.eq_dec a b) as [->|N].
          * exists b, (B (obj c) 0). rewrite nth_upd, Nat.eqb_refl, E. split; [reflexivity|]. cbn. congruence.
          * exists a, d. rewrite nth_upd. apply Nat.eqb_neq in N. rewrite N. auto.
      - intros k X. apply (i_none _ _ H). destruct (option_eq_dec_nat (obj c) (Some k)) as [O|O]; [|rewrite <- LO; auto].
        destruct (G1 k O) as [-> _]. rewrite filter_snoc_same in X. destruct (life k (log h)); discriminate.
      - intros k. destruct (obj c) as [j|] eqn:O.
        + destruct (G1 j eq_refl) as [-> ->]. rewrite filter_In, in_app_iff, (i_alive _ _ H). cbn. destruct (Nat.eqb_spec k j) as [->|N]; cbn; [intuition discriminate|]. split; [|intuition].
          intros ((A1 & A2) & _). split; [exact A1|]. intros [X|[X|[]]]; [auto|congruence].
        + destruct (G2 eq_refl) as [-> ->]. apply (i_alive _ _ H). }
    unfold delete. destruct (obj c) as [k|] eqn:O.
    + assert (A : existsb (Nat.eqb k) (alive (with_blocks h (upd (blocks h) b {| obj := Some k; uses := 0 |}))) = true).
      { apply in_alive. cbn. apply (i_alive _ _ H). destruct (i_obj _ _ H b c k E O) as (A1 & _). split; [exact A1|]. destruct (life_deleted h _ b c k H E O) as [D _]. rewrite D, Ec. discriminate. }
      rewrite A. eexists. split; [reflexivity|]. split; [|split; [reflexivity|split; [cbn; apply MO|reflexivity]]]. apply G; [intros j X; injection X as <-; auto|discriminate].
    + eexists. split; [reflexivity|]. split; [|split; [reflexivity|split; [cbn; apply MO|reflexivity]]]. apply G; [discriminate|auto].
  - eexists. split; [reflexivity|]. split; [|split; [reflexivity|split; [cbn; apply MO|reflexivity]]]. unfold with_blocks. split; cbn [blocks sh wk self alive next log].
    + intros a X. rewrite length_upd. exact (i_sh _ _ H a X).
    + intros a X. rewrite length_upd. exact (i_tmp _ _ H a (or_intror X)).
    + intros a X. rewrite length_upd. exact (i_wk _ _ H a X).
    + intros a d. rewrite nth_upd. destruct (Nat.eqb_spec a b) as [->|N].
      * rewrite E. intros X. injection X as <-. cbn [uses]. lia.
      * intros X. rewrite (i_uses _ _ H a d X). cbn [map cnt]. rewrite is_other by congruence. reflexivity.
    + intros a d k. rewrite nth_upd. destruct (Nat.eqb_spec a b) as [->|N]; [|apply (i_obj _ _ H)].
      rewrite E. intros X O. injection X as <-. cbn [obj uses] in *. destruct (i_obj _ _ H b c k E O) as (A1 & A2 & A3). rewrite Ec in A3. auto.
    + intros k. destruct (i_given _ _ H k) as [X|(a & d & X & O)]; [now left|right]. destruct (Nat.eq_dec a b) as [->|N].
      * exists b, (B (obj c) (S n)). rewrite nth_upd, Nat.eqb_refl, E. split; [reflexivity|]. cbn. congruence.
      * exists a, d. rewrite nth_upd. apply Nat.eqb_neq in N. rewrite N. auto.
    + exact (i_none _ _ H).
    + exact (i_alive _ _ H).
Qed.
Lemma inv_frame h T T' : Inv h T -> (forall b, In (Some b) T' -> b < length (blocks h)) -> (forall b, cnt b (map Some T) = cnt b (map Some T')) -> Inv h T'.
Proof. intros H A C. destruct H as [A1 A2 A3 A4 A5 A6 A7 A8]. split; auto. intros b c E. rewrite <- C. auto. Qed.
Lemma set_inv h T T' l : Inv h T -> (forall b, In (Some (Some b)) l -> b < length (blocks h)) -> (forall b, In (Some b) T' -> b < length (blocks h)) ->
  (forall b, cnt b (sh h) + cnt b (map Some T) = cnt b l + cnt b (map Some T')) -> Inv (with_sh h l) T'.
Proof. intros H A A' C. destruct H as [A1 A2 A3 A4 A5 A6 A7 A8]. unfold with_sh. split; cbn [blocks sh wk self alive next log]; auto. intros b c E. rewrite <- C. auto. Qed.
Lemma pushs_inv h T v : Inv h (v :: T) -> Inv (pushs h v) T.
Proof.
  intros H. apply (set_inv h (v :: T)); [exact H| | |].
  - intros b X. apply in_app_iff in X as [X|[X|[]]]; [exact (i_sh _ _ H b X)|]. injection X as ->. apply (i_tmp _ _ H). now left.
  - intros b X. apply (i_tmp _ _ H). now right.
  - intros b. rewrite cnt_app. cbn [map cnt]. lia.
Qed.
Lemma assign_inv h T v i old : get (sh h) i = Some old -> Inv h (v :: T) -> Inv (with_sh h (upd (sh h) i (Some v))) (old :: T).
Proof.
  intros G H. apply get_nth in G. apply (set_inv h (v :: T)); [exact H| | |].
  - intros b X. apply in_upd in X as [X|X]; [injection X as <-; apply (i_tmp _ _ H); now left|exact (i_sh _ _ H b X)].
  - intros b [->|X]; [apply (i_sh _ _ H); eapply nth_error_In; exact G|apply (i_tmp _ _ H); now right].
  - intros b. pose proof (cnt_upd b _ i _ (Some v) G). cbn [map cnt]. lia.
Qed.
Lemma unset_inv h T i old : get (sh h) i = Some old -> Inv h T -> Inv (with_sh h (upd (sh h) i None)) (old :: T).
Proof.
  intros G H. apply get_nth in G. apply (set_inv h T); [exact H| | |].
  - intros b X. apply in_upd in X as [X|X]; [discriminate|exact (i_sh _ _ H b X)].
  - intros b [->|X]; [apply (i_sh _ _ H); eapply nth_error_In; exact G|exact (i_tmp _ _ H b X)].
  - intros b. pose proof (cnt_upd b _ i _ None G). cbn [map cnt is] in *. lia.
Qed.
Lemma wk_inv h T l : Inv h T -> (forall b, In (Some (Some b)) l -> b < length (blocks h)) -> Inv (with_wk h l) T.
Proof. intros H A. destruct H as [A1 A2 A3 A4 A5 A6 A7 A8]. unfold with_wk. split; cbn [blocks sh wk self alive next log]; auto. Qed.
Lemma fresh_inv h T : Inv h T -> Inv (fresh h) T.
Proof.
  intros H. unfold fresh. split; cbn [blocks sh wk self alive next log]; try apply H.
  - intros b c k E O. destruct (i_obj _ _ H b c k E O) as (A1 & A2). split; [lia|exact A2].
  - intros k. cbn. rewrite (i_alive _ _ H). split; [|intros [A D]; destruct (Nat.eq_dec k (next h)); [auto|right; split; [lia|exact D]]].
    intros [<-|[A D]]; [split; [lia|]|split; [lia|exact D]]. intros X. destruct (i_given _ _ H (next h)) as [L|(b & c & E & O)].
    + apply (life_in (next h)) in X; [|cbn; apply Nat.eqb_refl]. rewrite L in X. destruct X.
    + destruct (i_obj _ _ H b c _ E O). lia.
Qed.
Lemma adopt_null h T : Inv h T -> exists h', adopt h None = Ok (h', Some (length (blocks h))) /\ Inv h' (Some (length (blocks h)) :: T).
Proof.
  intros H. unfold adopt, with_blocks. eexists. split; [reflexivity|]. split; cbn [blocks sh wk self alive next log].
  - intros b X. rewrite app_length. pose proof (i_sh _ _ H b X). lia.
  - intros b [X|X]; rewrite app_length; cbn; [injection X; lia|]. pose proof (i_tmp _ _ H b X). lia.
  - intros b X. rewrite app_length. pose proof (i_wk _ _ H b X). lia.
  - intros b c. rewrite nth_app_new. cbn [map cnt]. destruct (Nat.eqb_spec b (length (blocks h))) as [->|N].
    + intros X. injection X as <-. cbn [uses]. rewrite is_self.
      assert (Z1 : cnt (length (blocks h)) (sh h) = 0) by (destruct (Nat.eq_dec (cnt (length (blocks h)) (sh h)) 0) as [Z|Z]; [exact Z|pose proof (i_sh _ _ H _ (cnt_pos (length (blocks h)) (sh h) ltac:(lia))); lia]).
      assert (Z2 : cnt (length (blocks h)) (map Some T) = 0).
      { destruct (Nat.eq_dec (cnt (length (blocks h)) (map Some T)) 0) as [Z|Z]; [exact Z|]. pose proof (cnt_pos (length (blocks h)) (map Some T) ltac:(lia)) as X. apply in_map_iff in X as (x & X & I). injection X as ->. pose proof (i_tmp _ _ H _ I). lia. }
      lia.
    + intros X. rewrite is_other, (i_uses _ _ H b c X) by congruence. reflexivity.
  - intros b c k. rewrite nth_app_new. destruct (Nat.eqb_spec b (length (blocks h))) as [->|N]; [intros X; injection X as <-; discriminate|apply (i_obj _ _ H)].
  - intros k. destruct (i_given _ _ H k) as [X|(b & c & E & O)]; [now left|right]. exists b, c. rewrite nth_app_new. destruct (Nat.eqb_spec b (length (blocks h))) as [->|N]; [|auto].
    rewrite (proj2 (nth_error_None _ _)) in E by lia. discriminate.
  - exact (i_none _ _ H).
  - exact (i_alive _ _ H).
Qed.
Lemma life_given k l : life k l = [] <-> ~ In (Given k) l /\ ~ In (Deleted k) l.
Proof.
  rewrite (life_in k (Given k)), (life_in k (Deleted k)) by (cbn; apply Nat.eqb_refl). split; [intros ->; cbn; tauto|]. intros [G D]. destruct (life k l) as [|e r] eqn:E; [reflexivity|exfalso].
  assert (I : In e (life k l)) by (rewrite E; now left). unfold life in I. apply filter_In in I as [_ A]. destruct e as [j|j]; cbn in A; apply Nat.eqb_eq in A; subst j; [apply G|apply D]; now left.
Qed.
Lemma not_given h T k : Inv h T -> ~ In (Given k) (log h) -> life k (log h) = [].
Proof. intros H N. destruct (i_given _ _ H k) as [X|(b & c & E & O)]; [exact X|]. destruct (life_deleted h T b c k H E O) as [_ G]. contradiction. Qed.
Lemma adopt_obj h T k : Inv h T -> k < next h -> ~ In (Given k) (log h) ->
  exists h', adopt h (Some k) = Ok (h', Some (length (blocks h))) /\ Inv h' (Some (length (blocks h)) :: T).
Proof.
  intros H Lk N. pose proof (not_given h T k H N) as Lf. pose proof (i_none _ _ H k Lf) as Sk. apply life_given in Lf as Nd. destruct Nd as [_ Nd].
  unfold adopt. rewrite (proj2 (in_alive k (alive h))) by (apply (i_alive _ _ H); auto). rewrite Sk. cbn [count Nat.eqb]. unfold with_blocks. cbn [blocks]. eexists. split; [reflexivity|].
  assert (NO : forall b c, nth_error (blocks h) b = Some c -> obj c <> Some k).
  { intros b c E O. destruct (i_obj _ _ H b c k E O) as (_ & _ & L). rewrite Lf in L. destruct (uses c); discriminate. }
  assert (LO : forall j, j <> k -> life j (log h ++ [Given k]) = life j (log h)) by (intros j X; apply life_snoc_other, about_deleted; congruence).
  split; cbn [blocks sh wk self alive next log].
  - intros b X. rewrite app_length. pose proof (i_sh _ _ H b X). lia.
  - intros b [X|X]; rewrite app_length; cbn; [injection X; lia|]. pose proof (i_tmp _ _ H b X). lia.
  - intros b X. rewrite app_length. pose proof (i_wk _ _ H b X). lia.
  - destruct (adopt_null h T H) as (h' & E & I). unfold adopt, with_blocks in E. injection E as <-. intros b c X.
    pose proof (fun d => i_uses _ _ I b d) as U. cbn [blocks sh] in U. rewrite nth_app_new in X. destruct (Nat.eqb b (length (blocks h))) eqn:Eb.
    + injection X as <-. cbn [uses]. apply (U (B None 1)). now rewrite nth_app_new, Eb.
    + apply U. now rewrite nth_app_new, Eb.
  - intros b c j. rewrite nth_app_new. destruct (Nat.eqb_spec b (length (blocks h))) as [->|M].
    + intros X O. injection X as <-. cbn [obj uses] in *. injection O as <-. rewrite Nat.eqb_refl. split; [exact Lk|]. split; [reflexivity|]. unfold life in *. rewrite filter_app, Lf. cbn. now rewrite Nat.eqb_refl.
    + intros X O. assert (Nj : j <> k) by (intros ->; exact (NO b c X O)). rewrite LO by exact Nj. apply Nat.eqb_neq in Nj. rewrite Nj. exact (i_obj _ _ H b c j X O).
  - intros j. destruct (Nat.eq_dec j k) as [->|Nj]; [right; exists (length (blocks h)), (B (Some k) 1); rewrite nth_app_new, Nat.eqb_refl; auto|]. rewrite LO by exact Nj.
    destruct (i_given _ _ H j) as [X|(b & c & E & O)]; [now left|right]. exists b, c. rewrite nth_app_new. destruct (Nat.eqb_spec b (length (blocks h))) as [->|M]; [|auto].
    rewrite (proj2 (nth_error_None _ _)) in E by lia. discriminate.
  - intros j X. destruct (Nat.eq_dec j k) as [->|Nj].
    + unfold life in X. rewrite filter_app in X. cbn in X. rewrite Nat.eqb_refl in X. destruct (filter (about k) (log h)); discriminate.
    + rewrite LO in X by exact Nj. apply Nat.eqb_neq in Nj. rewrite Nj. exact (i_none _ _ H j X).
  - intros j. rewrite in_app_iff, (i_alive _ _ H). cbn. intuition discriminate.
Qed.

(** ** Any operation *)
Definition misuse (h : heap) (o : op) : Prop :=
  (exists i v, o = Deref i /\ get (sh h) i = Some v /\ target h v = None) \/ (exists k, o = FromThis k /\ ~ In k (alive h)).
Lemma sh_retain h v : sh (retain h v) = sh h.
Proof. destruct v as [b|]; [|reflexivity]. cbn. destruct (nth_error (blocks h) b); reflexivity. Qed.
Lemma wrap_inv h T v : Inv h (v :: T) -> exists h', wrap h v = Ok h' /\ Inv h' T /\ sh h' = sh h ++ [Some v] /\ map obj (blocks h') = map obj (blocks h).
Proof.
  intros H. unfold wrap. destruct (release_inv (pushs (retain h v) v) T v) as (h' & E & I & S & M & _).
  - apply pushs_inv. apply retain_inv; [exact H|]. apply (held_tmp h (v :: T)); [exact H|now left].
  - exists h'. split; [exact E|]. split; [exact I|]. split; [rewrite S; cbn; now rewrite sh_retain|]. rewrite M. cbn. destruct v as [b|]; [|reflexivity]. cbn.
    destruct (nth_error (blocks h) b) as [c|] eqn:Eb; [cbn|reflexivity]. clear - Eb. revert b Eb. induction (blocks h) as [|x l IH]; intros [|b] Eb; cbn in *; try discriminate; [injection Eb as ->; reflexivity|]. f_equal. now apply IH.
Qed.
Lemma in_get l i v : get l i = Some v -> In (Some v) l.
Proof. intros G. apply get_nth in G. eapply nth_error_In. exact G. Qed.
Lemma target_alive h T i v k : Inv h T -> get (sh h) i = Some v -> target h v = Some k -> In k (alive h).
Proof.
  intros H G E. destruct v as [b|]; [|discriminate]. cbn in E. destruct (nth_error (blocks h) b) as [c|] eqn:Eb; [|discriminate]. apply (i_alive _ _ H).
  destruct (i_obj _ _ H b c k Eb E) as (A & _). split; [exact A|]. destruct (life_deleted h T b c k H Eb E) as [D _]. rewrite D, (i_uses _ _ H b c Eb). pose proof (cnt_in b (sh h) (in_get _ _ _ G)). lia.
Qed.
Lemma self_bound h T k b : Inv h T -> self h k = Some b -> exists c, nth_error (blocks h) b = Some c /\ obj c = Some k.
Proof.
  intros H S. destruct (i_given _ _ H k) as [L|(a & c & E & O)]; [rewrite (i_none _ _ H k L) in S; discriminate|]. destruct (i_obj _ _ H a c k E O) as (_ & S' & _). rewrite S in S'. injection S' as ->. eauto.
Qed.
Lemma step_inv h o : Inv h [] -> fair h o -> (exists h' e, step h o = Ok (h', e) /\ Inv h' []) \/ (step h o = UB /\ misuse h o).
Proof.
  intros H F. destruct o as [p| |j|j fits|i j|i|i| |j|j|i j|i j|i|j|j|k|]; cbn [step].
  - left. destruct p as [| |k]; cbn [make].
    + destruct (adopt_null h [] H) as (h' & -> & I). cbn [obind]. eexists _, _. split; [reflexivity|]. now apply pushs_inv.
    + destruct (adopt_obj (fresh h) [] (next h) (fresh_inv h [] H)) as (h' & -> & I); [cbn; lia| |].
      * cbn. intros X. destruct (i_given _ _ H (next h)) as [L|(b & c & E & O)]; [apply life_given in L; tauto|]. destruct (i_obj _ _ H b c _ E O). lia.
      * cbn [obind]. eexists _, _. split; [reflexivity|]. now apply pushs_inv.
    + cbn in F. destruct (adopt_obj h [] k H (proj1 F) (proj2 F)) as (h' & -> & I). cbn [obind]. eexists _, _. split; [reflexivity|]. now apply pushs_inv.
  - left. eexists _, _. split; [reflexivity|]. apply pushs_inv. apply (inv_frame h []); [exact H|intros b [X|[]]; discriminate|reflexivity].
  - left. destruct (get (sh h) j) as [v|] eqn:G; [|eauto]. eexists _, _. split; [reflexivity|]. apply pushs_inv, retain_inv; [exact H|]. exact (held_sh h [] v H (in_get _ _ _ G)).
  - left. destruct (get (sh h) j) as [v|] eqn:G; [|eauto]. cbv zeta. destruct (wrap_inv (retain h (if fits then v else None)) [] (if fits then v else None)) as (h' & -> & I & _).
    + apply retain_inv; [exact H|]. destruct fits; [exact (held_sh h [] v H (in_get _ _ _ G))|now left].
    + cbn [obind]. eauto.
  - left. destruct (get (sh h) i) as [old|] eqn:Gi; [|eauto]. destruct (get (sh h) j) as [v|] eqn:Gj; [|eauto].
    destruct (release_inv (with_sh (retain h v) (upd (sh h) i (Some v))) [] old) as (h' & -> & I & _); [|cbn [obind]; eauto].
    rewrite <- (sh_retain h v). apply assign_inv; [now rewrite sh_retain|]. apply retain_inv; [exact H|exact (held_sh h [] v H (in_get _ _ _ Gj))].
  - left. destruct (get (sh h) i) as [v|] eqn:G; [|eauto]. destruct (release_inv (with_sh h (upd (sh h) i None)) [] v) as (h' & -> & I & _); [now apply unset_inv|cbn [obind]; eauto].
  - destruct (get (sh h) i) as [v|] eqn:G; [|left; eauto]. destruct (target h v) as [k|] eqn:E; [|right; split; [reflexivity|left; eauto]].
    left. rewrite (proj2 (in_alive k (alive h)) (target_alive h [] i v k H G E)). eauto.
  - left. eexists _, _. split; [reflexivity|]. apply wk_inv; [exact H|]. intros b X. apply in_app_iff in X as [X|[X|[]]]; [exact (i_wk _ _ H b X)|discriminate].
  - left. destruct (get (sh h) j) as [v|] eqn:G; [|eauto]. eexists _, _. split; [reflexivity|]. apply wk_inv; [exact H|]. intros b X.
    apply in_app_iff in X as [X|[X|[]]]; [exact (i_wk _ _ H b X)|]. injection X as ->. exact (i_sh _ _ H b (in_get _ _ _ G)).
  - left. destruct (get (wk h) j) as [v|] eqn:G; [|eauto]. eexists _, _. split; [reflexivity|]. apply wk_inv; [exact H|]. intros b X.
    apply in_app_iff in X as [X|[X|[]]]; [exact (i_wk _ _ H b X)|]. injection X as ->. exact (i_wk _ _ H b (in_get _ _ _ G)).
  - left. destruct (get (wk h) i) as [old|] eqn:Gi; [|eauto]. destruct (get (wk h) j) as [v|] eqn:G; [|eauto]. eexists _, _. split; [reflexivity|]. apply wk_inv; [exact H|]. intros b X.
    apply in_upd in X as [X|X]; [|exact (i_wk _ _ H b X)]. injection X as <-. exact (i_wk _ _ H b (in_get _ _ _ G)).
  - left. destruct (get (wk h) i) as [old|] eqn:Gi; [|eauto]. destruct (get (sh h) j) as [v|] eqn:G; [|eauto]. eexists _, _. split; [reflexivity|]. apply wk_inv; [exact H|]. intros b X.
    apply in_upd in X as [X|X]; [|exact (i_wk _ _ H b X)]. injection X as <-. exact (i_sh _ _ H b (in_get _ _ _ G)).
  - left. destruct (get (wk h) i) as [old|] eqn:Gi; [|eauto]. eexists _, _. split; [reflexivity|]. apply wk_inv; [exact H|]. intros b X. apply in_upd in X as [X|X]; [discriminate|exact (i_wk _ _ H b X)].
  - left. destruct (get (wk h) j) as [v|] eqn:G; [|eauto]. unfold locked. destruct (Nat.eqb_spec (count h v) 0) as [Z|N].
    + destruct (wrap_inv h [] None) as (h' & -> & I & _); [|cbn [obind]; eauto]. apply (inv_frame h []); [exact H|intros b [X|[]]; discriminate|reflexivity].
    + destruct (wrap_inv (retain h v) [] v) as (h' & -> & I & _); [|cbn [obind]; eauto]. apply retain_inv; [exact H|right; lia].
  - left. destruct (get (wk h) j) as [v|] eqn:G; [|eauto]. destruct (Nat.eqb_spec (count h v) 0) as [Z|N]; [eauto|]. eexists _, _. split; [reflexivity|].
    apply pushs_inv, retain_inv; [exact H|right; lia].
  - destruct (existsb (Nat.eqb k) (alive h)) eqn:A; [|right; split; [reflexivity|right; exists k; split; [reflexivity|rewrite <- in_alive; congruence]]].
    left. destruct (Nat.eqb_spec (count h (self h k)) 0) as [Z|N]; [eauto|]. destruct (wrap_inv (retain h (self h k)) [] (self h k)) as (h' & -> & I & _); [|cbn [obind]; eauto].
    apply retain_inv; [exact H|right; lia].
  - left. eexists _, _. split; [reflexivity|]. now apply fresh_inv.
Qed.
Lemma run_inv os : forall h h', Inv h [] -> all_fair h os -> run h os = Ok h' -> Inv h' [].
Proof.
  induction os as [|o os IH]; intros h h' H F E; cbn [run all_fair] in *; [injection E as <-; exact H|]. destruct F as [F1 F2].
  destruct (step_inv h o H F1) as [(h1 & e & E1 & I)|[E1 _]]; rewrite E1 in *; cbn [obind] in E; [|discriminate]. exact (IH h1 h' I F2 E).
Qed.
Lemma run_all os : forall h, Inv h [] -> all_fair h os -> (exists h', run h os = Ok h' /\ Inv h' []) \/
  (exists done o rest h1, os = done ++ o :: rest /\ run h done = Ok h1 /\ misuse h1 o /\ run h os = UB).
Proof.
  induction os as [|o os IH]; intros h H F; [left; cbn; eauto|]. cbn [all_fair] in F. destruct F as [F1 F2]. destruct (step_inv h o H F1) as [(h1 & e & E1 & I)|[E1 M]].
  - rewrite E1 in F2. destruct (IH h1 I F2) as [(h' & E & I')|(d & o' & r & h2 & -> & E & M & U)].
    + left. exists h'. cbn [run]. rewrite E1. auto.
    + right. exists (o :: d), o', r, h2. cbn [app run]. rewrite E1. cbn [obind]. auto.
  - right. exists [], o, os, h. cbn [run]. rewrite E1. cbn. auto.
Qed.
Lemma pointers_in h T k : Inv h T -> (In (Some k) (pointers h) <-> exists b c, nth_error (blocks h) b = Some c /\ obj c = Some k /\ In (Some (Some b)) (sh h)).
Proof.
  intros H. unfold pointers. rewrite in_map_iff. split.
  - intros ([[b|]|] & E & I); try discriminate. cbn in E. destruct (nth_error (blocks h) b) as [c|] eqn:Eb; [|discriminate]. eauto 6.
  - intros (b & c & E & O & I). exists (Some (Some b)). cbn. rewrite E. auto.
Qed.
Lemma owners_cnt h b c k : nth_error (blocks h) b = Some c -> obj c = Some k -> (forall b' c', nth_error (blocks h) b' = Some c' -> obj c' = Some k -> b' = b) -> owners k (pointers h) = cnt b (sh h).
Proof.
  intros E O U. unfold pointers. induction (sh h) as [|[[a|]|] l IH]; [reflexivity| | |]; cbn [map owners cnt]; [|exact IH|exact IH]. cbn [target is].
  destruct (Nat.eqb_spec a b) as [->|N]; [rewrite E, O, Nat.eqb_refl, IH; reflexivity|]. destruct (nth_error (blocks h) a) as [d|] eqn:Ea; [|exact IH]. destruct (obj d) as [j|] eqn:Oj; [|exact IH].
  destruct (Nat.eqb_spec j k) as [->|Nj]; [|exact IH]. destruct N. exact (U a d Ea Oj).
Qed.
Lemma count_owners h v k : Inv h [] -> target h v = Some k -> count h v = owners k (pointers h).
Proof.
  intros H E. destruct v as [b|]; [|discriminate]. cbn in E |- *. destruct (nth_error (blocks h) b) as [c|] eqn:Eb; [|discriminate]. rewrite (i_uses _ _ H b c Eb). cbn. rewrite Nat.add_0_r. symmetry.
  apply (owners_cnt h b c k Eb E). intros b' c' E' O'. exact (obj_unique h [] b' c' b c k H E' O' Eb E).
Qed.
Lemma count_live h T v k : Inv h T -> target h v = Some k -> (live (log h) k <-> count h v <> 0).
Proof.
  intros H E. destruct v as [b|]; [|discriminate]. cbn in E |- *. destruct (nth_error (blocks h) b) as [c|] eqn:Eb; [|discriminate]. destruct (life_deleted h T b c k H Eb E) as [D G]. unfold live. rewrite D. tauto.
Qed.
Lemma live_owned h k : Inv h [] -> (live (log h) k <-> In (Some k) (pointers h)).
Proof.
  intros H. rewrite (pointers_in h [] k H). split.
  - intros [G D]. destruct (i_given _ _ H k) as [L|(b & c & E & O)]; [apply life_given in L; tauto|]. exists b, c. split; [exact E|]. split; [exact O|]. apply cnt_pos.
    destruct (life_deleted h [] b c k H E O) as [X _]. pose proof (i_uses _ _ H b c E) as U. cbn in U. rewrite Nat.add_0_r in U. rewrite <- U. destruct (Nat.eq_dec (uses c) 0); [tauto|lia].
  - intros (b & c & E & O & I). apply (count_live h [] (Some b) k H); cbn; rewrite E; [exact O|]. rewrite (i_uses _ _ H b c E). pose proof (cnt_in b _ I). lia.
Qed.
Lemma inv_proper h T : Inv h T -> proper (log h).
Proof.
  intros H k. cbv zeta. fold (life k (log h)). destruct (i_given _ _ H k) as [L|(b & c & E & O)]; [auto|]. destruct (i_obj _ _ H b c k E O) as (_ & _ & L). rewrite L. destruct (uses c); auto.
Qed.
Lemma pointers_snoc h h' v : map obj (blocks h') = map obj (blocks h) -> sh h' = sh h ++ [Some v] -> pointers h' = pointers h ++ [target h v].
Proof.
  intros M S. assert (T : forall v, target h' v = target h v).
  { intros [b|]; [|reflexivity]. cbn. pose proof (f_equal (fun l => nth_error l b) M) as X. cbn in X. rewrite !nth_error_map in X. destruct (nth_error (blocks h') b), (nth_error (blocks h) b); cbn in X; congruence. }
  unfold pointers. rewrite S, map_app. cbn [map]. rewrite T. f_equal. apply map_ext. intros [w|]; [apply T|reflexivity].
Qed.
Lemma objs_retain h v : map obj (blocks (retain h v)) = map obj (blocks h).
Proof.
  destruct v as [b|]; [|reflexivity]. cbn. destruct (nth_error (blocks h) b) as [c|] eqn:Eb; [cbn|reflexivity].
  revert b Eb. induction (blocks h) as [|x l IH]; intros [|b] Eb; cbn in *; try discriminate; [injection Eb as ->; reflexivity|]. f_equal. now apply IH.
Qed.

(** ** What each pointer points to afterwards *)
Lemma nth_map_target h l n : nth n (map (fun x => match x with Some v => target h v | None => None end) l) None = match get l n with Some v => target h v | None => None end.
Proof. revert n. unfold get. induction l as [|x l IH]; intros [|n]; cbn; try reflexivity; [destruct x; reflexivity|apply IH]. Qed.
Lemma nth_pointers h n : nth n (pointers h) None = match get (sh h) n with Some v => target h v | None => None end.
Proof. apply nth_map_target. Qed.
Lemma nth_weaks h n : nth n (weaks h) None = match get (wk h) n with Some v => target h v | None => None end.
Proof. apply nth_map_target. Qed.
Lemma same_targets h h' : map obj (blocks h') = map obj (blocks h) -> forall v, target h' v = target h v.
Proof.
  intros M [b|]; [|reflexivity]. cbn. pose proof (f_equal (fun l => nth_error l b) M) as X. cbn in X. rewrite !nth_error_map in X. destruct (nth_error (blocks h') b), (nth_error (blocks h) b); cbn in X; congruence.
Qed.
Lemma get_upd l i n x : get l i <> None -> get (upd l i x) n = if Nat.eqb n i then x else get l n.
Proof.
  intros G. unfold get in *. rewrite nth_upd. destruct (Nat.eqb n i); [|reflexivity]. destruct (nth_error l i) as [[w|]|]; try congruence. destruct x; reflexivity.
Qed.
Lemma len_pointers h : length (pointers h) = length (sh h).
Proof. apply map_length. Qed.
Lemma copy_values h v : pointers (pushs (retain h v) v) = pointers h ++ [target h v].
Proof. apply pointers_snoc; [apply objs_retain|cbn; now rewrite sh_retain]. Qed.
Lemma wrap_values h v h' : Inv h [] -> held h v -> wrap (retain h v) v = Ok h' -> pointers h' = pointers h ++ [target h v].
Proof.
  intros H P E. destruct (wrap_inv (retain h v) [] v) as (h1 & E1 & _ & S & M); [now apply retain_inv|]. rewrite E in E1. injection E1 as <-. apply pointers_snoc; [rewrite M; apply objs_retain|rewrite S; now rewrite sh_retain].
Qed.
Lemma upd_values h h' i v : map obj (blocks h') = map obj (blocks h) -> get (sh h) i <> None -> sh h' = upd (sh h) i v ->
  length (pointers h') = length (pointers h) /\ forall n, nth n (pointers h') None = if Nat.eqb n i then match v with Some w => target h w | None => None end else nth n (pointers h) None.
Proof.
  intros M G S. split; [rewrite !len_pointers, S; apply length_upd|]. intros n. rewrite !nth_pointers, S, get_upd by exact G. destruct (Nat.eqb n i); [destruct v; [apply same_targets; exact M|reflexivity]|].
  destruct (get (sh h) n); [apply same_targets; exact M|reflexivity].
Qed.
Lemma assign_values h h' i j old v : Inv h [] -> get (sh h) i = Some old -> get (sh h) j = Some v -> release (with_sh (retain h v) (upd (sh h) i (Some v))) old = Ok h' ->
  length (pointers h') = length (pointers h) /\ forall n, nth n (pointers h') None = if Nat.eqb n i then target h v else nth n (pointers h) None.
Proof.
  intros H Gi Gj E. destruct (release_inv (with_sh (retain h v) (upd (sh h) i (Some v))) [] old) as (h1 & E1 & _ & S & M & _).
  - rewrite <- (sh_retain h v). apply assign_inv; [now rewrite sh_retain|]. apply retain_inv; [exact H|exact (held_sh h [] v H (in_get _ _ _ Gj))].
  - rewrite E in E1. injection E1 as <-. apply (upd_values h h' i (Some v)); [rewrite M; apply objs_retain|congruence|exact S].
Qed.
Lemma destroy_values h h' i v : Inv h [] -> get (sh h) i = Some v -> release (with_sh h (upd (sh h) i None)) v = Ok h' ->
  length (pointers h') = length (pointers h) /\ forall n, nth n (pointers h') None = if Nat.eqb n i then None else nth n (pointers h) None.
Proof.
  intros H G E. destruct (release_inv (with_sh h (upd (sh h) i None)) [] v) as (h1 & E1 & _ & S & M & _); [now apply unset_inv|].
  rewrite E in E1. injection E1 as <-. apply (upd_values h h' i None); [exact M|congruence|exact S].
Qed.
Lemma adopt_values h T p h' v : Inv h T -> adopt h p = Ok (h', v) -> pointers (pushs h' v) = pointers h ++ [p].
Proof.
  intros H E. assert (X : sh h' = sh h /\ blocks h' = blocks h ++ [B p 1] /\ v = Some (length (blocks h))).
  { unfold adopt in E. destruct p as [k|]; [destruct (existsb _ _); [|discriminate]|]; injection E as <- <-; auto. }
  destruct X as (S & Bl & ->). unfold pointers, pushs. cbn [sh with_sh]. rewrite S, map_app. cbn [map target with_sh blocks]. f_equal; [|rewrite Bl, nth_app_new, Nat.eqb_refl; reflexivity].
  apply map_ext_in. intros [[b|]|] I; try reflexivity. cbn. rewrite Bl, nth_app_new. pose proof (i_sh _ _ H b I). destruct (Nat.eqb_spec b (length (blocks h))); [lia|reflexivity].
Qed.
