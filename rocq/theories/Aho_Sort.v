(** The sorted dictionary and its segments with a common prefix. *)
From Verif Require Import Common Aho_Spec Aho_Model.
From Coq Require Import Sorting.Sorted Sorting.Permutation.
From Verif Require Archive_Model.
Local Open Scope Z_scope.
Notation entry := (list Z * Z)%type.
Notation cmp := Archive_Model.bytes_cmp.

Lemma cmp_refl a : cmp a a = Eq.
Proof. induction a as [|x a IH]; cbn; [reflexivity|]. now rewrite Z.compare_refl. Qed.
Lemma cmp_eq : forall a b, cmp a b = Eq -> a = b.
Proof.
  induction a as [|x a IH]; intros [|y b] H; cbn in H; try discriminate; [reflexivity|].
  destruct (Z.compare_spec x y) as [->|L|L]; try discriminate. f_equal. now apply IH.
Qed.
Lemma cmp_opp : forall a b, cmp b a = CompOpp (cmp a b).
Proof.
  induction a as [|x a IH]; intros [|y b]; cbn; try reflexivity. rewrite (Z.compare_antisym x y).
  destruct (Z.compare x y); cbn; [apply IH|reflexivity|reflexivity].
Qed.
Lemma cmp_trans : forall a b c, cmp a b = Lt -> cmp b c = Lt -> cmp a c = Lt.
Proof.
  induction a as [|x a IH]; intros [|y b] [|z c] H1 H2; cbn in *; try discriminate; try reflexivity.
  destruct (Z.compare_spec x y) as [->|L|L]; try discriminate.
  - destruct (Z.compare y z); try discriminate; [eauto|reflexivity].
  - destruct (Z.compare_spec y z) as [->|L'|L']; try discriminate.
    + now rewrite (proj2 (Z.compare_lt_iff x z) L).
    + now rewrite (proj2 (Z.compare_lt_iff x z) ltac:(lia)).
Qed.
Definition le (a b : entry) : Prop := pair_leb a b = true.
Lemma le_total a b : pair_leb a b = false -> le b a.
Proof.
  unfold le, pair_leb. rewrite (cmp_opp (fst a) (fst b)). destruct (cmp (fst a) (fst b)); cbn; try discriminate; [|reflexivity]. intros H. lia.
Qed.
Lemma le_trans a b c : le a b -> le b c -> le a c.
Proof.
  unfold le, pair_leb. destruct (cmp (fst a) (fst b)) eqn:E1; try discriminate; destruct (cmp (fst b) (fst c)) eqn:E2; try discriminate; intros H1 H2.
  - apply cmp_eq in E1, E2. rewrite E1, E2, cmp_refl. lia.
  - apply cmp_eq in E1. rewrite E1, E2. reflexivity.
  - apply cmp_eq in E2. rewrite <- E2, E1. reflexivity.
  - now rewrite (cmp_trans _ _ _ E1 E2).
Qed.
Lemma ins_perm x l : Permutation (ins x l) (x :: l).
Proof.
  induction l as [|y l IH]; [reflexivity|]. cbn [ins]. destruct (pair_leb x y); [reflexivity|]. rewrite IH. apply perm_swap.
Qed.
Lemma sort_perm l : Permutation (sort_pairs l) l.
Proof. induction l as [|x l IH]; [reflexivity|]. cbn [sort_pairs fold_right]. fold (sort_pairs l). now rewrite ins_perm, IH. Qed.
Lemma ins_sorted x l : StronglySorted le l -> StronglySorted le (ins x l).
Proof.
  induction 1 as [|y l Hs IH Hy]; [repeat constructor|]. cbn [ins]. destruct (pair_leb x y) eqn:E.
  - constructor; [now constructor|]. constructor; [exact E|]. eapply Forall_impl; [|exact Hy]. intros z. now apply le_trans.
  - constructor; [exact IH|]. apply (Permutation_Forall (Permutation_sym (ins_perm x l))). constructor; [now apply le_total|exact Hy].
Qed.
Lemma sort_sorted l : StronglySorted le (sort_pairs l).
Proof. induction l as [|x l IH]; [constructor|]. cbn [sort_pairs fold_right]. now apply ins_sorted. Qed.

Lemma number_in : forall dict k0 w k, In (w, k) (number k0 dict) <-> k0 <= k /\ nth_error dict (Z.to_nat (k - k0)) = Some w.
Proof.
  induction dict as [|v dict IH]; intros k0 w k; cbn [number In].
  - split; [intros []|]. intros [_ H]. destruct (Z.to_nat (k - k0)); discriminate.
  - rewrite IH. split.
    + intros [[= -> ->]|[H1 H2]]; [split; [lia|]; now rewrite Z.sub_diag|]. split; [lia|].
      replace (Z.to_nat (k - k0)) with (S (Z.to_nat (k - (k0 + 1)))) by lia. exact H2.
    + intros [H1 H2]. destruct (Z.eq_dec k k0) as [->|N].
      * left. rewrite Z.sub_diag in H2. cbn in H2. now injection H2 as ->.
      * right. split; [lia|]. replace (Z.to_nat (k - k0)) with (S (Z.to_nat (k - (k0 + 1)))) in H2 by lia. exact H2.
Qed.
Lemma sorted_in dict w k : In (w, k) (sort_pairs (number 0 dict)) <-> word_at dict k w.
Proof.
  unfold word_at. rewrite <- (Z.sub_0_r k) at 3. rewrite <- number_in. split; apply Permutation_in; [apply sort_perm|apply Permutation_sym, sort_perm].
Qed.
Lemma number_length : forall dict k, length (number k dict) = length dict.
Proof. induction dict; intros; cbn; auto. Qed.

(** ** Prefixes *)
Fixpoint prefixb (p w : list Z) : bool :=
  match p, w with [], _ => true | c :: p, d :: w => (c =? d) && prefixb p w | _ :: _, [] => false end.
Lemma prefixb_spec : forall p w, prefixb p w = true <-> exists r, w = p ++ r.
Proof.
  induction p as [|c p IH]; intros w; cbn [prefixb app].
  - split; [intros _; now exists w|reflexivity].
  - destruct w as [|d w]; [split; [discriminate|intros (r & E); discriminate]|]. rewrite andb_true_iff, IH. split.
    + intros [->%Z.eqb_eq (r & ->)]. now exists r.
    + intros (r & [= -> ->]). split; [apply Z.eqb_refl|now exists r].
Qed.
Lemma prefixb_snoc : forall p w c, 1 <= c -> prefixb (p ++ [c]) w = prefixb p w && (char_at (length p) w =? c).
Proof.
  induction p as [|d p IH]; intros w c Hc; cbn [app prefixb length].
  - unfold char_at. destruct w as [|x w]; cbn [nth_error]; [symmetry; apply andb_false_iff; right; lia|]. rewrite andb_true_r. apply Z.eqb_sym.
  - destruct w as [|x w]; [reflexivity|]. rewrite IH by exact Hc. rewrite andb_assoc. reflexivity.
Qed.
Lemma char_at_app p r : char_at (length p) (p ++ r) = char_at 0 r.
Proof. unfold char_at. rewrite nth_error_app2 by lia. now rewrite Nat.sub_diag. Qed.
Lemma cmp_app p a b : cmp (p ++ a) (p ++ b) = cmp a b.
Proof. induction p as [|c p IH]; [reflexivity|]. cbn. now rewrite Z.compare_refl. Qed.

Lemma filter_sorted {A} (R : A -> A -> Prop) p l : StronglySorted R l -> StronglySorted R (filter p l).
Proof.
  induction 1 as [|x l _ IH Hx]; [constructor|]. cbn [filter]. destruct (p x); [|exact IH]. constructor; [exact IH|].
  apply Forall_forall. intros y Hy. apply filter_In in Hy. rewrite Forall_forall in Hx. now apply Hx.
Qed.

Section seg.
Context (W : list entry).
Hypothesis HW : StronglySorted le W.
Hypothesis HN : forall e, In e W -> nul_free (fst e).
Definition sub (p : list Z) : list entry := filter (fun e => prefixb p (fst e)) W.
Definition key (p : list Z) (e : entry) : Z := char_at (length p) (fst e).

Lemma sub_in p e : In e (sub p) <-> In e W /\ exists r, fst e = p ++ r.
Proof. unfold sub. now rewrite filter_In, prefixb_spec. Qed.
Lemma sub_nil : sub [] = W.
Proof. unfold sub. clear HW HN. induction W as [|e l IH]; [reflexivity|]. cbn. f_equal. exact IH. Qed.
Lemma char0 r : nul_free r -> 0 <= char_at 0 r < 256.
Proof. intros H. unfold char_at. destruct r as [|c r]; cbn; [lia|]. inversion H; subst. lia. Qed.
Lemma nul_free_app a b : nul_free (a ++ b) <-> nul_free a /\ nul_free b.
Proof. apply Forall_app. Qed.
Lemma key_range p e : In e (sub p) -> 0 <= key p e < 256.
Proof.
  intros (Hi & r & E)%sub_in. unfold key. rewrite E, char_at_app. apply char0. specialize (HN e Hi). rewrite E in HN. now apply nul_free_app in HN.
Qed.
Lemma key_zero p e : In e (sub p) -> (key p e = 0 <-> fst e = p).
Proof.
  intros (Hi & r & E)%sub_in. unfold key. specialize (HN e Hi). rewrite E in *. rewrite char_at_app. apply nul_free_app in HN. destruct HN as [_ Hr].
  destruct r as [|c r]; [rewrite app_nil_r; tauto|]. cbn. inversion Hr; subst. split; [lia|]. intros Q. exfalso. apply (f_equal (@length Z)) in Q. rewrite app_length in Q. cbn in Q. lia.
Qed.
Lemma sub_keys p : StronglySorted (fun a b => key p a <= key p b) (sub p).
Proof.
  assert (G : StronglySorted le (sub p)) by now apply filter_sorted.
  assert (H : forall e, In e (sub p) -> In e W /\ exists r, fst e = p ++ r) by (intros e; apply sub_in).
  induction G as [|x l _ IH Hx]; [constructor|]. constructor; [apply IH; intros e He; apply H; now right|].
  apply Forall_forall. intros y Hy. rewrite Forall_forall in Hx. specialize (Hx y Hy).
  destruct (H x (or_introl eq_refl)) as (Ix & r1 & E1). destruct (H y (or_intror Hy)) as (Iy & r2 & E2). unfold key, le, pair_leb in *. rewrite E1, E2, !char_at_app in *.
  rewrite cmp_app in Hx. apply HN in Ix, Iy. rewrite E1 in Ix. rewrite E2 in Iy. apply nul_free_app in Ix, Iy. destruct Ix as [_ Ix], Iy as [_ Iy].
  destruct r1 as [|c r1]; [cbn [char_at nth_error]; now apply char0|]. destruct r2 as [|d r2]; [cbn in Hx; discriminate|]. cbn in *.
  destruct (Z.compare_spec c d); try discriminate; lia.
Qed.
Lemma sub_snoc p c : 1 <= c -> sub (p ++ [c]) = filter (fun e => key p e =? c) (sub p).
Proof.
  intros Hc. unfold sub, key. clear HW HN. induction W as [|e l IH]; [reflexivity|]. cbn [filter]. rewrite prefixb_snoc by exact Hc.
  destruct (prefixb p (fst e)); cbn [andb filter]; [|exact IH]. destruct (char_at (length p) (fst e) =? c); [now f_equal|exact IH].
Qed.
(** The first of a segment decides whether the prefix is itself a word. *)
Lemma sub_head p e l : sub p = e :: l ->
  (fst e = p /\ In (p, snd e) W /\ forall k, In (p, k) W -> snd e <= k) \/ (fst e <> p /\ forall k, ~ In (p, k) W).
Proof.
  intros E. assert (Hs : StronglySorted le (e :: l)) by (rewrite <- E; now apply filter_sorted).
  assert (He : In e (sub p)) by (rewrite E; now left). pose proof (proj1 (sub_in p e) He) as (Hi & r & Er).
  assert (L : forall k, In (p, k) W -> (p, k) = e \/ le e (p, k)).
  { intros k Hk. assert (Hk' : In (p, k) (sub p)) by (apply sub_in; split; [exact Hk|]; exists []; cbn; now rewrite app_nil_r).
    rewrite E in Hk'. destruct Hk' as [->|Hk']; [now left|]. right. inversion Hs as [|? ? ? Hf]; subst. rewrite Forall_forall in Hf. now apply Hf. }
  destruct (list_eq_dec Z.eq_dec (fst e) p) as [Q|Q]; [left|right]; (split; [exact Q|]).
  - split; [rewrite <- Q, <- surjective_pairing; exact Hi|]. intros k Hk. destruct (L k Hk) as [<-|Hl]; [reflexivity|]. unfold le, pair_leb in Hl. cbn [fst snd] in Hl. rewrite Q, cmp_refl in Hl. lia.
  - intros k Hk. destruct (L k Hk) as [<-|Hl]; [now apply Q|]. unfold le, pair_leb in Hl. cbn [fst] in Hl. rewrite Er in Hl, Q. rewrite <- (app_nil_r p) in Hl at 2. rewrite cmp_app in Hl.
    destruct r; [exfalso; apply Q, app_nil_r|discriminate].
Qed.

(** A list in the order of its keys. *)
Lemma key_split {A} (k : A -> Z) c : forall l, StronglySorted (fun a b => k a <= k b) l ->
  l = filter (fun e => k e <? c) l ++ filter (fun e => k e =? c) l ++ filter (fun e => c <? k e) l.
Proof.
  induction 1 as [|x l Hs IH Hx]; [reflexivity|]. cbn [filter]. destruct (Z.ltb_spec (k x) c).
  - destruct (Z.eqb_spec (k x) c); [lia|]. destruct (Z.ltb_spec c (k x)); [lia|]. cbn [app]. f_equal. exact IH.
  - assert (E : filter (fun e => k e <? c) l = []).
    { rewrite Forall_forall in Hx. clear - Hx H. induction l as [|y l IH]; [reflexivity|]. cbn [filter]. pose proof (Hx y (or_introl eq_refl)).
      destruct (Z.ltb_spec (k y) c); [lia|]. apply IH. intros z Hz. apply Hx. now right. }
    rewrite E in *. cbn [app] in *. destruct (Z.eqb_spec (k x) c).
    + destruct (Z.ltb_spec c (k x)); [lia|]. cbn [app]. f_equal. exact IH.
    + destruct (Z.ltb_spec c (k x)) as [H1|H1]; [|lia].
      assert (E2 : filter (fun e => k e =? c) l = []).
      { rewrite Forall_forall in Hx. clear - Hx H1. induction l as [|y l IH]; [reflexivity|]. cbn [filter]. pose proof (Hx y (or_introl eq_refl)).
        destruct (Z.eqb_spec (k y) c); [lia|]. apply IH. intros z Hz. apply Hx. now right. }
      rewrite E2 in *. cbn [app] in *. now f_equal.
Qed.
End seg.

(** ** Counting the children *)
Definition cnt (c : Z) (cs : list Z) : Z := Z.of_nat (length (filter (fun x => x =? c) cs)).
Lemma tally_spec : forall cs, let '(tbl, ch) := fold_left tally cs (fun _ => 0, []) in
  (forall c, tbl c = cnt c cs) /\ (forall c, In c ch <-> In c cs) /\ (StronglySorted Z.le cs -> StronglySorted Z.lt ch).
Proof.
  intros cs. rewrite <- fold_left_rev_right. rewrite <- (rev_involutive cs). set (l := rev cs). clearbody l. clear cs.
  rewrite rev_involutive. induction l as [|x l IH]; [cbn; repeat split; auto; constructor|].
  cbn [fold_right rev]. destruct (fold_right (fun y st => tally st y) (fun _ => 0, []) l) as [tbl ch] eqn:E. destruct IH as (H1 & H2 & H3).
  cbn [tally]. assert (C : forall c, cnt c (rev l ++ [x]) = cnt c (rev l) + if x =? c then 1 else 0).
  { intros c. unfold cnt. rewrite filter_app, app_length. cbn [filter]. destruct (x =? c); cbn [length]; lia. }
  assert (Z0 : tbl x = 0 <-> ~ In x (rev l)).
  { rewrite H1. unfold cnt. split.
    - intros Q Hin. assert (G : In x (filter (fun y => y =? x) (rev l))) by (apply filter_In; split; [exact Hin|apply Z.eqb_refl]).
      destruct (filter (fun y => y =? x) (rev l)); [destruct G|cbn in Q; lia].
    - intros Q. destruct (filter (fun y => y =? x) (rev l)) as [|y r] eqn:F; [reflexivity|]. exfalso. apply Q.
      assert (G : In y (filter (fun y => y =? x) (rev l))) by (rewrite F; now left). apply filter_In in G. destruct G as [G ->%Z.eqb_eq]. exact G. }
  split; [|split].
  - intros c. rewrite C. rewrite (Z.eqb_sym x c). destruct (Z.eqb_spec c x) as [->|N]; rewrite H1; lia.
  - intros c. rewrite in_app_iff. cbn [In]. destruct (Z.eqb_spec (tbl x) 0) as [Q|Q].
    + rewrite in_app_iff. cbn [In]. now rewrite H2.
    + rewrite H2. split; [auto|]. intros [Hc|[<-|[]]]; [exact Hc|]. destruct (in_dec Z.eq_dec x (rev l)) as [D|D]; [exact D|]. exfalso. now apply Q, Z0.
  - intros Hs. assert (Hs' : StronglySorted Z.le (rev l) /\ forall y, In y (rev l) -> y <= x).
    { clear - Hs. induction (rev l) as [|y r IH]; [split; [constructor|intros ? []]|]. cbn [app] in Hs. inversion Hs as [|? ? Hr Hf]; subst. destruct (IH Hr) as [I1 I2].
      rewrite Forall_forall in Hf. split; [constructor; [exact I1|]; apply Forall_forall; intros z Hz; apply Hf, in_or_app; now left|].
      intros z [<-|Hz]; [apply Hf, in_or_app; right; now left|now apply I2]. }
    destruct Hs' as [S1 S2]. specialize (H3 S1). destruct (Z.eqb_spec (tbl x) 0) as [Q|Q]; [|exact H3].
    assert (B : forall y, In y ch -> y < x).
    { intros y Hy. apply H2 in Hy. pose proof (S2 y Hy). destruct (Z.eq_dec y x) as [->|]; [|lia]. now apply Z0 in Q. }
    clear - H3 B. induction H3 as [|y r Hr IH Hf]; [repeat constructor|]. cbn [app]. constructor; [apply IH; intros z Hz; apply B; now right|].
    apply Forall_app. split; [exact Hf|]. constructor; [apply B; now left|constructor].
Qed.
(** What comes before a child. *)
Definition sum_cnt (cs : list Z) (l : list Z) : Z := fold_right (fun c n => cnt c cs + n) 0 l.
Lemma sum_cnt_app cs a b : sum_cnt cs (a ++ b) = sum_cnt cs a + sum_cnt cs b.
Proof. induction a as [|x a IH]; [reflexivity|]. cbn [app sum_cnt fold_right]. unfold sum_cnt in *. lia. Qed.
Lemma sum_cnt_spec cs : forall l, NoDup l -> sum_cnt cs l = Z.of_nat (length (filter (fun x => if in_dec Z.eq_dec x l then true else false) cs)).
Proof.
  induction 1 as [|c l Hc _ IH]; cbn [sum_cnt fold_right].
  - replace (filter _ cs) with (@nil Z); [reflexivity|]. symmetry. induction cs as [|x cs IHc]; [reflexivity|]. exact IHc.
  - fold (sum_cnt cs l). rewrite IH. unfold cnt. clear IH. induction cs as [|x cs IHc]; [reflexivity|]. cbn [filter].
    destruct (Z.eqb_spec x c) as [->|N].
    + destruct (in_dec Z.eq_dec c (c :: l)) as [_|D]; [|exfalso; apply D; now left]. destruct (in_dec Z.eq_dec c l); [contradiction|]. cbn [length]. lia.
    + destruct (in_dec Z.eq_dec x (c :: l)) as [D|D]; destruct (in_dec Z.eq_dec x l) as [D'|D']; cbn [length]; try lia.
      * destruct D as [D|D]; [congruence|contradiction].
      * exfalso. apply D. now right.
Qed.
Lemma sum_before cs pre c post : StronglySorted Z.lt (pre ++ c :: post) -> (forall x, In x cs -> In x (pre ++ c :: post)) ->
  sum_cnt cs pre = Z.of_nat (length (filter (fun x => x <? c) cs)).
Proof.
  intros Hs Hc. assert (P : (forall x, In x pre -> x < c) /\ (forall x, In x post -> c < x) /\ NoDup pre).
  { clear Hc. induction pre as [|y pre IH]; cbn [app] in Hs; inversion Hs as [|? ? Hr Hf]; subst.
    - split; [intros ? []|]. split; [now apply Forall_forall|constructor].
    - destruct (IH Hr) as (I1 & I2 & I3). rewrite Forall_forall in Hf. split; [|split; [exact I2|constructor; [|exact I3]]].
      + intros x [<-|Hx]; [apply Hf, in_elt|now apply I1].
      + intros Hy. specialize (Hf y (in_or_app _ _ _ (or_introl Hy))). lia. }
  destruct P as (P1 & P2 & P3). rewrite sum_cnt_spec by exact P3. f_equal. f_equal. apply filter_ext_in. intros x Hx. specialize (Hc x Hx).
  destruct (in_dec Z.eq_dec x pre) as [D|D]; [specialize (P1 x D); lia|]. apply in_app_iff in Hc. destruct Hc as [Hc|[<-|Hc]]; [contradiction|lia|]. specialize (P2 x Hc). lia.
Qed.
