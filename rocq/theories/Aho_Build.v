(** The double array: construct() up to the failure links. *)
From Verif Require Import Common Aho_Spec Aho_Model Aho_Sort.
From Coq Require Import Sorting.Sorted Sorting.Permutation.
Local Open Scope Z_scope.

Lemma get_ok a i : 0 <= i < size a -> get a i = Ok (cell a i).
Proof. intros H. unfold get. replace ((0 <=? i) && (i <? size a)) with true by lia. reflexivity. Qed.
Lemma modify_ok a i f : 0 <= i < size a -> modify a i f = Ok {| size := size a; cell := fun j => if j =? i then f (cell a i) else cell a j |}.
Proof. intros H. unfold modify. rewrite get_ok by exact H. cbn [obind]. unfold put. replace ((0 <=? i) && (i <? size a)) with true by lia. reflexivity. Qed.

Lemma skipn_cons_nth {A} : forall (l : list A) ix e, nth_error l ix = Some e -> skipn ix l = e :: skipn (S ix) l.
Proof. induction l as [|x l IH]; intros [|ix] e H; try discriminate; [now injection H as ->|]. exact (IH ix e H). Qed.
Lemma scan_ok words : forall n dep ix st, (ix + n <= length words)%nat ->
  scan words n dep ix st = Ok (fold_left tally (map (fun e => char_at dep (fst e)) (firstn n (skipn ix words))) st).
Proof.
  induction n as [|n IH]; intros dep ix st H; [reflexivity|]. cbn [scan]. destruct (nth_error words ix) as [[w k]|] eqn:E.
  - rewrite IH by lia. rewrite (skipn_cons_nth words ix (w, k) E). reflexivity.
  - apply nth_error_None in E. lia.
Qed.

Lemma fits_ok a b : forall cs, (forall c, In c cs -> 0 <= b + c < size a) ->
  exists r, fits a b cs = Ok r /\ (r = true <-> forall c, In c cs -> check (cell a (b + c)) < 0).
Proof.
  induction cs as [|c cs IH]; intros H; cbn [fits].
  - exists true. split; [reflexivity|]. split; [intros _ ? []|reflexivity].
  - rewrite get_ok by (apply H; now left). cbn [obind]. destruct (Z.leb_spec 0 (check (cell a (b + c)))) as [L|L].
    + exists false. split; [reflexivity|]. split; [discriminate|]. intros G. specialize (G c (or_introl eq_refl)). lia.
    + destruct IH as (r & E & Hr); [intros d Hd; apply H; now right|]. exists r. split; [exact E|]. rewrite Hr. split.
      * intros G d [<-|Hd]; [exact L|now apply G].
      * intros G d Hd. apply G. now right.
Qed.
Lemma find_base_ok a cs M : (forall c, In c cs -> 1 <= c < 256) -> M + 256 <= size a -> 1 <= M -> (forall x, M < x -> check (cell a x) < 0) ->
  forall fuel b, 1 <= b <= M -> (M - b < Z.of_nat fuel) -> exists b', find_base fuel a b cs = Ok b' /\ b <= b' <= M /\ forall c, In c cs -> check (cell a (b' + c)) < 0.
Proof.
  intros Hc Hs HM Hx. induction fuel as [|fuel IH]; intros b Hb Hf; [cbn in Hf; lia|]. cbn [find_base].
  destruct (fits_ok a b cs) as (r & E & Hr); [intros c Hc'; specialize (Hc c Hc'); lia|]. rewrite E. cbn [obind]. destruct r.
  - exists b. split; [reflexivity|]. split; [lia|]. now apply Hr.
  - destruct (Z.eq_dec b M) as [->|N].
    + exfalso. assert (Q : false = true) by (apply Hr; intros c Hc'; apply Hx; specialize (Hc c Hc'); lia). discriminate.
    + destruct (IH (b + 1)) as (b' & E' & Hb' & G); [lia|lia|]. exists b'. split; [exact E'|]. split; [lia|exact G].
Qed.

Fixpoint items (b : Z) (dep ix : nat) (tbl : Z -> Z) (cur : Z) (cs : list Z) : list item :=
  match cs with
  | [] => []
  | c :: r => (if (0 <? c) && (0 <? tbl c) then [{| i_pos := b + c; i_dep := S dep; i_ix := ix + Z.to_nat cur; i_n := Z.to_nat (tbl c) |}] else []) ++
              items b dep ix tbl (cur + tbl c) r
  end.
Definition sum_tbl (tbl : Z -> Z) (l : list Z) : Z := fold_right (fun c n => tbl c + n) 0 l.
Lemma items_in b dep ix tbl : forall cs cur it, In it (items b dep ix tbl cur cs) -> exists pre c post, cs = pre ++ c :: post /\ 0 < c /\ 0 < tbl c /\
  it = {| i_pos := b + c; i_dep := S dep; i_ix := ix + Z.to_nat (cur + sum_tbl tbl pre); i_n := Z.to_nat (tbl c) |}.
Proof.
  induction cs as [|c cs IH]; intros cur it H; [destruct H|]. cbn [items] in H. apply in_app_iff in H. destruct H as [H|H].
  - destruct ((0 <? c) && (0 <? tbl c)) eqn:E; [|destruct H]. destruct H as [<-|[]]. exists [], c, cs. split; [reflexivity|]. split; [lia|]. split; [lia|]. cbn. now rewrite Z.add_0_r.
  - destruct (IH _ _ H) as (pre & d & post & -> & H1 & H2 & ->). exists (c :: pre), d, post. split; [reflexivity|]. split; [exact H1|]. split; [exact H2|]. cbn [sum_tbl fold_right]. unfold sum_tbl. now rewrite Z.add_assoc.
Qed.
Lemma items_pos b dep ix tbl : forall cs cur, map i_pos (items b dep ix tbl cur cs) = map (fun c => b + c) (filter (fun c => (0 <? c) && (0 <? tbl c)) cs).
Proof.
  induction cs as [|c cs IH]; intros cur; [reflexivity|]. cbn [items filter]. rewrite map_app, IH. destruct ((0 <? c) && (0 <? tbl c)); reflexivity.
Qed.

Definition fresh_above (a : arr) : Prop := forall x, size a <= x -> cell a x = new_node.
Lemma resize_ok a n x : fresh_above a -> size a <= n -> cell (resize a n) x = cell a x.
Proof. intros H Hn. cbn [resize cell]. destruct (Z.ltb_spec x (Z.min n (size a))); [reflexivity|]. rewrite H by lia. reflexivity. Qed.

Definition touched (b : Z) (tbl : Z -> Z) (cs : list Z) (x : Z) : Prop := exists c, In c cs /\ 0 < c /\ 0 < tbl c /\ x = b + c.
Lemma add_children_ok pos dep ix tbl b : forall cs a cur st, 0 <= pos < size a -> base (cell a pos) = b -> 1 <= b -> fresh_above a ->
  exists a', add_children a pos dep ix tbl cur cs st = Ok (a', rev (items b dep ix tbl cur cs) ++ st) /\ size a <= size a' /\ fresh_above a' /\
    (forall x, touched b tbl cs x -> x + 256 <= size a') /\
    (forall x, touched b tbl cs x -> cell a' x = set_check pos (cell a x)) /\ (forall x, ~ touched b tbl cs x -> cell a' x = cell a x).
Proof.
  induction cs as [|c cs IH]; intros a cur st Hp Hb H1 Hf.
  - exists a. cbn. split; [reflexivity|]. split; [lia|]. split; [exact Hf|]. repeat split; intros x (c & [] & _).
  - cbn [add_children items]. destruct ((0 <? c) && (0 <? tbl c)) eqn:E.
    + rewrite get_ok by exact Hp. cbn [obind]. rewrite Hb.
      set (a1 := if size a <=? b + c + 256 then resize a (b + c + 256) else a).
      assert (S1 : size a <= size a1 /\ b + c + 256 <= size a1 /\ fresh_above a1 /\ forall x, cell a1 x = cell a x).
      { subst a1. destruct (Z.leb_spec (size a) (b + c + 256)) as [L|L].
        - split; [cbn; lia|]. split; [cbn; lia|]. split; [|intros x; now apply resize_ok]. intros x Hx. cbn [resize size] in Hx. rewrite resize_ok by assumption. apply Hf. lia.
        - split; [lia|]. split; [lia|]. split; [exact Hf|reflexivity]. }
      destruct S1 as (S1 & S2 & S3 & S4). rewrite modify_ok by lia. cbn [obind].
      set (a2 := {| size := size a1; cell := fun j => if j =? b + c then set_check pos (cell a1 (b + c)) else cell a1 j |}).
      destruct (IH a2 (cur + tbl c) ({| i_pos := b + c; i_dep := S dep; i_ix := ix + Z.to_nat cur; i_n := Z.to_nat (tbl c) |} :: st)) as (a' & G1 & G2 & G3 & G4 & G5 & G6).
      * cbn [size a2]. lia.
      * subst a2. cbn [cell]. destruct (Z.eqb_spec pos (b + c)) as [<-|]; cbn [set_check base]; now rewrite S4.
      * exact H1.
      * intros x Hx. cbn [a2 size cell] in *. destruct (Z.eqb_spec x (b + c)); [lia|]. now apply S3.
      * exists a'. split; [rewrite G1; cbn [app rev]; now rewrite <- app_assoc|]. cbn [a2 size] in G2.
        split; [lia|]. split; [exact G3|]. 
        assert (cell2 : forall x, cell a2 x = if x =? b + c then set_check pos (cell a x) else cell a x).
        { intros x. subst a2. cbn [cell]. destruct (Z.eqb_spec x (b + c)) as [->|]; now rewrite S4. }
        assert (D : forall x, {touched b tbl cs x} + {~ touched b tbl cs x}).
        { intros x. destruct (in_dec Z.eq_dec (x - b) cs) as [I|I]; [destruct (Z_lt_dec 0 (x - b)) as [P|P]; [destruct (Z_lt_dec 0 (tbl (x - b))) as [P2|P2]|]|].
          - left. exists (x - b). repeat split; auto. lia.
          - right. intros (d & _ & _ & Hd & ->). apply P2. replace (b + d - b) with d by lia. exact Hd.
          - right. intros (d & _ & Hd & _ & ->). lia.
          - right. intros (d & Hd & _ & _ & ->). apply I. replace (b + d - b) with d by lia. exact Hd. }
        split; [|split].
        -- intros x (d & [<-|Hd] & Q1 & Q2 & ->); [lia|]. apply G4. now exists d.
        -- intros x Hx. destruct (D x) as [T|T].
           ++ rewrite G5 by exact T. rewrite cell2. now destruct (x =? b + c).
           ++ rewrite G6 by exact T. rewrite cell2. destruct Hx as (d & [<-|Hd] & Q1 & Q2 & ->); [now rewrite Z.eqb_refl|]. exfalso. apply T. now exists d.
        -- intros x Hx. rewrite G6; [rewrite cell2; destruct (Z.eqb_spec x (b + c)) as [->|]; [|reflexivity]; exfalso; apply Hx; exists c; repeat split; auto; try lia; now left|].
           intros (d & Hd & Q). apply Hx. exists d. split; [now right|exact Q].
    + cbn [obind app]. destruct (IH a (cur + tbl c) st Hp Hb H1 Hf) as (a' & G1 & G2 & G3 & G4 & G5 & G6). exists a'. split; [exact G1|]. split; [exact G2|]. split; [exact G3|].
      assert (T : forall x, touched b tbl (c :: cs) x <-> touched b tbl cs x).
      { intros x. split; intros (d & Hd & Q1 & Q2 & ->); [destruct Hd as [<-|Hd]; [lia|]|]; exists d; repeat split; auto. now right. }
      split; [|split]; intros x Hx; [apply G4|apply G5|apply G6]; rewrite <- ?T; exact Hx.
Qed.

(** ** The invariant *)
Section build.
Context (W : list entry).
Hypothesis HW : StronglySorted le W.
Hypothesis HN : forall e, In e W -> nul_free (fst e).
Definition T (p : list Z) : Prop := sub W p <> [].
Definition seg (ix n : nat) : list entry := firstn n (skipn ix W).
Definition out_ok (p : list Z) (o : Z) : Prop :=
  (In (p, o) W /\ forall k, In (p, k) W -> o <= k) \/ ((forall k, ~ In (p, k) W) /\ o = -1).

Record binv (a : arr) (bef : Z) (st : list item) (lab : Z -> option (list Z)) : Prop := {
  b_size : 257 <= size a;
  b_bef : bef <= size a - 256;
  b_fresh : fresh_above a;
  b_root : lab 0 = Some [];
  b_root_check : check (cell a 0) = -1;
  b_pos : forall x p, lab x = Some p -> 0 <= x <= size a - 256 /\ T p;
  b_unl : forall x, lab x = None -> cell a x = new_node;
  b_child : forall x p, lab x = Some p -> x <> 0 -> exists q c, p = q ++ [c] /\ 1 <= c < 256 /\ lab (check (cell a x)) = Some q /\
              ~ In (check (cell a x)) (map i_pos st) /\ base (cell a (check (cell a x))) + c = x;
  b_inj : forall x y p, lab x = Some p -> lab y = Some p -> x = y;
  b_done : forall x p, lab x = Some p -> ~ In x (map i_pos st) -> 1 <= base (cell a x) <= size a - 256 /\ out_ok p (output (cell a x)) /\
              forall c, 1 <= c < 256 -> T (p ++ [c]) -> lab (base (cell a x) + c) = Some (p ++ [c]);
  b_pend : forall it, In it st -> exists p, lab (i_pos it) = Some p /\ length p = i_dep it /\ seg (i_ix it) (i_n it) = sub W p /\ i_n it = length (sub W p) /\
              output (cell a (i_pos it)) = -1;
  b_nodup : NoDup (map i_pos st);
  b_fail : forall x, fail (cell a x) = -1
}.

Definition wsum (d : nat) (l : list entry) : nat := fold_right (fun e n => (length (fst e) - d + n)%nat) 0%nat l.
Definition mu (st : list item) : nat := fold_right (fun it n => (S (wsum (i_dep it) (seg (i_ix it) (i_n it))) + n)%nat) 0%nat st.
Lemma mu_app a b : mu (a ++ b) = (mu a + mu b)%nat.
Proof. induction a as [|x a IH]; [reflexivity|]. cbn [app mu fold_right]. unfold mu in *. lia. Qed.
Lemma mu_rev l : mu (rev l) = mu l.
Proof. induction l as [|x l IH]; [reflexivity|]. cbn [rev]. rewrite mu_app, IH. cbn [mu fold_right]. unfold mu. lia. Qed.
Lemma wsum_app d a b : wsum d (a ++ b) = (wsum d a + wsum d b)%nat.
Proof. induction a as [|x a IH]; [reflexivity|]. cbn [app wsum fold_right]. unfold wsum in *. lia. Qed.

(** The entries of a child. *)
Lemma seg_sub ix n A B C : seg ix n = A ++ B ++ C -> n = length (A ++ B ++ C) -> seg (ix + length A) (length B) = B.
Proof.
  unfold seg. intros E Hn. assert (L : skipn ix W = A ++ B ++ (C ++ skipn n (skipn ix W))).
  { rewrite <- (firstn_skipn n (skipn ix W)) at 1. rewrite E. now rewrite <- !app_assoc. }
  assert (Sk : forall (l : list entry) i j, skipn (i + j) l = skipn j (skipn i l)).
  { clear. induction l as [|x l IH]; intros [|i] j; cbn; auto. now destruct j. }
  rewrite Sk, L, skipn_app, skipn_all, Nat.sub_diag. cbn [skipn app]. rewrite firstn_app, Nat.sub_diag, firstn_all. cbn. now rewrite app_nil_r.
Qed.
Lemma child_seg p ix n pre c post : seg ix n = sub W p -> n = length (sub W p) -> 1 <= c ->
  StronglySorted Z.lt (pre ++ c :: post) -> (forall x, In x (map (key p) (sub W p)) -> In x (pre ++ c :: post)) ->
  seg (ix + Z.to_nat (sum_cnt (map (key p) (sub W p)) pre)) (Z.to_nat (cnt c (map (key p) (sub W p)))) = sub W (p ++ [c]) /\
  Z.to_nat (cnt c (map (key p) (sub W p))) = length (sub W (p ++ [c])).
Proof.
  intros E Hn Hc Hs Hall. rewrite (sum_before _ _ _ _ Hs Hall), sub_snoc by exact Hc. unfold cnt. rewrite !Nat2Z.id.
  assert (F : forall f, length (filter f (map (key p) (sub W p))) = length (filter (fun e => f (key p e)) (sub W p))).
  { intros f. generalize (sub W p). induction l as [|e l IH]; [reflexivity|]. cbn [map filter]. destruct (f (key p e)); cbn [length]; auto. }
  rewrite !F. split; [|reflexivity]. pose proof (key_split (key p) c _ (sub_keys W HW HN p)) as K.
  apply (seg_sub ix n _ _ (filter (fun e => c <? key p e) (sub W p))); [now rewrite <- K|now rewrite <- K].
Qed.

Lemma child_T p c : 1 <= c -> T (p ++ [c]) <-> In c (map (key p) (sub W p)).
Proof.
  intros Hc. unfold T. rewrite sub_snoc by exact Hc. split.
  - intros H. destruct (filter (fun e => key p e =? c) (sub W p)) as [|e l] eqn:E; [congruence|].
    assert (G : In e (filter (fun e => key p e =? c) (sub W p))) by (rewrite E; now left). apply filter_In in G. destruct G as [G <-%Z.eqb_eq]. now apply in_map.
  - intros (e & E & He)%in_map_iff Q. assert (G : In e (filter (fun e => key p e =? c) (sub W p))) by (apply filter_In; split; [exact He|lia]). rewrite Q in G. destruct G.
Qed.
Lemma T_prefix p q : T (p ++ q) -> T p.
Proof.
  unfold T. intros H Q. destruct (sub W (p ++ q)) as [|e l] eqn:E; [congruence|].
  assert (G : In e (sub W (p ++ q))) by (rewrite E; now left). apply sub_in in G. destruct G as (G & r & Er).
  assert (G' : In e (sub W p)) by (apply sub_in; split; [exact G|]; exists (q ++ r); now rewrite app_assoc). rewrite Q in G'. destruct G'.
Qed.
Lemma T_word p k : In (p, k) W -> T p.
Proof. intros H Q. assert (G : In (p, k) (sub W p)) by (apply sub_in; split; [exact H|]; exists []; cbn; now rewrite app_nil_r). rewrite Q in G. destruct G. Qed.
Lemma T_nul_free p : T p -> nul_free p.
Proof.
  unfold T. intros H. destruct (sub W p) as [|e l] eqn:E; [congruence|]. assert (G : In e (sub W p)) by (rewrite E; now left). apply sub_in in G. destruct G as (G & r & Er).
  specialize (HN e G). rewrite Er in HN. now apply nul_free_app in HN.
Qed.

(** The work left *)
Lemma sum_groups d p : forall cs, NoDup cs -> (fold_right (fun c n => (wsum d (filter (fun e => (key p e) =? c)%Z (sub W p)) + n)%nat) 0%nat cs <= wsum d (sub W p))%nat.
Proof.
  generalize (sub W p) as l. intros l cs Hn.
  assert (G : fold_right (fun c n => (wsum d (filter (fun e => (key p e) =? c)%Z l) + n)%nat) 0%nat cs = wsum d (filter (fun e => if in_dec Z.eq_dec (key p e) cs then true else false) l)).
  { induction Hn as [|c cs Hc _ IH]; cbn [fold_right].
    - induction l as [|e l IHl]; [reflexivity|]. exact IHl.
    - rewrite IH. clear IH. induction l as [|e l IHl]; [reflexivity|]. cbn [filter].
      destruct (Z.eqb_spec (key p e) c) as [E|N]; destruct (in_dec Z.eq_dec (key p e) (c :: cs)) as [D|D]; destruct (in_dec Z.eq_dec (key p e) cs) as [D'|D']; cbn [wsum fold_right] in *; unfold wsum in *; try lia.
      + exfalso. now rewrite E in D'.
      + exfalso. apply D. left. now symmetry.
      + exfalso. apply D. left. now symmetry.
      + exfalso. destruct D as [D|D]; [now symmetry in D|contradiction].
      + exfalso. apply D. now right. }
  rewrite G. clear G. induction l as [|e l IHl]; [cbn; lia|]. cbn [filter]. destruct (in_dec Z.eq_dec (key p e) cs); cbn [wsum fold_right] in *; unfold wsum in *; lia.
Qed.
Lemma group_weight p c : 1 <= c -> T (p ++ [c]) -> (S (wsum (S (length p)) (sub W (p ++ [c]))) <= wsum (length p) (sub W (p ++ [c])))%nat.
Proof.
  intros Hc HT. assert (L : forall e, In e (sub W (p ++ [c])) -> (length p < length (fst e))%nat).
  { intros e (_ & r & E)%sub_in. rewrite E, !app_length. cbn. lia. }
  assert (G : forall l, (forall e, In e l -> (length p < length (fst e))%nat) -> (wsum (S (length p)) l + length l = wsum (length p) l)%nat).
  { clear. induction l as [|e l IH]; intros H; [reflexivity|]. cbn [wsum fold_right length]. specialize (IH (fun x Hx => H x (or_intror Hx))).
    specialize (H e (or_introl eq_refl)). unfold wsum in *. lia. }
  specialize (G _ L). unfold T in HT. destruct (sub W (p ++ [c])); [congruence|]. cbn [length] in *. lia.
Qed.

Lemma skip0_in ch : StronglySorted Z.lt ch -> (forall c, In c ch -> 0 <= c) -> forall c, In c (skip0 ch) <-> In c ch /\ 1 <= c.
Proof.
  intros Hs H c. destruct ch as [|d r]; [cbn; tauto|]. cbn [skip0]. inversion Hs as [|? ? _ Hf]; subst. rewrite Forall_forall in Hf.
  destruct (Z.eqb_spec d 0) as [->|N].
  - cbn. split; [intros Hc; specialize (Hf c Hc); split; [now right|lia]|intros [[<-|Hc] L]; [lia|exact Hc]].
  - split; [|tauto]. intros Hc. split; [exact Hc|]. specialize (H d (or_introl eq_refl)). destruct Hc as [<-|Hc]; [lia|]. specialize (Hf c Hc). lia.
Qed.
Lemma sum_tbl_cnt tbl cs l : (forall c, tbl c = cnt c cs) -> sum_tbl tbl l = sum_cnt cs l.
Proof. intros H. induction l as [|x l IH]; [reflexivity|]. cbn [sum_tbl sum_cnt fold_right]. unfold sum_tbl, sum_cnt in *. now rewrite IH, H. Qed.
Lemma NoDup_app_intro {A} (a b : list A) : NoDup a -> NoDup b -> (forall x, In x a -> In x b -> False) -> NoDup (a ++ b).
Proof.
  induction 1 as [|x a Hx _ IH]; intros Hb H; [exact Hb|]. cbn [app]. constructor.
  - rewrite in_app_iff. intros [C|C]; [contradiction|]. apply (H x); [now left|exact C].
  - apply IH; [exact Hb|]. intros y Hy. apply H. now right.
Qed.
Lemma lt_nodup l : StronglySorted Z.lt l -> NoDup l.
Proof. induction 1 as [|x l _ IH H]; constructor; [|exact IH]. intros C. rewrite Forall_forall in H. specialize (H x C). lia. Qed.
Lemma cnt_pos c cs : 0 < cnt c cs <-> In c cs.
Proof.
  unfold cnt. split.
  - intros H. destruct (filter (fun x => x =? c) cs) as [|x l] eqn:E; [cbn in H; lia|].
    assert (G : In x (filter (fun x => x =? c) cs)) by (rewrite E; now left). apply filter_In in G. destruct G as [G <-%Z.eqb_eq]. exact G.
  - intros H. assert (G : In c (filter (fun x => x =? c) cs)) by (apply filter_In; split; [exact H|apply Z.eqb_refl]).
    destruct (filter (fun x => x =? c) cs); [destruct G|cbn [length]; lia].
Qed.
Lemma mu_items p ix n b tbl cs : seg ix n = sub W p -> n = length (sub W p) -> StronglySorted Z.lt cs ->
  (forall x, In x (map (key p) (sub W p)) -> In x cs) -> (forall c, tbl c = cnt c (map (key p) (sub W p))) ->
  (mu (items b (length p) ix tbl 0 cs) <= wsum (length p) (sub W p))%nat.
Proof.
  intros E Hn Hs Hall Ht. etransitivity; [|apply (sum_groups (length p) p cs (lt_nodup _ Hs))].
  assert (G : forall post pre, cs = pre ++ post -> (mu (items b (length p) ix tbl (sum_tbl tbl pre) post) <=
    fold_right (fun c n => (wsum (length p) (filter (fun e => (key p e) =? c)%Z (sub W p)) + n)%nat) 0%nat post)%nat).
  { induction post as [|c post IH]; intros pre Ec; [cbn; lia|]. cbn [items fold_right].
    specialize (IH (pre ++ [c])). rewrite <- app_assoc in IH. specialize (IH Ec).
    replace (sum_tbl tbl (pre ++ [c])) with (sum_tbl tbl pre + tbl c) in IH by (rewrite !(sum_tbl_cnt tbl _ _ Ht), sum_cnt_app, Ht; cbn; lia).
    rewrite mu_app. destruct ((0 <? c) && (0 <? tbl c)) eqn:B; [|cbn [mu fold_right]; lia].
    assert (C1 : 1 <= c) by lia.
    assert (HT : T (p ++ [c])) by (apply child_T; [exact C1|]; apply cnt_pos; rewrite <- Ht; lia).
    pose proof (group_weight p c C1 HT) as GW. rewrite sub_snoc in GW by exact C1.
    assert (CS : seg (ix + Z.to_nat (sum_tbl tbl pre)) (Z.to_nat (tbl c)) = sub W (p ++ [c])).
    { rewrite (sum_tbl_cnt tbl _ _ Ht), Ht. rewrite Ec in Hs. apply (child_seg p ix n pre c post E Hn C1 Hs). now rewrite <- Ec. }
    cbn [mu fold_right i_dep i_ix i_n]. rewrite CS, sub_snoc by exact C1. fold mu. lia. }
  exact (G cs [] eq_refl).
Qed.

Lemma step a bef it st lab : binv a bef (it :: st) lab ->
  exists a' bef' st' lab', build1 W a bef it st = Ok (a', bef', st') /\ binv a' bef' st' lab' /\ (mu st' < mu (it :: st))%nat.
Proof.
  intros B. destruct (b_pend _ _ _ _ B it (or_introl eq_refl)) as (p & Lp & Dp & Sg & Nn & Out).
  destruct (b_pos _ _ _ _ B _ _ Lp) as [Pp Tp]. pose proof (b_size _ _ _ _ B) as Bs.
  assert (Hlen : (i_ix it + i_n it <= length W)%nat).
  { assert (L : length (seg (i_ix it) (i_n it)) = i_n it) by (rewrite Sg; now symmetry). unfold seg in L. rewrite firstn_length, skipn_length in L.
    destruct (i_n it) eqn:En; [|lia]. unfold T in Tp. destruct (sub W p); [congruence|discriminate]. }
  destruct (sub W p) as [|e0 rest] eqn:Ep; [unfold T in Tp; congruence|].
  assert (He0 : nth_error W (i_ix it) = Some e0).
  { unfold seg in Sg. destruct (i_n it); [discriminate|]. destruct (nth_error W (i_ix it)) as [e|] eqn:Ee; [|apply nth_error_None in Ee; lia].
    rewrite (skipn_cons_nth _ _ _ Ee) in Sg. cbn [firstn] in Sg. now injection Sg as ->. }
  assert (Pw : (length (fst e0) = length p <-> fst e0 = p)).
  { assert (G : In e0 (sub W p)) by (rewrite Ep; now left). apply sub_in in G. destruct G as (_ & r & ->). rewrite app_length. split; [|intros E%(f_equal (@length Z)); rewrite app_length in E; lia].
    intros L. destruct r; [now rewrite app_nil_r|cbn in L; lia]. }
  unfold build1. rewrite He0. destruct e0 as [w0 k0]. cbn [fst snd] in *. rewrite <- Dp in *.
  set (n1 := if Nat.eqb (length w0) (length p) then set_output k0 (cell a (i_pos it)) else cell a (i_pos it)).
  assert (A1 : exists a1, (if Nat.eqb (length w0) (length p) then modify a (i_pos it) (set_output k0) else Ok a) = Ok a1 /\ size a1 = size a /\
    forall x, cell a1 x = if x =? i_pos it then n1 else cell a x).
  { subst n1. destruct (Nat.eqb (length w0) (length p)).
    - rewrite modify_ok by lia. eexists. split; [reflexivity|]. split; reflexivity.
    - exists a. split; [reflexivity|]. split; [reflexivity|]. intros x. destruct (Z.eqb_spec x (i_pos it)) as [->|]; reflexivity. }
  destruct A1 as (a1 & -> & S1 & C1). cbn [obind].
  assert (N1 : base n1 = base (cell a (i_pos it)) /\ check n1 = check (cell a (i_pos it)) /\ fail n1 = fail (cell a (i_pos it)) /\ out_ok p (output n1)).
  { subst n1. pose proof (sub_head W HW HN p _ _ Ep) as Hd. cbn [fst snd] in Hd. destruct (Nat.eqb_spec (length w0) (length p)) as [L|L]; cbn [set_output base check fail output].
    - repeat split. left. destruct Hd as [(_ & H1 & H2)|(Q & _)]; [now split|]. exfalso. apply Q. now apply Pw.
    - repeat split. right. rewrite Out. destruct Hd as [(Q & _)|(_ & H)]; [|now split]. exfalso. apply L. now rewrite Q. }
  destruct N1 as (N1b & N1c & N1f & N1o).
  rewrite scan_ok by exact Hlen. fold (seg (i_ix it) (i_n it)). rewrite Sg, <- Ep. cbn [obind].
  change (fun e : entry => char_at (length p) (fst e)) with (key p).
  set (ks := map (key p) (sub W p)).
  pose proof (tally_spec ks) as TS. destruct (fold_left tally ks (fun _ => 0, [])) as [tbl ch] eqn:ET.
  destruct TS as (T1 & T2 & T3).
  assert (Ks : StronglySorted Z.le ks).
  { subst ks. pose proof (sub_keys W HW HN p) as K. clear - K. induction K as [|x l _ IH H]; cbn [map]; constructor; [exact IH|]. rewrite Forall_map. exact H. }
  specialize (T3 Ks).
  assert (Kr : forall c, In c ch -> 0 <= c < 256). { intros c Hc. apply T2 in Hc. apply in_map_iff in Hc. destruct Hc as (e & <- & He). now apply (key_range W HN). }
  assert (S0 : forall c, In c (skip0 ch) <-> 1 <= c < 256 /\ T (p ++ [c])).
  { intros c. rewrite (skip0_in ch T3) by (intros d Hd; specialize (Kr d Hd); lia). split.
    - intros [Hc L]. split; [specialize (Kr c Hc); lia|]. apply child_T; [exact L|]. now apply T2.
    - intros [L HT]. split; [|lia]. apply T2. apply child_T in HT; [exact HT|lia]. }
  assert (Free : forall x, check (cell a1 x) < 0 -> x <> 0 -> lab x = None).
  { intros x Hx Nx. destruct (lab x) as [q|] eqn:L; [|reflexivity]. exfalso. destruct (b_child _ _ _ _ B x q L Nx) as (q' & c & _ & _ & H & _). apply (b_pos _ _ _ _ B) in H.
    rewrite C1 in Hx. destruct (x =? i_pos it) eqn:Ex; [|lia]. apply Z.eqb_eq in Ex. rewrite N1c, <- Ex in Hx. lia. }
  destruct (find_base_ok a1 (skip0 ch) (size a1 - 256)) with (fuel := S (Z.to_nat (size a1))) (b := Z.max 1 (bef - 32)) as (b & -> & Hb & Hfree); try lia.
  { intros c Hc. now apply S0. }
  { intros x Hx. rewrite C1. destruct (Z.eqb_spec x (i_pos it)) as [->|N]; [lia|]. destruct (lab x) as [q|] eqn:L; [apply (b_pos _ _ _ _ B) in L; lia|]. rewrite (b_unl _ _ _ _ B x L). reflexivity. }
  { pose proof (b_bef _ _ _ _ B). lia. }
  cbn [obind]. rewrite modify_ok by lia. cbn [obind].
  set (a2 := {| size := size a1; cell := fun j => if j =? i_pos it then set_base b (cell a1 (i_pos it)) else cell a1 j |}).
  assert (C2 : forall x, cell a2 x = if x =? i_pos it then set_base b n1 else cell a x).
  { intros x. subst a2. cbn [cell]. rewrite !C1, Z.eqb_refl. destruct (x =? i_pos it); reflexivity. }
  assert (F2 : fresh_above a2).
  { intros x Hx. rewrite C2. cbn [a2 size] in Hx. destruct (Z.eqb_spec x (i_pos it)); [lia|]. apply (b_fresh _ _ _ _ B). lia. }
  destruct (add_children_ok (i_pos it) (length p) (i_ix it) tbl b ch a2 0 st) as (a' & -> & Sz & Fr & Rg & Tc & Uc).
  { cbn [a2 size]. lia. } { rewrite C2, Z.eqb_refl. reflexivity. } { lia. } { exact F2. }
  cbn [obind]. cbn [a2 size] in Sz.
  assert (Tch : forall x, touched b tbl ch x <-> In (x - b) (skip0 ch)).
  { intros x. split.
    - intros (c & Hc & Hc0 & _ & ->). replace (b + c - b) with c by lia. apply (skip0_in ch T3); [intros d Hd; specialize (Kr d Hd); lia|]. split; [exact Hc|lia].
    - intros H. pose proof H as H'. apply (skip0_in ch T3) in H; [|intros d Hd; specialize (Kr d Hd); lia]. exists (x - b). split; [tauto|]. split; [lia|]. split; [|lia].
      rewrite T1. apply cnt_pos, T2. tauto. }
  assert (New : forall c, In c (skip0 ch) -> lab (b + c) = None).
  { intros c Hc. apply Free; [now apply Hfree|]. apply S0 in Hc. lia. }
  set (lab' := fun x => if in_dec Z.eq_dec (x - b) (skip0 ch) then Some (p ++ [x - b]) else lab x).
  assert (LO : forall x q, lab x = Some q -> lab' x = Some q).
  { intros x q H. unfold lab'. destruct (in_dec Z.eq_dec (x - b) (skip0 ch)) as [D|D]; [|exact H]. apply New in D. replace (b + (x - b)) with x in D by lia. congruence. }
  assert (LN : forall c, In c (skip0 ch) -> lab' (b + c) = Some (p ++ [c])).
  { intros c H. unfold lab'. replace (b + c - b) with c by lia. destruct (in_dec Z.eq_dec c (skip0 ch)); [reflexivity|contradiction]. }
  assert (LC : forall x q, lab' x = Some q -> (exists c, In c (skip0 ch) /\ x = b + c /\ q = p ++ [c]) \/ (lab x = Some q /\ ~ touched b tbl ch x)).
  { intros x q H. unfold lab' in H. destruct (in_dec Z.eq_dec (x - b) (skip0 ch)) as [D|D].
    - left. exists (x - b). split; [exact D|]. split; [lia|congruence].
    - right. split; [exact H|]. now rewrite Tch. }
  assert (CO : forall x q, lab x = Some q -> cell a' x = if x =? i_pos it then set_base b n1 else cell a x).
  { intros x q H. rewrite <- C2. apply Uc. rewrite Tch. intros D. apply New in D. replace (b + (x - b)) with x in D by lia. congruence. }
  assert (CN : forall c, In c (skip0 ch) -> cell a' (b + c) = set_check (i_pos it) new_node).
  { intros c Hc. rewrite Tc by (apply Tch; now replace (b + c - b) with c by lia). f_equal. rewrite C2. pose proof (New c Hc) as Hn. destruct (Z.eqb_spec (b + c) (i_pos it)) as [E|]; [congruence|]. apply (b_unl _ _ _ _ B). exact Hn. }
  assert (PI : forall x, In x (map i_pos (rev (items b (length p) (i_ix it) tbl 0 ch) ++ st)) <-> (exists c, In c (skip0 ch) /\ x = b + c) \/ In x (map i_pos st)).
  { intros x. rewrite map_app, map_rev, in_app_iff, <- in_rev, items_pos, in_map_iff. apply or_iff_compat_r. split.
    - intros (c & <- & Hc). apply filter_In in Hc. exists c. split; [|reflexivity]. apply (skip0_in ch T3); [intros d Hd; specialize (Kr d Hd); lia|]. split; [tauto|lia].
    - intros (c & Hc & ->). exists c. split; [reflexivity|]. apply filter_In. apply (skip0_in ch T3) in Hc; [|intros d Hd; specialize (Kr d Hd); lia]. split; [tauto|]. assert (0 < tbl c) by (rewrite T1; now apply cnt_pos, T2). lia. }
  assert (PosSt : forall x, In x (map i_pos (it :: st)) -> exists q, lab x = Some q).
  { intros x (i & <- & Hi)%in_map_iff. destruct (b_pend _ _ _ _ B i Hi) as (q & H & _). now exists q. }
  pose proof (b_nodup _ _ _ _ B) as ND. cbn [map] in ND. inversion ND as [|? ? ND1 ND2]; subst.
  assert (Old : forall x q, lab x = Some q -> ~ In x (map i_pos (it :: st)) -> ~ In x (map i_pos (rev (items b (length p) (i_ix it) tbl 0 ch) ++ st)) /\ cell a' x = cell a x).
  { intros x q H Hx. cbn [map In] in Hx. split.
    - rewrite PI. intros [(c & Hc & ->)|D]; [rewrite (New c Hc) in H; discriminate|tauto].
    - rewrite (CO x q H). destruct (Z.eqb_spec x (i_pos it)) as [->|]; [tauto|reflexivity]. }
  assert (PosDone : ~ In (i_pos it) (map i_pos (rev (items b (length p) (i_ix it) tbl 0 ch) ++ st))).
  { rewrite PI. intros [(c & Hc & E)|D]; [rewrite E, (New c Hc) in Lp; discriminate|contradiction]. }
  exists a', b, (rev (items b (length p) (i_ix it) tbl 0 ch) ++ st), lab'. split; [reflexivity|]. split; [constructor|].
  - lia.
  - lia.
  - exact Fr.
  - apply LO, (b_root _ _ _ _ B).
  - rewrite (CO 0 [] (b_root _ _ _ _ B)). destruct (Z.eqb_spec 0 (i_pos it)) as [E|_]; [|apply (b_root_check _ _ _ _ B)]. cbn [set_base check]. rewrite N1c, <- E. apply (b_root_check _ _ _ _ B).
  - intros x q H. destruct (LC x q H) as [(c & Hc & -> & ->)|(Hx & _)].
    + split; [|now apply S0 in Hc]. assert (Hc' := Hc). apply S0 in Hc'. assert (R : b + c + 256 <= size a') by (apply Rg, Tch; now replace (b + c - b) with c by lia). lia.
    + apply (b_pos _ _ _ _ B) in Hx. split; [lia|tauto].
  - intros x H. unfold lab' in H. destruct (in_dec Z.eq_dec (x - b) (skip0 ch)) as [D|D]; [discriminate|]. rewrite Uc by now rewrite Tch. rewrite C2.
    destruct (Z.eqb_spec x (i_pos it)) as [->|]; [congruence|]. now apply (b_unl _ _ _ _ B).
  - intros x q H Nx. destruct (LC x q H) as [(c & Hc & -> & ->)|(Hx & _)].
    + rewrite (CN c Hc). cbn [set_check check]. exists p, c. split; [reflexivity|]. split; [now apply S0|]. split; [now apply LO|]. split; [exact PosDone|].
      rewrite (CO _ _ Lp), Z.eqb_refl. reflexivity.
    + destruct (b_child _ _ _ _ B x q Hx Nx) as (q' & c & -> & Hc & L1 & L2 & L3). exists q', c.
      assert (E : check (cell a' x) = check (cell a x)). { rewrite (CO _ _ Hx). destruct (Z.eqb_spec x (i_pos it)) as [->|]; [exact N1c|reflexivity]. }
      rewrite E. destruct (Old _ _ L1 L2) as [O1 O2]. repeat split; try tauto; try lia; [now apply LO|]. now rewrite O2.
  - intros x y q Hx Hy. destruct (LC x q Hx) as [(c & Hc & -> & ->)|(Gx & _)]; destruct (LC y _ Hy) as [(d & Hd & -> & E)|(Gy & _)].
    + apply app_inj_tail in E. destruct E as [_ ->]. reflexivity.
    + exfalso. assert (Ny : y <> 0). { intros ->. rewrite (b_root _ _ _ _ B) in Gy. injection Gy as Gy. now apply app_cons_not_nil in Gy. }
      destruct (b_child _ _ _ _ B y _ Gy Ny) as (q' & c' & E & _ & L1 & L2 & _). apply app_inj_tail in E. destruct E as [<- _]. rewrite (b_inj _ _ _ _ B _ _ _ L1 Lp) in L2. apply L2. now left.
    + subst q. exfalso. assert (Ny : x <> 0). { intros ->. rewrite (b_root _ _ _ _ B) in Gx. injection Gx as Gx. now apply app_cons_not_nil in Gx. }
      destruct (b_child _ _ _ _ B x _ Gx Ny) as (q' & c' & E & _ & L1 & L2 & _). apply app_inj_tail in E. destruct E as [<- _]. rewrite (b_inj _ _ _ _ B _ _ _ L1 Lp) in L2. apply L2. now left.
    + exact (b_inj _ _ _ _ B _ _ _ Gx Gy).
  - intros x q H Hx. rewrite PI in Hx. destruct (LC x q H) as [(c & Hc & -> & ->)|(Gx & _)].
    + exfalso. apply Hx. left. now exists c.
    + destruct (Z.eq_dec x (i_pos it)) as [->|N].
      * assert (q = p) by congruence. subst q. rewrite (CO _ _ Lp), Z.eqb_refl. cbn [set_base base output]. split; [lia|]. split; [exact N1o|].
        intros c Hc HT. apply LN, S0. now split.
      * assert (D : ~ In x (map i_pos (it :: st))) by (cbn [map In]; intros [E|D]; [congruence|tauto]). destruct (Old x q Gx D) as [_ ->].
        destruct (b_done _ _ _ _ B x q Gx D) as (G1 & G2 & G3). split; [lia|]. split; [exact G2|]. intros c Hc HT. now apply LO, G3.
  - intros i Hi. apply in_app_iff in Hi. destruct Hi as [Hi|Hi].
    + apply in_rev, items_in in Hi. destruct Hi as (pre & c & post & Ec & Hc & Ht & ->). cbn [i_pos i_dep i_ix i_n].
      assert (Ic : In c (skip0 ch)). { apply (skip0_in ch T3); [intros d Hd; specialize (Kr d Hd); lia|]. split; [rewrite Ec; apply in_elt|lia]. }
      exists (p ++ [c]). split; [now apply LN|]. split; [rewrite app_length; cbn; lia|].
      rewrite Z.add_0_l, (sum_tbl_cnt tbl ks _ T1), T1. rewrite Ec in T3. assert (L1 : 1 <= c) by lia.
      assert (Sg' : seg (i_ix it) (i_n it) = sub W p) by (now rewrite Ep). assert (Nn' : i_n it = length (sub W p)) by (now rewrite Ep).
      destruct (child_seg p (i_ix it) (i_n it) pre c post Sg' Nn' L1 T3) as [Q1 Q2].
      { intros x Hx. rewrite <- Ec. now apply T2. }
      split; [exact Q1|]. split; [exact Q2|]. rewrite (CN c Ic). reflexivity.
    + destruct (b_pend _ _ _ _ B i (or_intror Hi)) as (q & L & Q1 & Q2 & Q3 & Q4). exists q. split; [now apply LO|]. split; [exact Q1|]. split; [exact Q2|]. split; [exact Q3|].
      rewrite (CO _ _ L). destruct (Z.eqb_spec (i_pos i) (i_pos it)) as [E|]; [|exact Q4]. exfalso. apply ND1. rewrite <- E. now apply in_map.
  - rewrite map_app, map_rev. apply NoDup_app_intro; [apply NoDup_rev; rewrite items_pos; apply FinFun.Injective_map_NoDup; [intros x y; lia|]; apply NoDup_filter; now apply lt_nodup|exact ND2|].
    intros x H1 H2. rewrite <- in_rev, items_pos in H1. apply in_map_iff in H1. destruct H1 as (c & <- & Hc). apply filter_In in Hc.
    assert (Ic : In c (skip0 ch)). { apply (skip0_in ch T3); [intros d Hd; specialize (Kr d Hd); lia|]. split; [tauto|lia]. }
    destruct (PosSt (b + c)) as (q & H); [now right|]. rewrite (New c Ic) in H. discriminate.
  - intros x. destruct (in_dec Z.eq_dec (x - b) (skip0 ch)) as [D|D].
    + replace x with (b + (x - b)) by lia. rewrite (CN _ D). reflexivity.
    + rewrite Uc by now rewrite Tch. rewrite C2. destruct (Z.eqb_spec x (i_pos it)); [cbn [set_base fail]; rewrite N1f|]; apply (b_fail _ _ _ _ B).
  - rewrite mu_app, mu_rev. cbn [mu fold_right]. fold (mu st).
    assert (Sg' : seg (i_ix it) (i_n it) = sub W p) by (now rewrite Ep). assert (Nn' : i_n it = length (sub W p)) by (now rewrite Ep).
    pose proof (mu_items p (i_ix it) (i_n it) b tbl ch Sg' Nn' T3 (fun x => proj2 (T2 x)) T1) as M. rewrite Sg', <- Dp. lia.
Qed.

Lemma build_ok : forall fuel a bef st lab, binv a bef st lab -> (mu st < fuel)%nat -> exists a' bef' lab', build W fuel a bef st = Ok a' /\ binv a' bef' [] lab'.
Proof.
  induction fuel as [|fuel IH]; intros a bef st lab B F; [lia|]. cbn [build]. destruct st as [|it st].
  - exists a, bef, lab. now split.
  - destruct (step _ _ _ _ _ B) as (a1 & b1 & st1 & lab1 & -> & B1 & M). cbn [obind]. apply (IH _ _ _ _ B1). lia.
Qed.
Definition init_arr : arr := resize {| size := 0; cell := fun _ => new_node |} 257.
Lemma init_ok : W <> [] -> binv init_arr 1 [{| i_pos := 0; i_dep := 0; i_ix := 0; i_n := length W |}] (fun x => if x =? 0 then Some [] else None).
Proof.
  intros NE. assert (Cl : forall x, cell init_arr x = new_node). { intros x. cbn [init_arr resize cell size]. now destruct (x <? Z.min 257 0). }
  constructor; try (cbn [init_arr resize size]; lia); try reflexivity.
  - intros x _. apply Cl.
  - intros x p H. destruct (Z.eqb_spec x 0) as [->|]; [|discriminate]. injection H as <-. split; [cbn; lia|]. unfold T. now rewrite sub_nil.
  - intros x _. apply Cl.
  - intros x p H N. destruct (Z.eqb_spec x 0); [contradiction|discriminate].
  - intros x y p Hx Hy. destruct (Z.eqb_spec x 0), (Z.eqb_spec y 0); congruence.
  - intros x p H Hx. exfalso. apply Hx. cbn. left. destruct (Z.eqb_spec x 0); [now symmetry|discriminate].
  - intros it [<-|[]]. exists []. cbn [i_pos i_dep i_ix i_n]. split; [reflexivity|]. split; [reflexivity|]. unfold seg. cbn [skipn]. rewrite sub_nil. split; [apply firstn_all|]. split; [reflexivity|]. now rewrite Cl.
  - constructor; [intros []|constructor].
  - intros x. now rewrite Cl.
Qed.

(** The trie in the array *)
Record trie (a : arr) (lab : Z -> option (list Z)) : Prop := {
  t_root : lab 0 = Some [];
  t_root_check : check (cell a 0) = -1;
  t_pos : forall x p, lab x = Some p -> 0 <= x < size a /\ T p;
  t_all : forall p, T p -> exists x, lab x = Some p;
  t_inj : forall x y p, lab x = Some p -> lab y = Some p -> x = y;
  t_base : forall x p c, lab x = Some p -> 0 <= c < 256 -> 0 <= base (cell a x) + c < size a;
  t_go : forall x p c, lab x = Some p -> 0 <= c < 256 -> (check (cell a (base (cell a x) + c)) = x <-> T (p ++ [c]));
  t_next : forall x p c, lab x = Some p -> 0 <= c < 256 -> T (p ++ [c]) -> lab (base (cell a x) + c) = Some (p ++ [c])
}.
Lemma built_trie a bef lab : binv a bef [] lab -> W <> [] -> trie a lab.
Proof.
  intros B NE.
  assert (Nx : forall x p c, lab x = Some p -> 0 <= c < 256 -> T (p ++ [c]) -> lab (base (cell a x) + c) = Some (p ++ [c])).
  { intros x p c H Hc HT. apply (b_done _ _ _ _ B x p H (fun q => q)); [|exact HT]. apply T_nul_free in HT. apply nul_free_app in HT. destruct HT as [_ HT]. inversion HT; subst. lia. }
  constructor.
  - apply (b_root _ _ _ _ B).
  - apply (b_root_check _ _ _ _ B).
  - intros x p H. apply (b_pos _ _ _ _ B) in H. split; [lia|tauto].
  - intros p. induction p as [|c p IH] using rev_ind; intros HT; [exists 0; apply (b_root _ _ _ _ B)|].
    destruct (IH (T_prefix _ _ HT)) as (x & Hx). exists (base (cell a x) + c). apply Nx; [exact Hx| |exact HT].
    apply T_nul_free in HT. apply nul_free_app in HT. destruct HT as [_ HT]. inversion HT; subst. lia.
  - apply (b_inj _ _ _ _ B).
  - intros x p c H Hc. destruct (b_done _ _ _ _ B x p H (fun q => q)) as (G & _). lia.
  - intros x p c H Hc. destruct (b_done _ _ _ _ B x p H (fun q => q)) as (G & _). split.
    + intros E. set (y := base (cell a x) + c) in *. destruct (lab y) as [q|] eqn:Ly.
      * assert (Ny : y <> 0) by (subst y; lia). destruct (b_child _ _ _ _ B y q Ly Ny) as (q' & c' & -> & Hc' & L1 & _ & L3). rewrite E in *.
        assert (q' = p) by congruence. assert (c' = c) by (clear E; subst y; lia). subst q' c'. now apply (b_pos _ _ _ _ B) in Ly.
      * apply (b_unl _ _ _ _ B) in Ly. rewrite Ly in E. cbn in E. apply (b_pos _ _ _ _ B) in H. lia.
    + intros HT. pose proof (Nx x p c H Hc HT) as Ly. assert (Ny : base (cell a x) + c <> 0) by lia.
      destruct (b_child _ _ _ _ B _ _ Ly Ny) as (q' & c' & E & Hc' & L1 & _ & L3). apply app_inj_tail in E. destruct E as [<- <-]. exact (b_inj _ _ _ _ B _ _ _ L1 H).
  - exact Nx.
Qed.
End build.
