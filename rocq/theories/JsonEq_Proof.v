(** Equality and merging of JSON values. *)
From Coq Require Import Permutation.
From Verif Require Import Common CommonLemmas Double_Model Json_Model Json_Spec JsonParse_Proof JsonComplete_Proof JsonPrint_Proof JsonSafe_Proof.
Local Open Scope Z_scope.

Lemma keyeqb_refl k : keyeqb k k = true.
Proof. unfold keyeqb. destruct (list_eq_dec Z.eq_dec k k); congruence. Qed.
Lemma keyeqb_ne a b : a <> b -> keyeqb a b = false.
Proof. intros H. unfold keyeqb. destruct (list_eq_dec Z.eq_dec a b); congruence. Qed.

Lemma get_in (m : list (list Z * json)) k v : obj_get m k = Some v -> In (k, v) m.
Proof.
  induction m as [|[k' v'] m IH]; cbn [obj_get]; [discriminate|]. destruct (keyeqb k k') eqn:E.
  - apply keyeqb_dec in E. subst. intros Eq. injection Eq as ->. now left.
  - intros Eq. right. auto.
Qed.
Lemma in_get (m : list (list Z * json)) k v : NoDup (map fst m) -> In (k, v) m -> obj_get m k = Some v.
Proof.
  induction m as [|[k' v'] m IH]; cbn [obj_get map fst]; intros Hn HI; [destruct HI|]. inversion Hn as [|? ? Hn1 Hn2]; subst.
  destruct HI as [E|HI].
  - injection E as -> ->. now rewrite keyeqb_refl.
  - rewrite keyeqb_ne; [auto|]. intros ->. apply Hn1. apply (in_map fst) in HI. exact HI.
Qed.
Lemma get_none (m : list (list Z * json)) k : obj_get m k = None <-> ~ In k (map fst m).
Proof.
  induction m as [|[k' v'] m IH]; cbn [obj_get map fst]; [split; [intros _ []|reflexivity]|].
  destruct (keyeqb k k') eqn:E.
  - apply keyeqb_dec in E. subst. split; [discriminate|]. intros H. exfalso. apply H. now left.
  - rewrite IH. split.
    + intros H [->|HI]; [rewrite keyeqb_refl in E; discriminate|auto].
    + intros H HI. apply H. now right.
Qed.
Lemma get_add m k v k' : obj_get (obj_add m k v) k' = if keyeqb k' k then Some v else @obj_get json m k'.
Proof.
  induction m as [|[a b] m IH]; cbn [obj_add obj_get]; [reflexivity|].
  destruct (keyeqb k a) eqn:E; cbn [obj_get].
  - apply keyeqb_dec in E. subst. destruct (keyeqb k' a); reflexivity.
  - rewrite IH. destruct (keyeqb k' a) eqn:E1, (keyeqb k' k) eqn:E2; try reflexivity.
    apply keyeqb_dec in E1, E2. subst. rewrite keyeqb_refl in E. discriminate.
Qed.
Lemma add_map m k v : is_map m -> is_map (obj_add m k v).
Proof. unfold is_map. rewrite obj_add_assign. apply assign_keys. Qed.

(** ** Equality *)
Lemma eqs_list conv l m :
  ((fix eqs l m := match l, m with [] , [] => true | x :: l', y :: m' => equals conv x y && eqs l' m' | _, _ => false end) l m = true)
  <-> Forall2 (fun x y => equals conv x y = true) l m.
Proof.
  revert m. induction l as [|x l IH]; intros [|y m]; split; intros H; try discriminate; try (inversion H; fail).
  - constructor.
  - reflexivity.
  - apply andb_true_iff in H. destruct H as [H1 H2]. constructor; [assumption|]. now apply IH.
  - inversion H; subst. apply andb_true_iff. split; [assumption|]. now apply IH.
Qed.
Lemma eqs_members conv (l m : list (list Z * json)) :
  ((fix eqs l := match l with [] => true | (k, x) :: l' => match obj_get m k with Some y => equals conv x y | None => false end && eqs l' end) l = true)
  <-> Forall (fun kx => exists y, obj_get m (fst kx) = Some y /\ equals conv (snd kx) y = true) l.
Proof.
  induction l as [|[k x] l IH]; split; intros H; try constructor.
  - apply andb_true_iff in H. destruct H as [H1 H2]. cbn [fst snd]. destruct (obj_get m k) as [y|]; [|discriminate]. exists y. auto.
  - apply andb_true_iff in H. destruct H as [H1 H2]. now apply IH.
  - inversion H as [|? ? (y & E & Hy) H2]; subst. cbn [fst snd] in *. rewrite E. apply andb_true_iff. split; [assumption|]. now apply IH.
Qed.

Lemma same_list_iff l m : same_list l m <-> Forall2 same l m.
Proof.
  split.
  - revert m. induction l as [|x l IH]; intros m H; inversion H; subst; constructor; auto.
  - intros H. induction H; constructor; auto.
Qed.
Lemma same_members_iff l m : same_members l m <-> Forall2 (fun a b => fst a = fst b /\ same (snd a) (snd b)) l m.
Proof.
  split.
  - revert m. induction l as [|x l IH]; intros m H; inversion H; subst; constructor; auto.
  - intros H. induction H as [|[k x] [k' y] l m [E Hs] H IH]; [constructor|]. cbn [fst snd] in *. subst. constructor; auto.
Qed.
Lemma same_members_keys l m : same_members l m -> map fst l = map fst m.
Proof. intros H. apply same_members_iff in H. induction H as [|a b l m [E _] H IH]; cbn [map]; congruence. Qed.

Lemma value_in_arr F l x : value F (JArr l) -> In x l -> value F x.
Proof. cbn [value]. induction l as [|y l IH]; cbn; [intros _ []|]. intros [H1 H2] [->|HI]; auto. Qed.
Lemma value_in_obj F m k x : value F (JObj m) -> In (k, x) m -> value F x.
Proof. cbn [value]. intros [_ H]. induction m as [|[k' y] m IH]; cbn in *; [intros []|]. destruct H as [H1 H2]. intros [E|HI]; [injection E as -> ->; assumption|auto]. Qed.
Lemma value_map F m : value F (JObj m) -> is_map m.
Proof. intros [H _]. exact H. Qed.

Lemma nodup_pairs (m : list (list Z * json)) : is_map m -> NoDup m.
Proof. unfold is_map. apply NoDup_map_inv. Qed.

Theorem equals_same conv a b : value no_floats a -> value no_floats b -> (equals conv a b = true <-> same a b).
Proof.
  revert b. induction a as [|x|n|d|s|l IH|l IH] using json_ind'; intros [|y|p|e|t|m|m] Ha Hb;
    try (split; [intros H; discriminate H|intros H; inversion H]; fail).
  - split; [constructor|reflexivity].
  - cbn [equals]. split; [intros H; apply Bool.eqb_prop in H; subst; constructor|intros H; inversion H; subst; apply Bool.eqb_reflx].
  - cbn [equals]. split; [intros H; apply Z.eqb_eq in H; subst; constructor|intros H; inversion H; subst; apply Z.eqb_refl].
  - destruct Hb.
  - destruct Ha.
  - destruct Ha.
  - cbn [equals]. split; [intros H; apply keyeqb_dec in H; subst; constructor|intros H; inversion H; subst; apply keyeqb_refl].
  - cbn [equals]. rewrite eqs_list. split.
    + intros H. constructor. apply same_list_iff. revert Ha Hb IH. induction H as [|x y l m E H IH']; intros Ha Hb IH; constructor.
      * apply IH; [now left|apply (value_in_arr _ _ _ Ha); now left|apply (value_in_arr _ _ _ Hb); now left|assumption].
      * apply IH'; [apply Ha|apply Hb|]. intros z Hz. apply IH. now right.
    + intros H. inversion H as [| | | | |? ? HS|]; subst. apply same_list_iff in HS. clear H. revert Ha Hb IH.
      induction HS as [|x y l m E H IH']; intros Ha Hb IH; constructor.
      * apply IH; [now left|apply (value_in_arr _ _ _ Ha); now left|apply (value_in_arr _ _ _ Hb); now left|assumption].
      * apply IH'; [apply Ha|apply Hb|]. intros z Hz. apply IH. now right.
  - cbn [equals]. rewrite andb_true_iff, Nat.eqb_eq, eqs_members. pose proof (value_map _ _ Ha) as Ma. pose proof (value_map _ _ Hb) as Mb.
    split.
    + intros [HL HF].
      assert (HM : exists m', same_members l m' /\ incl m' m).
      { clear HL Ma. revert Ha IH. induction HF as [|[k x] l (y & Ey & Exy) HF IHF]; intros Ha IH.
        - exists []. split; [constructor|intros z []].
        - destruct IHF as (m' & H1 & H2).
          + split; [pose proof (value_map _ _ Ha) as HH; inversion HH; assumption|apply Ha].
          + intros k' z Hz. apply (IH k' z). now right.
          + cbn [fst snd] in *. exists ((k, y) :: m'). apply get_in in Ey. split.
            * constructor; [|assumption]. apply (IH k x); [now left|apply (value_in_obj _ _ k _ Ha); now left|apply (value_in_obj _ _ k _ Hb), Ey|assumption].
            * intros z [<-|Hz]; auto. }
      destruct HM as (m' & H1 & H2). apply (sm_obj l m m'); [assumption|].
      pose proof (same_members_keys _ _ H1) as HK.
      apply NoDup_Permutation_bis; [|apply (f_equal (@length _)) in HK; rewrite !map_length in HK; lia|assumption].
      apply nodup_pairs. unfold is_map. rewrite <- HK. exact Ma.
    + intros H. inversion H as [| | | | | |? ? m' HS HP]; subst. pose proof (same_members_keys _ _ HS) as HK. split.
      * apply (f_equal (@length _)) in HK. rewrite !map_length in HK. apply Permutation_length in HP. lia.
      * assert (HI : incl m' m) by (intros z Hz; eapply Permutation_in; eauto). clear H HP HK Ma. revert Ha IH HI.
        apply same_members_iff in HS. induction HS as [|[k x] [k' y] l m' [E Hs] HS IHS]; intros Ha IH HI; constructor.
        -- cbn [fst snd] in *. subst k'. exists y. assert (HIn : In (k, y) m) by (apply HI; now left). split; [now apply in_get|].
           apply (IH k x); [now left|apply (value_in_obj _ _ k _ Ha); now left|apply (value_in_obj _ _ k _ Hb), HIn|assumption].
        -- apply IHS; [split; [pose proof (value_map _ _ Ha) as HH; inversion HH; assumption|apply Ha]| |].
           ++ intros k0 z Hz. apply (IH k0 z). now right.
           ++ intros z Hz. apply HI. now right.
Qed.

Lemma same_refl v : same v v.
Proof.
  induction v as [|b|n|d|s|l IH|m IH] using json_ind'; try constructor.
  - induction l as [|x l IHl]; constructor; [apply IH; now left|]. apply IHl. intros y Hy. apply IH. now right.
  - apply (sm_obj m m m); [|reflexivity]. induction m as [|[k x] m IHm]; constructor; [apply (IH k); now left|]. apply IHm. intros k' y Hy. apply (IH k'). now right.
Qed.

(** ** Merging *)
Lemma merge_loop_get f obj : forall ret k, is_map obj ->
  obj_get (merge_loop f ret obj) k =
  match obj_get ret k, obj_get obj k with
  | Some x, Some y => Some (f x y) | Some x, None => Some x | None, o => o
  end.
Proof.
  induction obj as [|[a b] obj IH]; intros ret k Hm; cbn [merge_loop]; [cbn [obj_get]; now destruct (obj_get ret k)|].
  inversion Hm as [|? ? Hn Hm']; subst. rewrite IH by exact Hm'. cbn [obj_get].
  apply get_none in Hn. cbn [fst] in Hn.
  destruct (keyeqb k a) eqn:E.
  - apply keyeqb_dec in E. subst k. rewrite Hn. destruct (obj_get ret a) eqn:Er; rewrite get_add, keyeqb_refl; reflexivity.
  - destruct (obj_get ret a); rewrite get_add, E; reflexivity.
Qed.
Lemma merge_loop_map f obj : forall ret, is_map ret -> is_map (merge_loop f ret obj).
Proof.
  induction obj as [|[a b] obj IH]; intros ret Hr; cbn [merge_loop]; [assumption|]. apply IH. destruct (obj_get ret a); now apply add_map.
Qed.
Lemma copy_get (m : list (list Z * json)) : is_map m -> fold_left (fun acc kv => obj_add acc (fst kv) (snd kv)) m [] = m.
Proof.
  intros H. assert (E : forall l acc, fold_left (fun acc kv => obj_add acc (fst kv) (snd kv)) l acc = fold_left (fun m kv => assign m (fst kv) (snd kv)) l acc).
  { induction l as [|x l IH]; intros acc; [reflexivity|]. cbn [fold_left]. rewrite obj_add_assign. apply IH. }
  rewrite E. now apply object_of_nodup.
Qed.

Lemma get_has m k v : is_map m -> (obj_get m k = Some v <-> has m k v).
Proof. intros H. split; [apply get_in|now apply in_get]. Qed.

Theorem merge_with_ok f a b : is_map a -> is_map b ->
  exists m, merge_with f (JObj a) (JObj b) = Ok (JObj m) /\ combined f a b m.
Proof.
  intros Ha Hb. cbn [merge_with]. rewrite copy_get by exact Ha. eexists. split; [reflexivity|].
  pose proof (merge_loop_map f b a Ha) as Hm. set (m := merge_loop f a b) in *.
  assert (G : forall k, obj_get m k = match obj_get a k, obj_get b k with Some x, Some y => Some (f x y) | Some x, None => Some x | None, o => o end)
    by (intros k; now apply merge_loop_get).
  split; [assumption|]. unfold absent. split; [|split; [|split]].
  - intros k. rewrite <- !get_none, G. destruct (obj_get a k), (obj_get b k); intuition congruence.
  - intros k x H1 H2. apply get_none in H2. apply get_has; [assumption|]. apply get_has in H1; [|assumption]. rewrite G, H1, H2. reflexivity.
  - intros k y H1 H2. apply get_none in H1. apply get_has; [assumption|]. apply get_has in H2; [|assumption]. rewrite G, H1, H2. reflexivity.
  - intros k x y H1 H2. apply get_has; [assumption|]. apply get_has in H1, H2; try assumption. rewrite G, H1, H2. reflexivity.
Qed.
Theorem merge_other f a b : ~ (is_obj a /\ is_obj b) -> merge_with f a b = Throw.
Proof. intros H. destruct a; try reflexivity. destruct b; try reflexivity. exfalso. apply H. split; eexists; reflexivity. Qed.

Lemma get_same m n : is_map m -> is_map n -> (forall k, obj_get m k = obj_get n k) -> same_map m n.
Proof. intros Hm Hn H k v. rewrite <- !get_has by assumption. now rewrite H. Qed.

Lemma merge_obj a b : is_map a -> is_map b -> merge (JObj a) (JObj b) = Ok (JObj (merge_loop (fun _ y => y) a b)) /\
  is_map (merge_loop (fun _ y => y) a b) /\
  (forall k, obj_get (merge_loop (fun _ y => y) a b) k = match obj_get b k with Some y => Some y | None => obj_get a k end).
Proof.
  intros Ha Hb. unfold merge. cbn [merge_with]. rewrite copy_get by exact Ha. split; [reflexivity|]. split; [now apply merge_loop_map|].
  intros k. rewrite merge_loop_get by assumption. destruct (obj_get a k), (obj_get b k); reflexivity.
Qed.

Theorem merge_assoc a b c : is_map a -> is_map b -> is_map c ->
  exists ab bc l r, merge (JObj a) (JObj b) = Ok (JObj ab) /\ merge (JObj ab) (JObj c) = Ok (JObj l) /\
    merge (JObj b) (JObj c) = Ok (JObj bc) /\ merge (JObj a) (JObj bc) = Ok (JObj r) /\ same_map l r.
Proof.
  intros Ha Hb Hc.
  destruct (merge_obj a b Ha Hb) as (E1 & M1 & G1). destruct (merge_obj _ c M1 Hc) as (E2 & M2 & G2).
  destruct (merge_obj b c Hb Hc) as (E3 & M3 & G3). destruct (merge_obj a _ Ha M3) as (E4 & M4 & G4).
  do 4 eexists. do 4 (split; [eassumption|]). apply get_same; try assumption. intros k. rewrite G2, G4, G1, G3.
  destruct (obj_get c k), (obj_get b k); reflexivity.
Qed.
Theorem merge_idem a : is_map a -> exists m, merge (JObj a) (JObj a) = Ok (JObj m) /\ same_map m a.
Proof.
  intros Ha. destruct (merge_obj a a Ha Ha) as (E1 & M1 & G1). eexists. split; [eassumption|]. apply get_same; try assumption.
  intros k. rewrite G1. now destruct (obj_get a k).
Qed.
(** Merging can be deep with the right function, but merge itself is not. *)
Theorem merge_shallow : exists a b m, is_map a /\ is_map b /\ merge (JObj a) (JObj b) = Ok (JObj m) /\ ~ deep_merged (JObj a) (JObj b) (JObj m).
Proof.
  exists [(str "o", JObj [(str "x", JInt 1)])], [(str "o", JObj [(str "y", JInt 2)])], [(str "o", JObj [(str "y", JInt 2)])].
  split; [repeat constructor; intros []|]. split; [repeat constructor; intros []|]. split; [reflexivity|].
  intros H. inversion H; subst; [|match goal with H : ~ _ |- _ => apply H; split; eexists; reflexivity end].
  match goal with H5 : forall k x y, has _ k x -> has _ k y -> _ |- _ =>
    destruct (H5 (str "o") _ _ ltac:(now left) ltac:(now left)) as (z & [Ez|[]] & Hd) end.
  injection Ez as <-. clear H. inversion Hd; subst; [|match goal with H : ~ _ |- _ => apply H; split; eexists; reflexivity end].
  match goal with H3 : forall k x, has [(_, JInt 1)] k x -> absent _ k -> _ |- _ =>
    destruct (H3 (str "x") (JInt 1) ltac:(now left) ltac:(intros [E|[]]; discriminate E)) as [E|[]] end.
  discriminate E.
Qed.
