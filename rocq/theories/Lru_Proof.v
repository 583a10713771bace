From Verif Require Import Common CommonLemmas Lru_Model Lru_Spec.
From Coq Require Import Sorted.
Local Open Scope Z_scope.

Section Proof.
  Variable K V : Type.
  Variable keq : forall a b : K, {a = b} + {a <> b}.
  Variable klt : K -> K -> bool.
  Variable vdef : V.
  Notation mfind := (mfind K V keq). Notation mset := (mset K V keq). Notation merase := (merase K V keq).
  Notation lookup := (lookup K V keq). Notation drop := (drop K V keq). Notation use := (use K V keq). Notation put := (put K V).

  (** ** Association lists *)
  Lemma mfind_mset k x m k' : mfind k' (mset k x m) = if keq k k' then Some x else mfind k' m.
  Proof.
    induction m as [|[a y] m IH]; cbn; [destruct (keq k k'); reflexivity|].
    destruct (keq a k) as [->|Ha]; cbn.
    - destruct (keq k k'); reflexivity.
    - destruct (keq a k') as [->|]; [destruct (keq k k'); congruence|exact IH].
  Qed.
  Lemma mfind_in k m : mfind k m <> None <-> In k (map fst m).
  Proof.
    induction m as [|[a y] m IH]; cbn; [tauto|]. destruct (keq a k) as [->|]; [split; [now left|discriminate]|].
    rewrite IH. split; [now right|intros [H|H]; [congruence|assumption]].
  Qed.
  Lemma mfind_merase k m k' : NoDup (map fst m) -> mfind k' (merase k m) = if keq k k' then None else mfind k' m.
  Proof.
    induction m as [|[a y] m IH]; cbn; intros ND; [destruct (keq k k'); reflexivity|]. inversion ND as [|? ? N1 N2]; subst.
    destruct (keq a k) as [->|Ha]; cbn.
    - destruct (keq k k') as [<-|]; [|reflexivity].
      destruct (mfind k m) eqn:E; [|reflexivity]. exfalso. apply N1, mfind_in. congruence.
    - destruct (keq a k') as [->|]; [destruct (keq k k'); congruence|]. now apply IH.
  Qed.
  Lemma mset_keys k x m k' : In k' (map fst (mset k x m)) <-> k' = k \/ In k' (map fst m).
  Proof.
    rewrite <- mfind_in, mfind_mset, <- mfind_in. destruct (keq k k') as [<-|Hne]; split; intros H; auto; try discriminate.
    destruct H as [->|]; [congruence|assumption].
  Qed.
  Lemma mset_nodup k x m : NoDup (map fst m) -> NoDup (map fst (mset k x m)).
  Proof.
    induction m as [|[a y] m IH]; cbn; intros ND; [repeat constructor; tauto|]. inversion ND as [|? ? N1 N2]; subst.
    destruct (keq a k) as [->|Ha]; cbn; constructor; auto. rewrite mset_keys. intros [H|H]; [congruence|auto].
  Qed.
  Lemma merase_incl k m k' : In k' (map fst (merase k m)) -> In k' (map fst m).
  Proof. induction m as [|[a y] m IH]; cbn; [tauto|]. destruct (keq a k); cbn; intros H; [now right|destruct H; auto]. Qed.
  Lemma merase_nodup k m : NoDup (map fst m) -> NoDup (map fst (merase k m)).
  Proof.
    induction m as [|[a y] m IH]; cbn; intros ND; [constructor|]. inversion ND as [|? ? N1 N2]; subst.
    destruct (keq a k) as [->|Ha]; cbn; [assumption|]. constructor; [intros H; apply N1; eapply merase_incl; eassumption|auto].
  Qed.
  Lemma mset_length k x m : length (mset k x m) = if mfind k m then length m else S (length m).
  Proof. induction m as [|[a y] m IH]; cbn; [reflexivity|]. destruct (keq a k); cbn; [reflexivity|]. rewrite IH. now destruct (mfind k m). Qed.
  Lemma merase_length k m : length (merase k m) = if mfind k m then pred (length m) else length m.
  Proof.
    induction m as [|[a y] m IH]; cbn; [reflexivity|]. destruct (keq a k); cbn; [reflexivity|]. rewrite IH.
    destruct (mfind k m) eqn:E; [|reflexivity]. destruct m; [discriminate|reflexivity].
  Qed.

  (** ** Invariant *)
  (** [l] lists (key, value, time) from least to most recently used. *)
  Definition ref_of (l : list (K * V * Z)) : list (K * V) := map fst l.
  Definition keys (l : list (K * V * Z)) : list K := map (fun p => fst (fst p)) l.
  Definition times (l : list (K * V * Z)) : list Z := map snd l.
  Fixpoint full (k : K) (l : list (K * V * Z)) : option (V * Z) :=
    match l with [] => None | (k', v, t) :: r => if keq k' k then Some (v, t) else full k r end.

  Definition inv (cap : Z) (s : lru K V) (l : list (K * V * Z)) : Prop :=
    0 < cap /\ max_size s = cap /\ NoDup (keys l) /\ StronglySorted Z.lt (times l) /\ Forall (fun t => 0 <= t < cur s) (times l) /\
    atime s = map (fun p => (snd p, fst (fst p))) l /\ NoDup (map fst (cache s)) /\ length (cache s) = length l /\
    (forall k, mfind k (cache s) = full k l) /\ Z.of_nat (length l) <= cap.

  Lemma full_in k l v t : full k l = Some (v, t) -> In (k, v, t) l.
  Proof.
    induction l as [|[[a w] u] l IH]; cbn; [discriminate|]. destruct (keq a k) as [->|]; [intros [= -> ->]; now left|auto].
  Qed.
  Lemma full_none k l : full k l = None <-> ~ In k (keys l).
  Proof.
    induction l as [|[[a w] u] l IH]; cbn; [tauto|]. destruct (keq a k) as [->|]; [split; [discriminate|tauto]|].
    rewrite IH. split; [intros H [H'|H']; congruence || tauto|tauto].
  Qed.
  Lemma lookup_full k l : lookup k (ref_of l) = option_map fst (full k l).
  Proof. induction l as [|[[a w] u] l IH]; cbn; [reflexivity|]. destruct (keq a k); [reflexivity|exact IH]. Qed.

  Definition dropk (k : K) (l : list (K * V * Z)) := filter (fun p => if keq (fst (fst p)) k then false else true) l.
  Lemma dropk_nil k : dropk k [] = [].
  Proof. reflexivity. Qed.
  Lemma dropk_cons k a w u l : dropk k ((a, w, u) :: l) = if keq a k then dropk k l else (a, w, u) :: dropk k l.
  Proof. unfold dropk. cbn. now destruct (keq a k). Qed.
  Lemma ref_dropk k l : ref_of (dropk k l) = drop k (ref_of l).
  Proof. unfold ref_of, dropk, Lru_Spec.drop. induction l as [|[[a w] u] l IH]; [reflexivity|]. cbn [filter map fst]. destruct (keq a k); cbn [map fst]; [exact IH|]. f_equal. exact IH. Qed.
  Arguments dropk : simpl never.
  Lemma full_dropk k l k' : full k' (dropk k l) = if keq k k' then None else full k' l.
  Proof.
    induction l as [|[[a w] u] l IH]; rewrite ?dropk_nil, ?dropk_cons; cbn; [destruct (keq k k'); reflexivity|].
    destruct (keq a k) as [->|Ha]; cbn.
    - rewrite IH. destruct (keq k k'); reflexivity.
    - destruct (keq a k') as [->|]; [destruct (keq k k'); congruence|exact IH].
  Qed.
  Lemma full_app k l m : full k (l ++ m) = match full k l with Some x => Some x | None => full k m end.
  Proof. induction l as [|[[a w] u] l IH]; rewrite ?dropk_nil, ?dropk_cons; cbn; [reflexivity|]. destruct (keq a k); [reflexivity|exact IH]. Qed.
  Lemma dropk_incl k l x : In x (dropk k l) -> In x l.
  Proof. unfold dropk. rewrite filter_In. tauto. Qed.
  Lemma dropk_keys_nodup k l : NoDup (keys l) -> NoDup (keys (dropk k l)).
  Proof.
    induction l as [|[[a w] u] l IH]; rewrite ?dropk_nil, ?dropk_cons; cbn; intros ND; [constructor|]. inversion ND as [|? ? N1 N2]; subst.
    destruct (keq a k); cbn; [auto|]. constructor; [|auto].
    intros H. apply N1. unfold keys in *. rewrite in_map_iff in *. destruct H as (x & E & Hx). exists x. split; [assumption|eapply dropk_incl; eassumption].
  Qed.
  Lemma dropk_sorted k l : StronglySorted Z.lt (times l) -> StronglySorted Z.lt (times (dropk k l)).
  Proof.
    induction l as [|[[a w] u] l IH]; rewrite ?dropk_nil, ?dropk_cons; cbn; intros ND; [constructor|]. inversion ND as [|? ? N1 N2]; subst.
    destruct (keq a k); cbn; [auto|]. constructor; [auto|]. rewrite Forall_forall in *. intros t Ht. apply N2.
    unfold times in *. rewrite in_map_iff in *. destruct Ht as (x & E & Hx). exists x. split; [assumption|eapply dropk_incl; eassumption].
  Qed.
  Lemma dropk_times k l P : Forall P (times l) -> Forall P (times (dropk k l)).
  Proof.
    rewrite !Forall_forall. intros H t Ht. apply H. unfold times in *. rewrite in_map_iff in *. destruct Ht as (x & E & Hx). exists x. split; [assumption|eapply dropk_incl; eassumption].
  Qed.
  Lemma dropk_notin k l : ~ In k (keys l) -> dropk k l = l.
  Proof.
    induction l as [|[[a w] u] l IH]; rewrite ?dropk_nil, ?dropk_cons; cbn; intros H; [reflexivity|]. destruct (keq a k); [tauto|]. rewrite IH; tauto.
  Qed.
  Lemma dropk_length k l v t : NoDup (keys l) -> full k l = Some (v, t) -> S (length (dropk k l)) = length l.
  Proof.
    induction l as [|[[a w] u] l IH]; rewrite ?dropk_nil, ?dropk_cons; cbn; intros ND; [discriminate|]. inversion ND as [|? ? N1 N2]; subst.
    destruct (keq a k) as [->|]; intros H.
    - now rewrite dropk_notin.
    - cbn. f_equal. now apply IH.
  Qed.
  Lemma dropk_length_le k l : (length (dropk k l) <= length l)%nat.
  Proof. induction l as [|[[a w] u] l IH]; rewrite ?dropk_nil, ?dropk_cons; cbn; [lia|]. destruct (keq a k); cbn; lia. Qed.
  Lemma notin_dropk k l : ~ In k (keys (dropk k l)).
  Proof. rewrite <- full_none, full_dropk. destruct (keq k k); congruence. Qed.

  Notation atl l := (map (fun p : K * V * Z => (snd p, fst (fst p))) l).

  (** Erasing a present (time, key) pair removes exactly that entry. *)
  Lemma terase_spec k l v t : NoDup (keys l) -> full k l = Some (v, t) -> terase K keq t k (atl l) = atl (dropk k l).
  Proof.
    induction l as [|[[a w] u] l IH]; rewrite ?dropk_nil, ?dropk_cons; cbn; intros ND; [discriminate|]. inversion ND as [|? ? N1 N2]; subst.
    destruct (keq a k) as [->|Hne]; intros H.
    - injection H as -> ->. rewrite Z.eqb_refl. cbn. rewrite dropk_notin by assumption.
      clear IH ND N2. unfold terase. induction l as [|[[b w'] u'] l IH]; cbn; [reflexivity|]. destruct (keq b k) as [->|].
      + exfalso. apply N1. now left.
      + rewrite andb_false_r. cbn. f_equal. apply IH. intros H. apply N1. now right.
    - rewrite andb_false_r. cbn. f_equal. now apply IH.
  Qed.
  Lemma terase_absent k l t : ~ In k (keys l) -> terase K keq t k (atl l) = atl l.
  Proof.
    unfold terase. induction l as [|[[b w'] u'] l IH]; cbn; intros H; [reflexivity|]. destruct (keq b k) as [->|].
    - exfalso. apply H. now left.
    - rewrite andb_false_r. cbn. f_equal. apply IH. tauto.
  Qed.

  Lemma tinsert_last c k l : Forall (fun t => 0 <= t < c) (times l) -> tinsert K klt (c, k) (atl l) = atl l ++ [(c, k)].
  Proof.
    induction l as [|[[a w] u] l IH]; intros H; [reflexivity|]. inversion H as [|? ? H1 H2]; subst. cbn in H1.
    cbn. unfold tk_lt. cbn [fst snd]. replace (c <? u) with false by lia. replace (c =? u) with false by lia. cbn. f_equal. now apply IH.
  Qed.

  Lemma sorted_snoc l c : StronglySorted Z.lt l -> Forall (fun t => 0 <= t < c) l -> StronglySorted Z.lt (l ++ [c]).
  Proof.
    induction l as [|a l IH]; cbn; intros S F; [repeat constructor|]. inversion S; inversion F; subst. constructor; [auto|].
    apply Forall_app. split; [assumption|repeat constructor; lia].
  Qed.

  (** Appending a fresh entry for an absent key, after erasing or evicting. *)
  Lemma append_inv cap (s : lru K V) l k v m a : 0 < cap -> NoDup (keys l) -> StronglySorted Z.lt (times l) ->
    Forall (fun t => 0 <= t < cur s) (times l) -> ~ In k (keys l) -> 0 <= cur s < 2 ^ 64 - 1 ->
    a = atl l -> NoDup (map fst m) -> Z.of_nat (length l) < cap -> length m = S (length l) ->
    (forall k', mfind k' m = if keq k k' then Some (v, cur s) else full k' l) ->
    inv cap (mkLru cap (next (cur s)) m (tinsert K klt (cur s, k) a)) (l ++ [(k, v, cur s)]).
  Proof.
    intros Hc ND SS FF Nk Hcur -> NM Hlen Hm HF. unfold next. rewrite Z.mod_small by lia.
    unfold inv. cbn [max_size cur cache atime]. repeat split.
    - assumption.
    - unfold keys. rewrite map_app. cbn. fold (keys l). apply NoDup_rev in ND. rewrite <- (rev_involutive (keys l ++ [k])).
      apply NoDup_rev. rewrite rev_app_distr. cbn. constructor; [rewrite <- in_rev; assumption|assumption].
    - unfold times. rewrite map_app. cbn. now apply sorted_snoc.
    - unfold times. rewrite map_app. cbn. apply Forall_app. split; [|repeat constructor; lia].
      eapply Forall_impl; [|exact FF]. cbv beta. intros; lia.
    - rewrite map_app. cbn. now apply tinsert_last.
    - assumption.
    - rewrite app_length. cbn. lia.
    - intros k'. rewrite HF, full_app. cbn. destruct (keq k k') as [<-|]; [|now destruct (full k' l)].
      apply full_none in Nk. now rewrite Nk.
    - rewrite app_length. cbn. lia.
  Qed.

  Lemma full_length k l x : full k l = Some x -> (0 < length l)%nat.
  Proof. destruct l; cbn; [discriminate|lia]. Qed.

  Lemma touch_inv cap s l k v t : inv cap s l -> cur s < 2 ^ 64 - 1 -> 0 <= cur s -> full k l = Some (v, t) ->
    inv cap (touch K V keq klt s k) (dropk k l ++ [(k, v, cur s)]) /\ cur (touch K V keq klt s k) = cur s + 1.
  Proof.
    intros (H0 & H1 & H2 & H3 & H4 & H5 & H6 & H7 & H8 & H9) Hc Hc0 Hk.
    unfold touch. rewrite H8, Hk. cbn [cur]. split; [|unfold next; apply Z.mod_small; lia].
    rewrite H1. pose proof (dropk_length k l v t H2 Hk). apply append_inv; auto.
    - now apply dropk_keys_nodup.
    - now apply dropk_sorted.
    - now apply dropk_times.
    - apply notin_dropk.
    - rewrite H5. now apply terase_spec with (v := v).
    - now apply mset_nodup.
    - lia.
    - rewrite mset_length, H8, Hk. lia.
    - intros k'. rewrite mfind_mset, H8, full_dropk. now destruct (keq k k').
  Qed.

  Lemma evict_inv cap s l n : inv cap s l -> (1 <= n)%nat ->
    exists s', evict K V keq (S n) s = Ok s' /\ cur s' = cur s /\
      inv cap s' (if cap <=? Z.of_nat (length l) then tl l else l) /\
      Z.of_nat (length (if cap <=? Z.of_nat (length l) then tl l else l)) < cap.
  Proof.
    intros (H0 & H1 & H2 & H3 & H4 & H5 & H6 & H7 & H8 & H9) Hn.
    destruct (cap <=? Z.of_nat (length l)) eqn:E.
    - destruct l as [|[[a w] u] l]; [cbn in E; lia|]. cbn [evict]. rewrite H1, H7.
      replace (cap <=? Z.of_nat (length ((a, w, u) :: l))) with true by lia.
      rewrite H5, map_length. rewrite Nat.eqb_refl. cbn [map fst snd tl].
      cbn in H2, H3, H4. inversion H2 as [|? ? N1 N2]; inversion H3; inversion H4; subst.
      assert (Ha : mfind a (cache s) = Some (w, u)) by (rewrite H8; cbn; destruct (keq a a); congruence).
      destruct n as [|n]; [lia|]. cbn [evict max_size cache].
      rewrite merase_length, Ha, H7. cbn [length pred] in *.
      replace (max_size s <=? Z.of_nat (length l)) with false by lia.
      eexists. split; [reflexivity|]. cbn [cur]. split; [reflexivity|]. split; [|lia].
      unfold inv. cbn [max_size cur cache atime]. repeat split; auto; try lia.
      + now apply merase_nodup.
      + rewrite merase_length, Ha, H7. reflexivity.
      + intros k. rewrite mfind_merase, H8 by assumption. cbn. destruct (keq a k) as [<-|]; [|reflexivity].
        symmetry. now apply full_none.
    - exists s. cbn [evict]. rewrite H1, H7, E. split; [reflexivity|]. split; [reflexivity|]. split; [|lia].
      unfold inv. repeat split; auto.
  Qed.

  Lemma tl_ref l : ref_of (tl l) = tl (ref_of l).
  Proof. now destruct l. Qed.
  Lemma ref_length l : length (ref_of l) = length l.
  Proof. apply map_length. Qed.

  Lemma put_inv cap s l k v : inv cap s l -> cur s < 2 ^ 64 - 1 -> 0 <= cur s -> full k l = None ->
    exists s', set K V keq klt s k v = Ok s' /\ cur s' = cur s + 1 /\
      exists l', inv cap s' l' /\ ref_of l' = put cap k v (ref_of l) /\ full k l' = Some (v, cur s).
  Proof.
    intros I Hc Hc0 Hk. destruct (I) as (H0 & H1 & H2 & H3 & H4 & H5 & H6 & H7 & H8 & H9).
    unfold set, has. rewrite H8, Hk.
    assert (EX : exists s1, evict K V keq (S (length (cache s))) s = Ok s1 /\ cur s1 = cur s /\
      inv cap s1 (if cap <=? Z.of_nat (length l) then tl l else l) /\
      Z.of_nat (length (if cap <=? Z.of_nat (length l) then tl l else l)) < cap).
    { destruct (length (cache s)) as [|n] eqn:En.
      - exists s. cbn [evict]. rewrite H1, En, <- H7.
        replace (cap <=? Z.of_nat 0) with false by lia. split; [reflexivity|]. split; [reflexivity|]. split; [exact I|lia].
      - apply evict_inv; [assumption|lia]. }
    destruct EX as (s1 & -> & E2 & I1 & E3). cbn [obind]. set (l1 := if cap <=? Z.of_nat (length l) then tl l else l) in *.
    eexists. split; [reflexivity|]. cbn [cur]. split; [unfold next; rewrite E2; apply Z.mod_small; lia|].
    exists (l1 ++ [(k, v, cur s1)]). destruct I1 as (G0 & G1 & G2 & G3 & G4 & G5 & G6 & G7 & G8 & G9).
    assert (Nk : ~ In k (keys l1)).
    { apply full_none in Hk. unfold l1. destruct (cap <=? Z.of_nat (length l)); [|assumption]. destruct l; [assumption|]. cbn in *. tauto. }
    split; [|split].
    - rewrite G1. apply append_inv; auto; try lia.
      + now apply mset_nodup.
      + rewrite mset_length, G8. apply full_none in Nk. rewrite Nk. lia.
      + intros k'. rewrite mfind_mset, G8. reflexivity.
    - unfold ref_of at 1. rewrite map_app. cbn. unfold put. rewrite ref_length. f_equal. unfold l1.
      destruct (cap <=? Z.of_nat (length l)); [apply tl_ref|reflexivity].
    - rewrite full_app. apply full_none in Nk. rewrite Nk. cbn. destruct (keq k k); congruence.
  Qed.

  Lemma remove_inv cap s l k : inv cap s l -> inv cap (remove K V keq vdef s k) (dropk k l) /\ cur (remove K V keq vdef s k) = cur s.
  Proof.
    intros (H0 & H1 & H2 & H3 & H4 & H5 & H6 & H7 & H8 & H9). unfold remove. rewrite H8.
    destruct (full k l) as [[v t]|] eqn:Ek; cbn [cur]; (split; [|reflexivity]).
    - pose proof (dropk_length k l v t H2 Ek). unfold inv. cbn [max_size cur cache atime]. repeat split; auto.
      + now apply dropk_keys_nodup.
      + now apply dropk_sorted.
      + now apply dropk_times.
      + rewrite H5. now apply terase_spec with (v := v).
      + now apply merase_nodup.
      + rewrite merase_length, H8, Ek. lia.
      + intros k'. rewrite mfind_merase, H8, full_dropk by assumption. reflexivity.
      + lia.
    - assert (Nk : ~ In k (keys l)) by now apply full_none. rewrite dropk_notin by assumption.
      unfold inv. cbn [max_size cur cache atime]. repeat split; auto.
      + rewrite H5. now apply terase_absent.
      + now apply merase_nodup, mset_nodup.
      + rewrite merase_length, mfind_mset, mset_length, H8, Ek. destruct (keq k k); [|congruence]. cbn. lia.
      + intros k'. rewrite mfind_merase, mfind_mset, H8 by now apply mset_nodup. destruct (keq k k') as [<-|]; [now rewrite Ek|reflexivity].
  Qed.

  (** Overwriting the value of a present key keeps everything else. *)
  Definition setv (k : K) (v : V) (l : list (K * V * Z)) :=
    map (fun p : K * V * Z => if keq (fst (fst p)) k then (fst (fst p), v, snd p) else p) l.

  Lemma assign_value_inv cap s l k v w t : inv cap s l -> full k l = Some (w, t) ->
    inv cap (mkLru (max_size s) (cur s) (mset k (v, t) (cache s)) (atime s)) (setv k v l).
  Proof.
    intros (H0 & H1 & H2 & H3 & H4 & H5 & H6 & H7 & H8 & H9) Hk.
    assert (Ek : keys (setv k v l) = keys l).
    { clear. unfold keys, times, setv. rewrite map_map. apply map_ext. intros [[a x] u]. cbn. now destruct (keq a k). }
    assert (Et : times (setv k v l) = times l).
    { clear. unfold keys, times, setv. rewrite map_map. apply map_ext. intros [[a x] u]. cbn. now destruct (keq a k). }
    assert (Ea : atl (setv k v l) = atl l).
    { clear. unfold keys, times, setv. rewrite map_map. apply map_ext. intros [[a x] u]. cbn. now destruct (keq a k). }
    assert (El : length (setv k v l) = length l) by apply map_length.
    assert (Ef : forall k', full k' (setv k v l) = if keq k k' then option_map (fun x => (v, snd x)) (full k' l) else full k' l).
    { intros k'. clear. induction l as [|[[a w] u] l IH]; cbn; [now destruct (keq k k')|].
      destruct (keq a k) as [->|Ha]; cbn.
      - destruct (keq k k'); [reflexivity|exact IH].
      - destruct (keq a k') as [->|]; [destruct (keq k k'); congruence|exact IH]. }
    unfold inv. cbn [max_size cur cache atime]. rewrite Ek, Et, Ea, El. repeat split; auto.
    - now apply mset_nodup.
    - rewrite mset_length, H8, Hk. assumption.
    - intros k'. rewrite mfind_mset, Ef, H8. destruct (keq k k') as [<-|]; [now rewrite Hk|reflexivity].
  Qed.

  Lemma setv_ref k v l : ref_of (setv k v l) = map (fun p => if keq (fst p) k then (fst p, v) else p) (ref_of l).
  Proof. unfold ref_of, setv. rewrite !map_map. apply map_ext. intros [[a x] u]. cbn. now destruct (keq a k). Qed.

  Lemma setv_use k v w l : map (fun p : K * V => if keq (fst p) k then (fst p, v) else p) (use k w l) = use k v l.
  Proof.
    unfold use. rewrite map_app. cbn. destruct (keq k k); [|congruence]. f_equal. unfold drop.
    induction l as [|[a x] l IH]; cbn; [reflexivity|]. destruct (keq a k) as [->|Ha]; cbn; [exact IH|].
    destruct (keq a k); [congruence|]. now rewrite IH.
  Qed.

  Lemma setv_put cap k v w l : lookup k l = None -> map (fun p : K * V => if keq (fst p) k then (fst p, v) else p) (put cap k w l) = put cap k v l.
  Proof.
    intros Hk. unfold put. rewrite map_app. cbn. destruct (keq k k); [|congruence]. f_equal.
    assert (X : forall m, lookup k m = None -> map (fun p : K * V => if keq (fst p) k then (fst p, v) else p) m = m).
    { induction m as [|[a x] m IH]; cbn; [reflexivity|]. destruct (keq a k); [discriminate|]. intros H. now rewrite IH. }
    destruct (cap <=? Z.of_nat (length l)); [|now apply X]. apply X. destruct l as [|[a x] l]; [reflexivity|].
    cbn in *. now destruct (keq a k).
  Qed.

  Lemma use_ref k v c l : ref_of (dropk k l ++ [(k, v, c)]) = use k v (ref_of l).
  Proof. unfold ref_of at 1. rewrite map_app. cbn. fold (ref_of (dropk k l)). now rewrite ref_dropk. Qed.

  Lemma full_last k v c l : full k (dropk k l ++ [(k, v, c)]) = Some (v, c).
  Proof. rewrite full_app, full_dropk. cbn. destruct (keq k k); congruence. Qed.

  Lemma step_inv cap s l o : inv cap s l -> 0 <= cur s < 2 ^ 64 - 1 ->
    exists s' l', lstep K V keq klt vdef s o = Ok (fst (ref_step K V keq vdef cap (ref_of l) o), s') /\ inv cap s' l' /\
      ref_of l' = snd (ref_step K V keq vdef cap (ref_of l) o) /\ cur s <= cur s' <= cur s + 1.
  Proof.
    intros I Hc. destruct (I) as (H0 & H1 & H2 & H3 & H4 & H5 & H6 & H7 & H8 & H9).
    destruct o as [k|k|k v|k|k| |k|k v]; cbn [lstep ref_step]; try rewrite lookup_full.
    - unfold has. rewrite H8. exists s, l. split; [destruct (full k l); reflexivity|]. split; [exact I|]. split; [reflexivity|lia].
    - unfold get. rewrite H8. destruct (full k l) as [[v t]|] eqn:Ek; cbn [option_map fst].
      + destruct (touch_inv cap s l k v t I ltac:(lia) ltac:(lia) Ek) as [I' C'].
        destruct (I') as (_ & _ & _ & _ & _ & _ & _ & _ & F & _). rewrite F, full_last.
        eexists _, _. split; [reflexivity|]. split; [exact I'|]. split; [apply use_ref|lia].
      + exists s, l. split; [reflexivity|]. split; [exact I|]. split; [reflexivity|lia].
    - destruct (full k l) as [[w t]|] eqn:Ek; cbn [option_map fst snd].
      + unfold set, has. rewrite H8, Ek. cbn [obind]. exists s, l. split; [reflexivity|]. split; [exact I|]. split; [reflexivity|lia].
      + destruct (put_inv cap s l k v I ltac:(lia) ltac:(lia) Ek) as (s' & -> & C & l' & I' & R & _). cbn [obind].
        exists s', l'. split; [reflexivity|]. split; [exact I'|]. split; [exact R|lia].
    - destruct (full k l) as [[v t]|] eqn:Ek; cbn [option_map fst snd].
      + destruct (touch_inv cap s l k v t I ltac:(lia) ltac:(lia) Ek) as [I' C'].
        eexists _, _. split; [reflexivity|]. split; [exact I'|]. split; [apply use_ref|lia].
      + unfold touch. rewrite H8, Ek. exists s, l. split; [reflexivity|]. split; [exact I|]. split; [reflexivity|lia].
    - destruct (remove_inv cap s l k I) as [I' C']. eexists _, _. split; [reflexivity|]. split; [exact I'|]. split; [apply ref_dropk|lia].
    - eexists _, []. split; [reflexivity|]. split; [|split; [reflexivity|cbn; lia]].
      unfold inv, clear. cbn. repeat split; auto; try constructor; lia.
    - unfold index, has. rewrite H8. destruct (full k l) as [[v t]|] eqn:Ek; cbn [option_map fst snd obind].
      + destruct (touch_inv cap s l k v t I ltac:(lia) ltac:(lia) Ek) as [I' C'].
        destruct (I') as (_ & _ & _ & _ & _ & _ & _ & _ & F & _). rewrite F, full_last. cbn [obind].
        eexists _, _. split; [reflexivity|]. split; [exact I'|]. split; [apply use_ref|lia].
      + destruct (put_inv cap s l k vdef I ltac:(lia) ltac:(lia) Ek) as (s' & -> & C & l' & I' & R & Fk). cbn [obind].
        destruct (I') as (_ & _ & _ & _ & _ & _ & _ & _ & F & _). rewrite F, Fk. cbn [obind].
        exists s', l'. split; [reflexivity|]. split; [exact I'|]. split; [exact R|lia].
    - unfold assign, index, has. rewrite H8. destruct (full k l) as [[w t]|] eqn:Ek; cbn [option_map fst snd obind].
      + destruct (touch_inv cap s l k w t I ltac:(lia) ltac:(lia) Ek) as [I' C'].
        destruct (I') as (_ & _ & _ & _ & _ & _ & _ & _ & F & _). rewrite F, full_last. cbn [obind]. rewrite F, full_last. cbn [obind].
        eexists _, _. split; [reflexivity|]. split; [apply (assign_value_inv _ _ _ k v w _ I'); apply full_last|].
        split; [rewrite setv_ref, use_ref; apply setv_use|cbn [cur]; lia].
      + destruct (put_inv cap s l k vdef I ltac:(lia) ltac:(lia) Ek) as (s' & -> & C & l' & I' & R & Fk). cbn [obind].
        destruct (I') as (_ & _ & _ & _ & _ & _ & _ & _ & F & _). rewrite F, Fk. cbn [obind]. rewrite F, Fk. cbn [obind].
        eexists _, _. split; [reflexivity|]. split; [apply (assign_value_inv _ _ _ k v vdef _ I'); exact Fk|].
        split; [rewrite setv_ref, R; apply setv_put; now rewrite lookup_full, Ek|cbn [cur]; lia].
  Qed.

  Lemma run_inv cap ops : forall s l, inv cap s l -> 0 <= cur s -> cur s + Z.of_nat (length ops) < 2 ^ 64 ->
    exists s', lrun K V keq klt vdef ops s = Ok (fst (ref_run K V keq vdef cap ops (ref_of l)), s') /\
      exists l', inv cap s' l' /\ ref_of l' = snd (ref_run K V keq vdef cap ops (ref_of l)).
  Proof.
    induction ops as [|o ops IH]; intros s l I Hc Hb.
    - exists s. split; [reflexivity|]. exists l. auto.
    - cbn [length] in Hb. destruct (step_inv cap s l o I ltac:(lia)) as (s1 & l1 & E1 & I1 & R1 & C1).
      cbn [lrun ref_run]. rewrite E1. cbn [obind].
      destruct (ref_step K V keq vdef cap (ref_of l) o) as [x r1]. cbn [fst snd] in *. subst r1.
      destruct (IH s1 l1 I1 ltac:(lia) ltac:(lia)) as (s2 & E2 & l2 & I2 & R2). rewrite E2. cbn [obind].
      destruct (ref_run K V keq vdef cap ops (ref_of l1)) as [xs r2]. cbn [fst snd] in *.
      exists s2. split; [reflexivity|]. exists l2. auto.
  Qed.

  Theorem lru_refines cap ops : 0 < cap -> Z.of_nat (length ops) < 2 ^ 64 ->
    exists s, lrun K V keq klt vdef ops (lru_new cap) = Ok (fst (ref_run K V keq vdef cap ops []), s) /\
      Z.of_nat (length (snd (ref_run K V keq vdef cap ops []))) <= cap /\
      NoDup (map fst (snd (ref_run K V keq vdef cap ops []))) /\
      length (cache s) = length (snd (ref_run K V keq vdef cap ops [])).
  Proof.
    intros Hcap Hn.
    assert (I0 : inv cap (lru_new cap) []) by (unfold inv, lru_new; cbn; repeat split; auto; try constructor; lia).
    destruct (run_inv cap ops (lru_new cap) [] I0 ltac:(cbn; lia) ltac:(cbn; lia)) as (s & E & l & I & R).
    change (ref_of []) with (@nil (K * V)) in *. exists s. split; [exact E|].
    destruct I as (H0 & H1 & H2 & H3 & H4 & H5 & H6 & H7 & H8 & H9). rewrite <- R, ref_length.
    split; [assumption|]. split; [|assumption]. unfold ref_of. rewrite map_map. exact H2.
  Qed.
End Proof.
