(** Lemmas about the DNS cache. *)
From Verif Require Import Common CommonLemmas Dns_Spec Dns_Model.
From Coq Require Import Permutation Sorted.
Local Open Scope Z_scope.

Lemma key_eqb_spec a b : reflect (a = b) (key_eqb a b).
Proof.
  unfold key_eqb, str_eqb. destruct a as [a p], b as [b q]. cbn [fst snd]. destruct (list_eq_dec Z.eq_dec a b) as [->|N]; cbn [andb].
  - destruct (Z.eqb_spec p q) as [->|N]; constructor; congruence.
  - constructor; congruence.
Qed.
Lemma key_eqb_refl a : key_eqb a a = true.
Proof. destruct (key_eqb_spec a a); congruence. Qed.
Lemma stamp_eqb_spec a b : reflect (a = b) (stamp_eqb a b).
Proof.
  unfold stamp_eqb. destruct a as [t k], b as [u l]. cbn [fst snd]. destruct (Z.eqb_spec t u) as [->|N]; cbn [andb].
  - destruct (key_eqb_spec k l) as [->|N]; constructor; congruence.
  - constructor; congruence.
Qed.

Lemma lookup_in k v m : lookup k m = Some v -> In (k, v) m.
Proof.
  unfold lookup. destruct (find _ m) as [e|] eqn:E; [|discriminate]. intros [= <-]. apply find_some in E as [E1 E2].
  destruct (key_eqb_spec (fst e) k) as [<-|]; [now destruct e|discriminate].
Qed.
Lemma lookup_cons k e m : lookup k (e :: m) = if key_eqb (fst e) k then Some (snd e) else lookup k m.
Proof. unfold lookup. cbn [find]. now destruct (key_eqb (fst e) k). Qed.
Lemma in_lookup k v m : NoDup (map fst m) -> In (k, v) m -> lookup k m = Some v.
Proof.
  induction m as [|e m IH]; intros N H; [contradiction|]. rewrite lookup_cons. cbn [map] in N. inversion N as [|? ? N1 N2]; subst.
  destruct H as [->|H]; cbn [fst snd]; [now rewrite key_eqb_refl|].
  destruct (key_eqb_spec (fst e) k) as [<-|]; [|now apply IH]. elim N1. apply (in_map fst) in H. exact H.
Qed.
Lemma lookup_none k m : lookup k m = None -> ~ In k (map fst m).
Proof.
  induction m as [|e m IH]; [intros _ []|]. intros H [E|E]; rewrite lookup_cons in H.
  - rewrite <- E in H. now rewrite key_eqb_refl in H.
  - destruct (key_eqb (fst e) k); [discriminate|]. now apply IH.
Qed.
Lemma lookup_remove k l m : lookup k (remove l m) = if key_eqb l k then None else lookup k m.
Proof.
  unfold remove. induction m as [|e m IH]; cbn [filter]; [now destruct (key_eqb l k)|]. destruct (key_eqb_spec (fst e) l) as [E|E]; cbn [negb].
  - rewrite IH, lookup_cons, E. now destruct (key_eqb l k).
  - rewrite !lookup_cons, IH. destruct (key_eqb_spec l k) as [<-|]; [|reflexivity]. destruct (key_eqb_spec (fst e) l); congruence.
Qed.
Lemma lookup_store k l v m : lookup k (store l v m) = if key_eqb l k then Some v else lookup k m.
Proof. unfold store. rewrite lookup_cons, lookup_remove. cbn [fst snd]. now destruct (key_eqb l k). Qed.
Lemma in_remove e k m : In e (remove k m) -> In e m /\ fst e <> k.
Proof. unfold remove. rewrite filter_In. intros [H E]. split; [exact H|]. now destruct (key_eqb_spec (fst e) k). Qed.
Lemma nodup_remove k m : NoDup (map fst m) -> NoDup (map fst (remove k m)) /\ ~ In k (map fst (remove k m)).
Proof.
  intros N. split.
  - induction m as [|e m IH]; [constructor|]. cbn [map] in N. inversion N as [|? ? N1 N2]; subst. unfold remove. cbn [filter].
    destruct (key_eqb_spec (fst e) k); cbn [negb]; [now apply IH|]. cbn [map]. constructor; [|now apply IH].
    intros H. apply N1. apply in_map_iff in H as (x & E & H). apply in_map_iff. exists x. split; [exact E|]. now apply in_remove in H.
  - intros H. apply in_map_iff in H as (x & E & H). apply in_remove in H. tauto.
Qed.
Lemma nodup_store k v m : NoDup (map fst m) -> NoDup (map fst (store k v m)).
Proof. intros N. unfold store. cbn [map fst]. destruct (nodup_remove k m N). now constructor. Qed.
Lemma length_remove k m : (length (remove k m) <= length m)%nat.
Proof. unfold remove. induction m as [|e m IH]; cbn [filter length]; [lia|]. destruct (negb _); cbn [length]; lia. Qed.
Lemma length_remove_in k m : In k (map fst m) -> (length (remove k m) < length m)%nat.
Proof.
  induction m as [|e m IH]; cbn [map]; [intros []|]. intros H. unfold remove. cbn [filter length]. destruct (key_eqb_spec (fst e) k) as [E|E]; cbn [negb length].
  - pose proof (length_remove k m). unfold remove in H0. lia.
  - destruct H as [H|H]; [congruence|]. specialize (IH H). unfold remove in IH. lia.
Qed.
Lemma insert_perm x l : Permutation (insert x l) (x :: l).
Proof.
  induction l as [|y l IH]; cbn [insert]; [apply Permutation_refl|]. destruct (stamp_lt x y); [apply Permutation_refl|].
  eapply Permutation_trans; [apply perm_skip, IH|]. apply perm_swap.
Qed.
Lemma in_insert x y l : In y (insert x l) <-> x = y \/ In y l.
Proof. split; intros H. - apply (Permutation_in _ (insert_perm x l)) in H. exact H. - apply (Permutation_in _ (Permutation_sym (insert_perm x l))). exact H. Qed.
Lemma in_erase x y l : In y (erase x l) <-> In y l /\ y <> x.
Proof. unfold erase. rewrite filter_In. destruct (stamp_eqb_spec y x); cbn [negb]; intuition discriminate. Qed.

(** The part of the bookkeeping that survives every schedule. *)
Definition tidy (s : dns) : Prop := NoDup (map fst (cache s)) /\ forall k a t, lookup k (cache s) = Some (a, t) -> In (t, k) (access s).

Section dns.
Context (max_size expire : Z) (debug : bool).
Lemma tidy_delete k s : tidy s -> tidy (delete_cache k s).
Proof.
  intros [N H]. unfold delete_cache, tidy. cbn [cache access]. split; [now apply nodup_remove|]. intros l a t. rewrite lookup_remove.
  destruct (key_eqb_spec k l) as [|E]; [discriminate|]. intros L. apply in_erase. split; [now apply (H l a)|]. congruence.
Qed.
Lemma first_some k cur s a s' : first expire k cur s = (Some a, s') ->
  exists t, lookup k (cache s) = Some (a, t) /\ 0 < expire /\ s' = mkDns (store k (a, cur) (cache s)) (insert (cur, k) (erase (t, k) (access s))).
Proof.
  unfold first. destruct (lookup k (cache s)) as [[a' t]|] eqn:E; [|discriminate]. rewrite lookup_store, key_eqb_refl.
  destruct (Z.ltb_spec (cur - cur) expire); [|discriminate]. intros [= <- <-]. exists t. split; [reflexivity|]. split; [lia|reflexivity].
Qed.
Lemma first_none k cur s s' : first expire k cur s = (None, s') ->
  lookup k (cache s') = None /\
  (s' = s \/ expire <= 0 /\ exists a t, lookup k (cache s) = Some (a, t) /\
   s' = mkDns (remove k (store k (a, cur) (cache s))) (erase (cur, k) (insert (cur, k) (erase (t, k) (access s))))).
Proof.
  unfold first. destruct (lookup k (cache s)) as [[a' t]|] eqn:E; [|intros [= <-]; auto]. rewrite lookup_store, key_eqb_refl.
  destruct (Z.ltb_spec (cur - cur) expire); [discriminate|]. intros E1. apply (f_equal snd) in E1. cbn [snd] in E1. subst s'. split; [cbn [cache]; now rewrite lookup_remove, key_eqb_refl|]. right. split; [lia|]. now exists a', t.
Qed.
Lemma tidy_first k cur s r s' : tidy s -> first expire k cur s = (r, s') -> tidy s'.
Proof.
  intros [N H] E. destruct r as [a|].
  - apply first_some in E as (t & L & _ & ->). split; cbn [cache access]; [now apply nodup_store|]. intros l b u. rewrite lookup_store.
    destruct (key_eqb_spec k l) as [<-|D]; [intros [= <- <-]; apply in_insert; now left|]. intros G. apply in_insert. right. apply in_erase.
    split; [now apply (H l b)|congruence].
  - apply first_none in E as [_ [->|(_ & a & t & L & ->)]]; [now split|]. split; cbn [cache access]; [apply nodup_remove; now apply nodup_store|].
    intros l b u. rewrite lookup_remove, lookup_store. destruct (key_eqb_spec k l) as [<-|D]; [discriminate|]. intros G.
    apply in_erase. split; [|congruence]. apply in_insert. right. apply in_erase. split; [now apply (H l b)|congruence].
Qed.
Lemma evict_keep (P : dns -> Prop) : (forall s t k acc, P s -> access s = (t, k) :: acc -> P (mkDns (remove k (cache s)) acc)) ->
  forall fuel s s', P s -> evict max_size debug fuel s = Ok s' -> P s' /\ Z.of_nat (length (cache s')) < max_size.
Proof.
  intros HP. induction fuel as [|fuel IH]; intros s s' H; cbn [evict]; [discriminate|].
  destruct (Z.leb_spec max_size (Z.of_nat (length (cache s)))); [|intros [= <-]; auto].
  destruct (debug && _); [discriminate|]. destruct (access s) as [|[t k] acc] eqn:E; [discriminate|]. intros G. apply (IH _ _ (HP s t k acc H E) G).
Qed.
Lemma tidy_pop s t k acc : tidy s -> access s = (t, k) :: acc -> tidy (mkDns (remove k (cache s)) acc).
Proof.
  intros [N H] E. split; cbn [cache access]; [now apply nodup_remove|]. intros l a u. rewrite lookup_remove. destruct (key_eqb_spec k l) as [|D]; [discriminate|].
  intros G. specialize (H l a u G). rewrite E in H. destruct H as [H|H]; [congruence|exact H].
Qed.
Lemma evict_ok : 1 <= max_size -> debug = false -> forall fuel s, tidy s -> (length (access s) < fuel)%nat -> exists s', evict max_size debug fuel s = Ok s'.
Proof.
  intros M D. induction fuel as [|fuel IH]; intros s T L; [lia|]. cbn [evict].
  destruct (Z.leb_spec max_size (Z.of_nat (length (cache s)))) as [G|]; [|eauto]. rewrite D. cbn [andb].
  destruct (access s) as [|[t k] acc] eqn:E.
  - destruct T as [N H]. destruct (cache s) as [|[k [a t]] m] eqn:C; [cbn [length] in G; lia|].
    specialize (H k a t). rewrite lookup_cons in H. cbn [fst snd] in H. rewrite key_eqb_refl, E in H. now elim H.
  - rewrite <- D. apply IH; [now apply (tidy_pop s t)|]. cbn [access length] in *. lia.
Qed.
Lemma second_spec k cur a s s' : tidy s -> second max_size debug k cur a s = Ok s' ->
  tidy s' /\ Z.of_nat (length (cache s')) <= max_size /\
  (forall l v, lookup l (cache s') = Some v -> (l = k /\ v = (a, cur)) \/ (l <> k /\ lookup l (cache s) = Some v)).
Proof.
  intros T. unfold second. destruct (evict _ _ _ s) as [s1| | |] eqn:E; try discriminate. cbn [obind]. intros [= <-].
  set (P := fun x : dns => tidy x /\ forall l v, lookup l (cache x) = Some v -> lookup l (cache s) = Some v).
  assert (HP : forall s t k acc, P s -> access s = (t, k) :: acc -> P (mkDns (remove k (cache s)) acc)).
  { intros x t l acc [T1 H1] Ex. split; [now apply (tidy_pop x t)|]. cbn [cache]. intros l' v. rewrite lookup_remove. destruct (key_eqb l l'); [discriminate|apply H1]. }
  destruct (evict_keep P HP _ s s1 (conj T (fun l v G => G)) E) as [[T1 H1] L]. split; [|split].
  - destruct T1 as [N1 G1]. split; cbn [cache access]; [now apply nodup_store|]. intros l b u. rewrite lookup_store.
    destruct (key_eqb_spec k l) as [<-|D]; [intros [= <- <-]; apply in_insert; now left|]. intros G. apply in_insert. right. now apply (G1 l b).
  - cbn [cache]. unfold store. cbn [length]. pose proof (length_remove k (cache s1)). lia.
  - cbn [cache]. intros l v. rewrite lookup_store. destruct (key_eqb_spec k l) as [<-|D]; [intros [= <-]; auto|]. intros G. right. split; [congruence|]. auto.
Qed.
Lemma second_ok k cur a s : 1 <= max_size -> debug = false -> tidy s -> exists s', second max_size debug k cur a s = Ok s'.
Proof. intros M D T. unfold second. destruct (evict_ok M D (S (length (access s))) s T ltac:(lia)) as [s' ->]. cbn [obind]. eauto. Qed.

(** * Every schedule *)
Definition sound (c : config) : Prop :=
  tidy (st c) /\ Z.of_nat (length (cache (st c))) <= Z.max 0 max_size /\
  (forall k a t, lookup k (cache (st c)) = Some (a, t) -> exists t0, In (Answered k t0 a) (log c)) /\
  (forall i k t a, threads c i = Have k t a -> In (Answered k t a) (log c)) /\ from_resolver (log c).
Lemma from_resolver_answered k t a h : from_resolver h -> from_resolver (Answered k t a :: h).
Proof. intros H new old l u b E. destruct new as [|e new]; cbn [app] in E; [discriminate|]. injection E as _ E. now apply (H new old l u b). Qed.
Lemma from_resolver_returned k t a h : from_resolver h -> (exists t0, In (Answered k t0 a) h) -> from_resolver (Returned k t a :: h).
Proof.
  intros H G new old l u b E. destruct new as [|e new]; cbn [app] in E; [now injection E as <- <- <- <-|]. injection E as _ E. now apply (H new old l u b).
Qed.
Lemma set_pc_cases i p f j : (j = i /\ set_pc i p f j = p) \/ (j <> i /\ set_pc i p f j = f j).
Proof. unfold set_pc. destruct (Nat.eqb_spec i j) as [->|]; auto. Qed.
Lemma sound_start : sound start.
Proof.
  split; [|split; [|split; [|split]]].
  - split; [constructor|]. intros k a t [=].
  - cbn. lia.
  - intros k a t [=].
  - intros i k t a [=].
  - intros new old k t a E. destruct new; discriminate.
Qed.
Lemma sound_step c m c' : sound c -> step max_size expire debug c m = Ok c' -> sound c'.
Proof.
  intros (T & L & S1 & S2 & S3). destruct m as [i k cur|i|i a|i| |k]; cbn [step].
  - destruct (threads c i); intros [= <-]; try (repeat split; assumption || apply T). split; [exact T|]. split; [exact L|]. split; [exact S1|]. split; [|exact S3].
    cbn [threads log]. intros j l t a H. destruct (set_pc_cases i (Begun k cur) (threads c) j) as [[-> E]|[_ E]]; rewrite E in H; [discriminate|]. now apply (S2 j).
  - destruct (threads c i) as [|k cur|k cur|k cur b]; try (intros [= <-]; repeat split; assumption || apply T).
    destruct (first expire k cur (st c)) as [r s'] eqn:E. pose proof (tidy_first k cur (st c) r s' T E) as T'. destruct r as [a|]; intros [= <-].
    + apply first_some in E as (t & G & _ & Es). split; [exact T'|]. cbn [st log threads]. destruct (S1 k a t G) as [t0 Ht].
      assert (Ls : (length (cache s') <= length (cache (st c)))%nat).
      { rewrite Es. cbn [cache]. unfold store. cbn [length]. apply lookup_in, (in_map fst) in G as G'. cbn [fst] in G'. apply length_remove_in in G'. lia. }
      split; [lia|]. split; [|split].
      * intros l b u. rewrite Es. cbn [cache]. rewrite lookup_store. destruct (key_eqb_spec k l) as [<-|].
        -- intros [= <- <-]. exists t0. now right.
        -- intros H. destruct (S1 l b u H) as [t1 H1]. exists t1. now right.
      * intros j l u b H. destruct (set_pc_cases i Free (threads c) j) as [[-> E]|[_ E]]; rewrite E in H; [discriminate|]. right. now apply (S2 j).
      * apply from_resolver_returned; [exact S3|]. now exists t0.
    + apply first_none in E as [_ E]. split; [exact T'|]. cbn [st log threads].
      assert (Ls : (length (cache s') <= length (cache (st c)))%nat /\ forall l v, lookup l (cache s') = Some v -> lookup l (cache (st c)) = Some v).
      { destruct E as [->|(_ & a & t & G & ->)]; [auto|]. cbn [cache]. split.
        - unfold store. unfold remove at 1. cbn [filter fst]. rewrite key_eqb_refl. cbn [negb]. fold (remove k (remove k (cache (st c)))).
          pose proof (length_remove k (remove k (cache (st c)))). pose proof (length_remove k (cache (st c))). lia.
        - intros l v. rewrite lookup_remove, lookup_store. destruct (key_eqb k l); [discriminate|auto]. }
      destruct Ls as [Ls Hs]. split; [lia|]. split; [|split; [|exact S3]].
      * intros l b u H. apply (S1 l b u). now apply Hs.
      * intros j l u b H. destruct (set_pc_cases i (Missed k cur) (threads c) j) as [[-> E']|[_ E']]; rewrite E' in H; [discriminate|]. now apply (S2 j).
  - destruct (threads c i) as [|k cur|k cur|k cur b] eqn:Ei; try (intros [= <-]; repeat split; assumption || apply T). intros [= <-].
    split; [exact T|]. split; [exact L|]. cbn [st log threads]. split; [|split].
    + intros l b u H. destruct (S1 l b u H) as [t0 H0]. exists t0. now right.
    + intros j l u b H. destruct (set_pc_cases i (Have k cur a) (threads c) j) as [[-> E]|[_ E]]; rewrite E in H; [injection H as <- <- <-; now left|]. right. now apply (S2 j).
    + now apply from_resolver_answered.
  - destruct (threads c i) as [|k cur|k cur|k cur a] eqn:Ei; try (intros [= <-]; repeat split; assumption || apply T).
    destruct (second _ _ k cur a (st c)) as [s'| | |] eqn:E; try discriminate. cbn [obind]. intros [= <-]. apply second_spec in E as (T' & L' & H'); [|exact T].
    specialize (S2 i k cur a Ei) as G. split; [exact T'|]. cbn [st log threads]. split; [lia|]. split; [|split].
    + intros l b u H. destruct (H' l (b, u) H) as [[-> [= -> ->]]|[_ H1]]; [exists cur; now right|]. destruct (S1 l b u H1) as [t0 H0]. exists t0. now right.
    + intros j l u b H. destruct (set_pc_cases i Free (threads c) j) as [[-> E]|[_ E]]; rewrite E in H; [discriminate|]. right. now apply (S2 j).
    + apply from_resolver_returned; [exact S3|]. now exists cur.
  - intros [= <-]. split; [split; [constructor|intros k a t [=]]|]. cbn [st log threads]. split; [cbn; lia|]. split; [intros k a t [=]|]. now split.
  - intros [= <-]. split; [now apply tidy_delete|]. cbn [st log threads]. split; [|split; [|now split]].
    + unfold delete_cache. cbn [cache]. pose proof (length_remove k (cache (st c))). lia.
    + intros l b u. unfold delete_cache. cbn [cache]. rewrite lookup_remove. destruct (key_eqb k l); [discriminate|apply S1].
Qed.
Lemma sound_run ms : forall c c', sound c -> run max_size expire debug c ms = Ok c' -> sound c'.
Proof.
  induction ms as [|m ms IH]; intros c c' H; cbn [run]; [now intros [= <-]|]. destruct (step _ _ _ c m) as [c1| | |] eqn:E; try discriminate. cbn [obind].
  apply IH. now apply (sound_step c m).
Qed.
Lemma step_ok c m : 1 <= max_size -> debug = false -> sound c -> exists c', step max_size expire debug c m = Ok c'.
Proof.
  intros M D (T & _). destruct m as [i k cur|i|i a|i| |k]; cbn [step]; try (destruct (threads c i); eauto; fail); eauto.
  - destruct (threads c i) as [|k cur| |]; eauto. destruct (first expire k cur (st c)) as [[a|] s']; eauto.
  - destruct (threads c i) as [| | |k cur a]; eauto. destruct (second_ok k cur a (st c) M D T) as [s' ->]. cbn [obind]. eauto.
Qed.
Lemma run_ok ms : 1 <= max_size -> debug = false -> forall c, sound c -> exists c', run max_size expire debug c ms = Ok c'.
Proof.
  intros M D. induction ms as [|m ms IH]; intros c H; cbn [run]; [eauto|]. destruct (step_ok c m M D H) as [c1 E]. rewrite E. cbn [obind].
  apply IH. now apply (sound_step c m).
Qed.
End dns.

(** * Calls that do not overlap *)
Lemma perm_filter {A} (f : A -> bool) l l' : Permutation l l' -> Permutation (filter f l) (filter f l').
Proof.
  induction 1 as [|x l l' H IH|x y l|l l1 l2 H1 IH1 H2 IH2]; cbn [filter]; [constructor| | |now apply Permutation_trans with (filter f l1)].
  - destruct (f x); [now constructor|exact IH].
  - destruct (f x), (f y); try apply Permutation_refl. apply perm_swap.
Qed.
Definition stamps (m : list (key * (list Z * Z))) : list stamp := map (fun e => (snd (snd e), fst e)) m.
Lemma perm_remove k a t m : NoDup (map fst m) -> lookup k m = Some (a, t) -> Permutation (stamps m) ((t, k) :: stamps (remove k m)).
Proof.
  induction m as [|e m IH]; intros N L; [discriminate|]. rewrite lookup_cons in L. cbn [map] in N. inversion N as [|? ? N1 N2]; subst.
  unfold remove, stamps. cbn [filter map]. destruct (key_eqb_spec (fst e) k) as [E|E]; cbn [negb].
  - injection L as L. rewrite E, L. cbn [snd]. replace (filter _ m) with m; [apply Permutation_refl|]. subst k. clear - N1. induction m as [|x m IH]; cbn [filter]; [reflexivity|].
    cbn [map] in N1. destruct (key_eqb_spec (fst x) (fst e)) as [G|G]; cbn [negb]; [elim N1; now left|]. f_equal. apply IH. intros H. apply N1. now right.
  - cbn [map]. eapply Permutation_trans; [apply perm_skip, (IH N2 L)|]. apply perm_swap.
Qed.
Lemma erase_other x l : ~ In x l -> erase x l = l.
Proof.
  induction l as [|y l IH]; [reflexivity|]. intros H. unfold erase. cbn [filter]. destruct (stamp_eqb_spec y x) as [->|]; cbn [negb]; [elim H; now left|].
  f_equal. apply IH. intros G. apply H. now right.
Qed.
Lemma erase_one x l l' : Permutation l (x :: l') -> ~ In x l' -> Permutation (erase x l) l'.
Proof.
  intros P N. apply (perm_filter (fun y => negb (stamp_eqb y x))) in P. cbn [filter] in P. destruct (stamp_eqb_spec x x) as [_|F]; [|now elim F]. cbn [negb] in P.
  unfold erase. fold (erase x l') in P. now rewrite erase_other in P.
Qed.
Lemma stamps_remove k t m : ~ In (t, k) (stamps (remove k m)).
Proof. unfold stamps. rewrite in_map_iff. intros (e & E & H). apply in_remove in H as [_ H]. injection E as _ E. contradiction. Qed.

Definition earlier (a b : stamp) : Prop := fst a <= fst b.
Lemma stamp_lt_earlier x y : if stamp_lt x y then earlier x y else earlier y x.
Proof. unfold stamp_lt, earlier. destruct (Z.ltb_spec (fst x) (fst y)); [lia|]. destruct (Z.ltb_spec (fst y) (fst x)); [lia|]. destruct (key_lt _ _); lia. Qed.
Lemma sorted_insert x l : StronglySorted earlier l -> StronglySorted earlier (insert x l).
Proof.
  induction 1 as [|y l H IH F]; cbn [insert]; [repeat constructor|]. pose proof (stamp_lt_earlier x y) as E. destruct (stamp_lt x y).
  - constructor; [now constructor|]. constructor; [exact E|]. revert F. apply Forall_impl. unfold earlier in *. intros; lia.
  - constructor; [exact IH|]. apply Forall_forall. intros z Hz. apply in_insert in Hz as [<-|Hz]; [exact E|]. rewrite Forall_forall in F. now apply F.
Qed.
Lemma sorted_filter f l : StronglySorted earlier l -> StronglySorted earlier (filter f l).
Proof.
  induction 1 as [|y l H IH F]; cbn [filter]; [constructor|]. destruct (f y); [|exact IH]. constructor; [exact IH|]. rewrite Forall_forall in *.
  intros z Hz. apply filter_In in Hz as [Hz _]. now apply F.
Qed.

(** The whole bookkeeping *)
Definition exact (s : dns) : Prop := NoDup (map fst (cache s)) /\ Permutation (access s) (stamps (cache s)) /\ StronglySorted earlier (access s).
Lemma exact_lengths s : exact s -> length (access s) = length (cache s).
Proof. intros (_ & P & _). apply Permutation_length in P. unfold stamps in P. now rewrite map_length in P. Qed.
Lemma exact_in s t k : exact s -> In (t, k) (access s) <-> exists a, lookup k (cache s) = Some (a, t).
Proof.
  intros (N & P & _). split.
  - intros H. apply (Permutation_in _ P) in H. unfold stamps in H. apply in_map_iff in H as ([l [a u]] & E & H). cbn [fst snd] in E. injection E as -> ->.
    exists a. now apply in_lookup.
  - intros [a H]. apply (Permutation_in _ (Permutation_sym P)). unfold stamps. apply in_map_iff. exists (k, (a, t)). split; [reflexivity|]. now apply lookup_in.
Qed.
Lemma exact_empty : exact empty.
Proof. split; [constructor|]. split; [constructor|constructor]. Qed.
Lemma remove_none k m : lookup k m = None -> remove k m = m.
Proof.
  intros H. apply lookup_none in H. unfold remove. induction m as [|e m IH]; [reflexivity|]. cbn [filter]. destruct (key_eqb_spec (fst e) k) as [E|E]; cbn [negb].
  - elim H. now left.
  - f_equal. apply IH. intros G. apply H. now right.
Qed.
Lemma exact_delete k s : exact s -> exact (delete_cache k s).
Proof.
  intros X. pose proof X as (N & P & S). unfold delete_cache. destruct (lookup k (cache s)) as [[a t]|] eqn:E.
  - split; [now apply nodup_remove|]. cbn [cache access]. split; [|now apply sorted_filter]. apply erase_one; [|apply stamps_remove].
    eapply Permutation_trans; [exact P|]. now apply perm_remove with a.
  - rewrite remove_none by exact E. rewrite erase_other; [exact X|]. intros H. apply (exact_in s 0 k X) in H as [a H]. congruence.
Qed.
Section seq.
Context (max_size expire : Z) (debug : bool).
Lemma exact_first k cur s r s' : exact s -> first expire k cur s = (r, s') -> exact s'.
Proof.
  intros X E. pose proof X as (N & P & S). destruct r as [a|].
  - apply first_some in E as (t & L & _ & ->). split; [now apply nodup_store|]. cbn [cache access]. split; [|apply sorted_insert; now apply sorted_filter].
    eapply Permutation_trans; [apply insert_perm|]. unfold store. cbn [stamps map fst snd]. apply perm_skip. apply erase_one; [|apply stamps_remove].
    eapply Permutation_trans; [exact P|]. now apply perm_remove with a.
  - apply first_none in E as [_ [->|(_ & a & t & L & ->)]]; [exact X|].
    split; [apply nodup_remove; now apply nodup_store|]. cbn [cache access]. split; [|apply sorted_filter, sorted_insert; now apply sorted_filter].
    apply erase_one; [|apply stamps_remove]. eapply Permutation_trans; [apply insert_perm|]. apply perm_skip.
    unfold store. unfold remove at 1. cbn [filter fst]. rewrite key_eqb_refl. cbn [negb]. fold (remove k (remove k (cache s))).
    rewrite (remove_none k (remove k (cache s))) by now rewrite lookup_remove, key_eqb_refl.
    apply erase_one; [|apply stamps_remove]. eapply Permutation_trans; [exact P|]. now apply perm_remove with a.
Qed.
Lemma exact_pop s t k acc : exact s -> access s = (t, k) :: acc -> exact (mkDns (remove k (cache s)) acc) /\
  exists a, lookup k (cache s) = Some (a, t) /\ forall l b u, lookup l (cache s) = Some (b, u) -> t <= u.
Proof.
  intros X E. pose proof X as (N & P & S). assert (G : In (t, k) (access s)) by (rewrite E; now left). apply (exact_in s t k X) in G as [a G]. split.
  - split; [now apply nodup_remove|]. cbn [cache access]. split; [|rewrite E in S; now inversion S].
    rewrite E in P. apply Permutation_cons_inv with (t, k). eapply Permutation_trans; [exact P|]. now apply perm_remove with a.
  - exists a. split; [exact G|]. intros l b u L. assert (H : In (u, l) (access s)) by (apply (exact_in s u l X); now exists b).
    rewrite E in H, S. inversion S as [|? ? _ F]; subst. destruct H as [[= <- <-]|H]; [lia|]. rewrite Forall_forall in F. specialize (F _ H). exact F.
Qed.
(** What the second section does to a cache that is not too big *)
Lemma exact_second k cur a s : 1 <= max_size -> exact s -> lookup k (cache s) = None -> Z.of_nat (length (cache s)) <= max_size ->
  exists s', second max_size debug k cur a s = Ok s' /\ exact s' /\ Z.of_nat (length (cache s')) <= max_size /\
  ((Z.of_nat (length (cache s)) < max_size /\ forall l, lookup l (cache s') = if key_eqb k l then Some (a, cur) else lookup l (cache s)) \/
   (Z.of_nat (length (cache s)) = max_size /\ exists k0 a0 t0, lookup k0 (cache s) = Some (a0, t0) /\
    (forall l b u, lookup l (cache s) = Some (b, u) -> t0 <= u) /\
    forall l, lookup l (cache s') = if key_eqb k l then Some (a, cur) else if key_eqb k0 l then None else lookup l (cache s))).
Proof.
  intros M X L B. unfold second.
  assert (Store : forall s1, exact s1 -> lookup k (cache s1) = None -> exact (mkDns (store k (a, cur) (cache s1)) (insert (cur, k) (access s1)))).
  { intros s1 (N & P & S) L1. split; [now apply nodup_store|]. cbn [cache access]. split; [|now apply sorted_insert].
    eapply Permutation_trans; [apply insert_perm|]. unfold store. cbn [stamps map fst snd]. rewrite remove_none by exact L1. now apply perm_skip. }
  cbn [evict]. rewrite (exact_lengths s X), Nat.eqb_refl, Bool.andb_false_r.
  destruct (Z.leb_spec max_size (Z.of_nat (length (cache s)))) as [G|G].
  - pose proof (exact_lengths s X) as Le. destruct (access s) as [|[t k0] acc] eqn:E; [cbn [length] in Le; lia|]. destruct (length (cache s)) as [|n] eqn:Ln; [lia|].
    destruct (exact_pop s t k0 acc X E) as (X1 & a0 & L0 & Old). cbn [evict].
    pose proof (exact_lengths _ X1) as Le1. cbn [access cache] in Le1.
    replace (max_size <=? Z.of_nat (length (cache (mkDns (remove k0 (cache s)) acc)))) with false by (cbn [cache length] in *; lia). cbn [obind].
    assert (L1 : lookup k (remove k0 (cache s)) = None) by (rewrite lookup_remove, L; now destruct (key_eqb k0 k)).
    eexists. split; [reflexivity|]. split; [now apply (Store (mkDns (remove k0 (cache s)) acc))|]. split.
    + cbn [cache]. unfold store. cbn [length]. rewrite remove_none by exact L1. cbn [length] in *. lia.
    + right. split; [lia|]. exists k0, a0, t. split; [exact L0|]. split; [exact Old|]. intros l. cbn [cache]. rewrite lookup_store, lookup_remove. reflexivity.
  - cbn [obind]. eexists. split; [reflexivity|]. split; [now apply Store|]. split.
    + cbn [cache]. unfold store. cbn [length]. rewrite remove_none by exact L. lia.
    + left. split; [exact G|]. intros l. cbn [cache]. now rewrite lookup_store.
Qed.

Definition calm (c : config) : Prop :=
  (forall i, threads c i = Free) /\ exact (st c) /\ Z.of_nat (length (cache (st c))) <= max_size /\
  forall k a t, lookup k (cache (st c)) = Some (a, t) -> last_use (log c) k t a.
Lemma set_pc_same i p f : set_pc i p f i = p.
Proof. unfold set_pc. now rewrite Nat.eqb_refl. Qed.
Lemma last_here h k t a : last_use (Returned k t a :: h) k t a.
Proof. exists [], h. split; [reflexivity|]. intros t' a' []. Qed.
Lemma last_more h e k t a : last_use h k t a -> (forall t' a', e <> Returned k t' a') -> last_use (e :: h) k t a.
Proof. intros (new & old & -> & H) N. exists (e :: new), old. split; [reflexivity|]. intros t' a' [G|G]; [now elim (N t' a')|now elim (H t' a')]. Qed.
Lemma free_again i p f : (forall j, f j = Free) -> forall j, set_pc i Free (set_pc i p f) j = Free.
Proof. intros H j. unfold set_pc. destruct (Nat.eqb i j); [reflexivity|apply H]. Qed.
(** A whole call: the cases of a hit, a miss with room, a miss without. *)
Lemma whole_call c k cur a : 1 <= max_size -> calm c -> exists c', run max_size expire debug c (whole k cur a) = Ok c' /\ calm c' /\
  (0 < expire -> forall b t, lookup k (cache (st c)) = Some (b, t) -> log c' = Returned k cur b :: log c /\
     forall l, lookup l (cache (st c')) = if key_eqb k l then Some (b, cur) else lookup l (cache (st c))) /\
  (lookup k (cache (st c)) = None -> log c' = Returned k cur a :: Answered k cur a :: log c /\
    ((Z.of_nat (length (cache (st c))) < max_size /\ forall l, lookup l (cache (st c')) = if key_eqb k l then Some (a, cur) else lookup l (cache (st c))) \/
     (Z.of_nat (length (cache (st c))) = max_size /\ exists k0 a0 t0, lookup k0 (cache (st c)) = Some (a0, t0) /\
      (forall l b u, lookup l (cache (st c)) = Some (b, u) -> t0 <= u) /\
      forall l, lookup l (cache (st c')) = if key_eqb k l then Some (a, cur) else if key_eqb k0 l then None else lookup l (cache (st c))))).
Proof.
  intros M (F & X & B & U). unfold whole. cbn [run step]. rewrite F. cbn [obind st threads log]. rewrite set_pc_same.
  destruct (first expire k cur (st c)) as [r s1] eqn:E. pose proof (exact_first k cur (st c) r s1 X E) as X1. destruct r as [b|]; cbn [obind st threads log].
  - rewrite !set_pc_same. cbn [obind threads]. rewrite set_pc_same. cbn [obind]. apply first_some in E as (t & L & Ex & Es).
    eexists. split; [reflexivity|]. cbn [st threads log]. split; [|split].
    + split; [now apply free_again|]. cbn [st log]. split; [exact X1|]. split.
      * rewrite Es. cbn [cache]. unfold store. cbn [length]. apply lookup_in, (in_map fst) in L. cbn [fst] in L. apply length_remove_in in L. lia.
      * intros l b' u. rewrite Es. cbn [cache]. rewrite lookup_store. destruct (key_eqb_spec k l) as [<-|D].
        -- intros [= <- <-]. apply last_here.
        -- intros G. apply last_more; [now apply U|]. intros t' a' [= G1 _ _]. contradiction.
    + intros _ b' t' G. rewrite L in G. injection G as <- <-. split; [reflexivity|]. intros l. rewrite Es. cbn [cache]. apply lookup_store.
    + congruence.
  - rewrite set_pc_same. cbn [obind st threads log]. rewrite set_pc_same. apply first_none in E as [L1 E].
    assert (Sub : (length (cache s1) <= length (cache (st c)))%nat /\ forall l v, lookup l (cache s1) = Some v -> lookup l (cache (st c)) = Some v).
    { destruct E as [->|(_ & b & t & G & ->)]; [auto|]. cbn [cache]. split.
      - unfold store. unfold remove at 1. cbn [filter fst]. rewrite key_eqb_refl. cbn [negb]. fold (remove k (remove k (cache (st c)))).
        pose proof (length_remove k (remove k (cache (st c)))). pose proof (length_remove k (cache (st c))). lia.
      - intros l v. rewrite lookup_remove, lookup_store. destruct (key_eqb k l); [discriminate|auto]. }
    destruct Sub as [Sl Sub]. destruct (exact_second k cur a s1 M X1 L1 ltac:(lia)) as (s2 & -> & X2 & B2 & C). cbn [obind].
    eexists. split; [reflexivity|]. cbn [st threads log]. split; [|split].
    + split; [intros j; cbn [threads]; unfold set_pc; destruct (Nat.eqb 0 j); [reflexivity|apply F]|]. cbn [st log]. split; [exact X2|]. split; [exact B2|].
      assert (Sub2 : forall l v, lookup l (cache s2) = Some v -> (l = k /\ v = (a, cur)) \/ (l <> k /\ lookup l (cache s1) = Some v)).
      { intros l v. destruct C as [[_ C]|(_ & k0 & a0 & t0 & _ & _ & C)]; rewrite C; destruct (key_eqb_spec k l) as [<-|D]; try (intros [= <-]; now left).
        - intros G. right. split; [congruence|exact G].
        - destruct (key_eqb k0 l); [discriminate|]. intros G. right. split; [congruence|exact G]. }
      intros l b u G. destruct (Sub2 _ _ G) as [[-> [= -> ->]]|[D G1]]; [apply last_here|].
      apply last_more; [apply last_more; [now apply U, Sub|discriminate]|]. intros t' a' [= G2 _ _]. congruence.
    + intros Ex. destruct E as [->|[Ex' _]]; [congruence|lia].
    + intros L. split; [reflexivity|]. destruct E as [->|(_ & b & t & G & _)]; [exact C|congruence].
Qed.
Lemma calm_start : 1 <= max_size -> calm start.
Proof. intros M. split; [reflexivity|]. split; [apply exact_empty|]. split; [cbn; lia|]. intros k a t [=]. Qed.
Lemma run_app ms1 ms2 : forall c, run max_size expire debug c (ms1 ++ ms2) = (let* c := run max_size expire debug c ms1 in run max_size expire debug c ms2).
Proof. induction ms1 as [|m ms IH]; intros c; cbn [run app]; [reflexivity|]. destruct (step _ _ _ c m); cbn [obind]; [apply IH|reflexivity..]. Qed.
Lemma calm_ops ops : 1 <= max_size -> forall c, calm c -> exists c', run max_size expire debug c (concat (map moves ops)) = Ok c' /\ calm c'.
Proof.
  intros M. induction ops as [|o ops IH]; intros c H; cbn [map concat]; [exists c; split; [reflexivity|exact H]|]. rewrite run_app.
  assert (G : exists c', run max_size expire debug c (moves o) = Ok c' /\ calm c').
  { destruct o as [k cur a|k|]; cbn [moves].
    - destruct (whole_call c k cur a M H) as (c' & E & C & _). now exists c'.
    - cbn [run step obind]. eexists. split; [reflexivity|]. destruct H as (F & X & B & U). split; [exact F|]. cbn [st log]. split; [now apply exact_delete|]. split.
      + unfold delete_cache. cbn [cache]. pose proof (length_remove k (cache (st c))). lia.
      + intros l a t. unfold delete_cache. cbn [cache]. rewrite lookup_remove. destruct (key_eqb k l); [discriminate|apply U].
    - cbn [run step obind]. eexists. split; [reflexivity|]. destruct H as (F & X & B & U). split; [exact F|]. cbn [st log]. split; [apply exact_empty|]. split; [cbn; lia|].
      intros l a t [=]. }
  destruct G as (c1 & -> & C1). cbn [obind]. now apply IH.
Qed.
End seq.

(** * Nothing cached is returned if expire <= 0 *)
Definition fresh (c : config) : Prop :=
  (forall i k t a, threads c i = Have k t a -> In (Answered k t a) (log c)) /\
  forall new old k t a, log c = new ++ Returned k t a :: old -> In (Answered k t a) old.
Lemma fresh_step max_size expire debug c m c' : expire <= 0 -> fresh c -> step max_size expire debug c m = Ok c' -> fresh c'.
Proof.
  intros X [H1 H2]. destruct m as [i k cur|i|i a|i| |k]; cbn [step].
  - destruct (threads c i); intros [= <-]; try (now split). split; [|exact H2]. cbn [threads log]. intros j l t a H.
    destruct (set_pc_cases i (Begun k cur) (threads c) j) as [[-> E]|[_ E]]; rewrite E in H; [discriminate|]. now apply (H1 j).
  - destruct (threads c i) as [|k cur|k cur|k cur b]; try (intros [= <-]; now split).
    destruct (first expire k cur (st c)) as [[a|] s'] eqn:E; [apply first_some in E as (_ & _ & E & _); lia|]. intros [= <-]. split; [|exact H2].
    cbn [threads log]. intros j l t a H. destruct (set_pc_cases i (Missed k cur) (threads c) j) as [[-> G]|[_ G]]; rewrite G in H; [discriminate|]. now apply (H1 j).
  - destruct (threads c i) as [|k cur|k cur|k cur b]; try (intros [= <-]; now split). intros [= <-]. split; cbn [threads log].
    + intros j l t b H. destruct (set_pc_cases i (Have k cur a) (threads c) j) as [[-> G]|[_ G]]; rewrite G in H; [injection H as <- <- <-; now left|]. right. now apply (H1 j).
    + intros new old l t b E. destruct new as [|e new]; cbn [app] in E; [discriminate|]. injection E as _ E. now apply (H2 new).
  - destruct (threads c i) as [|k cur|k cur|k cur a] eqn:Ei; try (intros [= <-]; now split). destruct (second _ _ k cur a (st c)) as [s'| | |]; try discriminate.
    cbn [obind]. intros [= <-]. split; cbn [threads log].
    + intros j l t b H. destruct (set_pc_cases i Free (threads c) j) as [[-> G]|[_ G]]; rewrite G in H; [discriminate|]. right. now apply (H1 j).
    + intros new old l t b E. destruct new as [|e new]; cbn [app] in E; [|injection E as _ E; now apply (H2 new)]. injection E as <- <- <- <-. now apply (H1 i).
  - intros [= <-]. now split.
  - intros [= <-]. now split.
Qed.
Lemma fresh_run max_size expire debug ms : expire <= 0 -> forall c c', fresh c -> run max_size expire debug c ms = Ok c' -> fresh c'.
Proof.
  intros X. induction ms as [|m ms IH]; intros c c' H; cbn [run]; [now intros [= <-]|]. destruct (step _ _ _ c m) as [c1| | |] eqn:E; try discriminate. cbn [obind].
  apply IH. now apply (fresh_step max_size expire debug c m).
Qed.

(** * Two threads that miss the same key leave a stamp behind *)
Definition round (k : key) : list move :=
  [Call 0 k 1; Call 1 k 2; First 0; First 1; Answer 0 []; Answer 1 []; Second 0; Second 1; Delete k].
Lemma insert_repeat k n : insert (1, k) (repeat (1, k) n) = repeat (1, k) (S n).
Proof.
  induction n as [|n IH]; [reflexivity|]. cbn [repeat insert]. destruct (stamp_lt (1, k) (1, k)); [reflexivity|]. rewrite IH. reflexivity.
Qed.
Lemma insert_later k n : insert (2, k) (repeat (1, k) n) = repeat (1, k) n ++ [(2, k)].
Proof. induction n as [|n IH]; [reflexivity|]. cbn [repeat insert app]. unfold stamp_lt. cbn [fst snd Z.ltb Z.compare Pos.compare Pos.compare_cont]. now rewrite IH. Qed.
Lemma erase_later k n : erase (2, k) (repeat (1, k) n ++ [(2, k)]) = repeat (1, k) n.
Proof.
  induction n as [|n IH]; unfold erase; cbn [repeat app filter]; unfold stamp_eqb at 1; cbn [fst snd].
  - change (2 =? 2) with true. now rewrite key_eqb_refl.
  - change (1 =? 2) with false. cbn [andb negb]. f_equal. exact IH.
Qed.
Lemma round_leaks max_size expire debug k n c : 2 <= max_size -> (forall i, threads c i = Free) -> st c = mkDns [] (repeat (1, k) n) ->
  exists c', run max_size expire debug c (round k) = Ok c' /\ (forall i, threads c' i = Free) /\ st c' = mkDns [] (repeat (1, k) (S n)).
Proof.
  intros M F E. unfold round. destruct c as [s th lg]. cbn [st threads] in *. subst s.
  assert (E0 : forall p q, set_pc 1 p (set_pc 0 q th) 0%nat = q) by reflexivity.
  cbn [run step]. cbn [threads st log]. rewrite (F 0%nat). cbn [obind threads st log].
  change (set_pc 0 (Begun k 1) th 1%nat) with (th 1%nat). rewrite (F 1%nat). cbn [obind threads st log].
  change (set_pc 1 (Begun k 2) (set_pc 0 (Begun k 1) th) 0%nat) with (Begun k 1). unfold first. cbn [cache lookup find obind threads st log].
  set (f1 := set_pc 0 (Missed k 1) (set_pc 1 (Begun k 2) (set_pc 0 (Begun k 1) th))).
  change (f1 1%nat) with (Begun k 2). cbn [cache lookup find obind threads st log].
  set (f2 := set_pc 1 (Missed k 2) f1). change (f2 0%nat) with (Missed k 1). cbn [obind threads st log].
  set (f3 := set_pc 0 (Have k 1 []) f2). change (f3 1%nat) with (Missed k 2). cbn [obind threads st log].
  set (f4 := set_pc 1 (Have k 2 []) f3). change (f4 0%nat) with (Have k 1 []). unfold second at 1. cbn [evict cache length Z.of_nat].
  replace (max_size <=? 0) with false by lia. cbn [obind threads st log cache access]. change (store k ([], 1) []) with [(k, (@nil Z, 1))]. rewrite insert_repeat.
  set (f5 := set_pc 0 Free f4). change (f5 1%nat) with (Have k 2 []). unfold second. cbn [evict cache length Z.of_nat Pos.of_succ_nat].
  replace (max_size <=? 1) with false by lia. cbn [obind threads st log cache access]. rewrite insert_later.
  eexists. split; [reflexivity|]. cbn [threads st]. split.
  - intros i. unfold f5, f4, f3, f2, f1, set_pc. destruct (Nat.eqb 1 i); [reflexivity|]. destruct (Nat.eqb 0 i); [reflexivity|apply F].
  - unfold delete_cache. cbn [cache access]. rewrite lookup_store, key_eqb_refl. rewrite erase_later. f_equal.
    unfold store, remove. cbn [filter fst]. rewrite key_eqb_refl. cbn [negb filter fst]. rewrite ?key_eqb_refl. reflexivity.
Qed.
