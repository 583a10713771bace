(** C59: the DNS cache. *)
From Verif Require Import Common CommonLemmas Dns_Spec Dns_Model Dns_Proof.
From Coq Require Import Permutation Sorted.
Local Open Scope Z_scope.

(** * Every history of any number of threads *)
(** Never more than max_size entries, as soon as max_size is at least 1. *)
Theorem C59_bounded max_size expire debug ms c : 1 <= max_size -> run max_size expire debug start ms = Ok c ->
  Z.of_nat (length (cache (st c))) <= max_size.
Proof. intros M H. apply (sound_run _ _ _ _ _ _ (sound_start max_size)) in H as (_ & L & _). lia. Qed.
(** Every answer returned is one that the resolver gave before for that key. *)
Theorem C59_answers max_size expire debug ms c : run max_size expire debug start ms = Ok c -> from_resolver (log c).
Proof. intros H. apply (sound_run _ _ _ _ _ _ (sound_start max_size)) in H as (_ & _ & _ & _ & H). exact H. Qed.
(** Without the assertion no call goes wrong; every key occurs once, and its stamp is in the list of accesses. *)
Theorem C59_concurrent_partial max_size expire ms : 1 <= max_size ->
  exists c, run max_size expire false start ms = Ok c /\ NoDup (map fst (cache (st c))) /\
  forall k a t, In (k, (a, t)) (cache (st c)) -> In (t, k) (access (st c)).
Proof.
  intros M. destruct (run_ok max_size expire false ms M eq_refl start (sound_start max_size)) as [c H]. exists c. split; [exact H|].
  apply (sound_run _ _ _ _ _ _ (sound_start max_size)) in H as ((N & T) & _). split; [exact N|]. intros k a t G. apply (T k a). now apply in_lookup.
Qed.
(** What is missing: the stamps need not be just those of the entries.  The assertion that they are as many fails in some schedules, *)
Theorem C59_assertion_refuted : exists ms, run 2 60 true start ms = Throw.
Proof.
  exists ([Call 0 (str "a", 80) 1; Call 1 (str "a", 80) 2; First 0; First 1; Answer 0 [7]; Answer 1 [7]; Second 0; Second 1] ++
          whole (str "b", 80) 3 [8] ++ whole (str "c", 80) 4 [9]). vm_compute. reflexivity.
Qed.
(** and the list of accesses can grow without bound while the cache is empty. *)
Theorem C59_leak_refuted max_size expire debug n : 2 <= max_size ->
  exists ms c, run max_size expire debug start ms = Ok c /\ cache (st c) = [] /\ length (access (st c)) = n.
Proof.
  intros M. set (k := ([], 0) : key). assert (H : exists ms c, run max_size expire debug start ms = Ok c /\ (forall i, threads c i = Free) /\ st c = mkDns [] (repeat (1, k) n)).
  { induction n as [|n (ms & c & R & F & E)]; [exists [], start; repeat split|].
    destruct (round_leaks max_size expire debug k n c M F E) as (c' & R' & F' & E'). exists (ms ++ round k), c'. rewrite run_app, R. auto. }
  destruct H as (ms & c & R & _ & E). exists ms, c. rewrite E. cbn [cache access]. rewrite repeat_length. auto.
Qed.
(** A cache of no entries is not possible: the first call is undefined. *)
Theorem C59_no_room_refuted max_size expire k cur a : max_size <= 0 -> run max_size expire false start (whole k cur a) = UB.
Proof.
  intros M. assert (E : second max_size false k cur a empty = UB).
  { unfold second, empty. cbn [evict access cache length Z.of_nat]. replace (max_size <=? 0) with true by lia. reflexivity. }
  unfold whole. cbn [run step start threads st log obind set_pc Nat.eqb]. change (first expire k cur empty) with (@None (list Z), empty).
  cbn [run step start threads st log obind set_pc Nat.eqb]. rewrite E. reflexivity.
Qed.

(** * Expiry *)
Theorem C59_expiry_partial max_size expire debug ms c : expire <= 0 -> run max_size expire debug start ms = Ok c -> never_stale expire (log c).
Proof.
  intros X H. apply (fresh_run _ _ _ _ X) in H as [_ H]; [|split; [intros i k t a [=]|intros [|] old k t a [=]]].
  intros new old k t a E. exists t. split; [now apply (H new)|now left].
Qed.
(** With a positive expire_second nothing ever expires: an answer is returned however old it is. *)
Theorem C59_expiry_refuted max_size expire debug k a b age : 1 <= max_size -> 0 < expire ->
  exists c, run max_size expire debug start (whole k 0 a ++ whole k age b) = Ok c /\ log c = [Returned k age a; Returned k 0 a; Answered k 0 a].
Proof.
  intros M X. destruct (whole_call max_size expire debug start k 0 a M (calm_start max_size M)) as (c & R & C & _ & H). destruct (H eq_refl) as [L [[_ G]|[G _]]]; [|cbn in G; lia].
  destruct (whole_call max_size expire debug c k age b M C) as (c' & R' & _ & H' & _). exists c'. rewrite run_app, R. cbn [obind]. split; [exact R'|].
  destruct (H' X a 0) as [L' _]; [rewrite G; now rewrite key_eqb_refl|]. now rewrite L', L.
Qed.

(** * Calls that do not overlap: the bookkeeping is exact, the assertion holds, and the least recently used entry goes. *)
Theorem C59_sequential max_size expire debug ops : 1 <= max_size ->
  exists c, run max_size expire debug start (concat (map moves ops)) = Ok c /\ NoDup (map fst (cache (st c))) /\
  Permutation (access (st c)) (map (fun e => (snd (snd e), fst e)) (cache (st c))) /\
  forall k a t, In (k, (a, t)) (cache (st c)) -> last_use (log c) k t a.
Proof.
  intros M. destruct (calm_ops max_size expire debug ops M start (calm_start max_size M)) as (c & R & _ & (N & P & _) & _ & U). exists c.
  split; [exact R|]. split; [exact N|]. split; [exact P|]. intros k a t H. apply U. now apply in_lookup.
Qed.
Theorem C59_hit max_size expire debug ops c k a t cur b : 1 <= max_size -> 0 < expire ->
  run max_size expire debug start (concat (map moves ops)) = Ok c -> In (k, (a, t)) (cache (st c)) ->
  exists c', run max_size expire debug c (whole k cur b) = Ok c' /\ log c' = Returned k cur a :: log c /\
  forall l v, In (l, v) (cache (st c')) <-> (l = k /\ v = (a, cur)) \/ (l <> k /\ In (l, v) (cache (st c))).
Proof.
  intros M X R H. destruct (calm_ops max_size expire debug ops M start (calm_start max_size M)) as (c1 & R1 & C). rewrite R1 in R. injection R as ->.
  pose proof C as (_ & (N & _) & _). destruct (whole_call max_size expire debug c k cur b M C) as (c' & R' & (_ & (N' & _) & _) & Hit & _).
  destruct (Hit X a t (in_lookup _ _ _ N H)) as [L G]. exists c'. split; [exact R'|]. split; [exact L|]. intros l v. split.
  - intros I. apply (in_lookup _ _ _ N') in I. rewrite G in I. destruct (key_eqb_spec k l) as [<-|D]; [injection I as <-; now left|]. right. split; [congruence|now apply lookup_in].
  - intros I. apply lookup_in. rewrite G. destruct (key_eqb_spec k l) as [<-|D]; destruct I as [[E ->]|[E I]]; try congruence. now apply in_lookup.
Qed.
Theorem C59_miss max_size expire debug ops c k cur a : 1 <= max_size ->
  run max_size expire debug start (concat (map moves ops)) = Ok c -> ~ In k (map fst (cache (st c))) ->
  exists c', run max_size expire debug c (whole k cur a) = Ok c' /\ log c' = Returned k cur a :: Answered k cur a :: log c /\
  (Z.of_nat (length (cache (st c))) < max_size -> forall l v, In (l, v) (cache (st c')) <-> (l = k /\ v = (a, cur)) \/ In (l, v) (cache (st c))) /\
  (Z.of_nat (length (cache (st c))) = max_size -> exists k0 a0 t0, In (k0, (a0, t0)) (cache (st c)) /\
     (forall l b u, In (l, (b, u)) (cache (st c)) -> t0 <= u) /\
     forall l v, In (l, v) (cache (st c')) <-> (l = k /\ v = (a, cur)) \/ (l <> k0 /\ In (l, v) (cache (st c)))).
Proof.
  intros M R H. destruct (calm_ops max_size expire debug ops M start (calm_start max_size M)) as (c1 & R1 & C). rewrite R1 in R. injection R as ->.
  pose proof C as (_ & (N & _) & _). destruct (whole_call max_size expire debug c k cur a M C) as (c' & R' & (_ & (N' & _) & _) & _ & Miss).
  assert (None_k : lookup k (cache (st c)) = None).
  { destruct (lookup k (cache (st c))) as [v|] eqn:E; [|reflexivity]. elim H. apply lookup_in, (in_map fst) in E. exact E. }
  destruct (Miss None_k) as [L G]. exists c'. split; [exact R'|]. split; [exact L|]. split; intros S.
  - destruct G as [[_ G]|[G _]]; [|lia]. intros l v. split.
    + intros I. apply (in_lookup _ _ _ N') in I. rewrite G in I. destruct (key_eqb_spec k l) as [<-|D]; [injection I as <-; now left|]. right. now apply lookup_in.
    + intros I. apply lookup_in. rewrite G. destruct (key_eqb_spec k l) as [<-|D]; destruct I as [[E ->]|I]; try congruence; [|now apply in_lookup].
      elim H. apply (in_map fst) in I. exact I.
  - destruct G as [[G _]|(_ & k0 & a0 & t0 & L0 & Old & G)]; [lia|]. exists k0, a0, t0. split; [now apply lookup_in|].
    split; [intros l b u I; apply (Old l b); now apply in_lookup|]. intros l v. split.
    + intros I. apply (in_lookup _ _ _ N') in I. rewrite G in I. destruct (key_eqb_spec k l) as [<-|D]; [injection I as <-; now left|].
      destruct (key_eqb_spec k0 l) as [<-|D0]; [discriminate|]. right. split; [congruence|]. now apply lookup_in.
    + intros I. apply lookup_in. rewrite G. destruct (key_eqb_spec k l) as [<-|D].
      * destruct I as [[E ->]|[_ I]]; [reflexivity|]. elim H. apply (in_map fst) in I. exact I.
      * destruct I as [[E ->]|[E I]]; [congruence|]. destruct (key_eqb_spec k0 l); [congruence|]. now apply in_lookup.
Qed.

Example C59_nonvacuous : match run 2 60 true start (concat (map moves [Resolve (str "a", 80) 5 [1]; Resolve (str "b", 80) 6 [2]; Resolve (str "a", 80) 7 [3]])) with
  | Ok c => cache (st c) = [((str "a", 80), ([1], 7)); ((str "b", 80), ([2], 6))] /\ hd_error (log c) = Some (Returned (str "a", 80) 7 [1])
  | _ => False end.
Proof. vm_compute. auto. Qed.
Example C59_case : match run 2 60 true start (concat (map moves [Resolve (str "a", 80) 5 [1]; Resolve (str "b", 80) 6 [2]; Resolve (str "a", 80) 7 [3]; Resolve (str "c", 80) 8 [4]; Drop (str "a", 80); Drop (str "z", 1)])) with
  | Ok c => cache (st c) = [((str "c", 80), ([4], 8))] /\ access (st c) = [(8, (str "c", 80))]
  | _ => False end.
Proof. vm_compute. auto. Qed.

Print Assumptions C59_bounded.
Print Assumptions C59_answers.
Print Assumptions C59_concurrent_partial.
Print Assumptions C59_assertion_refuted.
Print Assumptions C59_leak_refuted.
Print Assumptions C59_no_room_refuted.
Print Assumptions C59_expiry_partial.
Print Assumptions C59_expiry_refuted.
Print Assumptions C59_sequential.
Print Assumptions C59_hit.
Print Assumptions C59_miss.
