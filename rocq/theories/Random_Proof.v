(** Rounding never reaches the bound; the shuffled map is a permutation. *)
From Coq Require Import Sorted.
From Verif Require Import Common CommonLemmas Random_Spec Random_Model.
Local Open Scope Z_scope.

Lemma round53_bounds x : 0 < x -> let e := Z.max 0 (Z.log2 x + 1 - 53) in
  2 ^ (52 + e) <= x < 2 ^ (53 + e) \/ (e = 0 /\ x < 2 ^ 53).
Proof.
  intros Hx e. pose proof (Z.log2_spec x Hx) as H. unfold e. destruct (Z.max_spec 0 (Z.log2 x + 1 - 53)) as [[H1 ->]|[H1 ->]].
  - left. replace (52 + (Z.log2 x + 1 - 53)) with (Z.log2 x) by lia. replace (53 + (Z.log2 x + 1 - 53)) with (Z.succ (Z.log2 x)) by lia. exact H.
  - right. split; [reflexivity|]. apply Z.lt_le_trans with (2 ^ Z.succ (Z.log2 x)); [lia|]. apply Z.pow_le_mono_r; lia.
Qed.
Lemma round53_eq x : 0 <= x -> let e := Z.max 0 (Z.log2 x + 1 - 53) in
  exists q, round53 x = q * 2 ^ e /\ Z.abs (2 * (round53 x - x)) <= 2 ^ e /\ (2 * (round53 x - x) = 2 ^ e -> Z.odd (x / 2 ^ e) = true) /\
            (x mod 2 ^ e = 0 -> round53 x = x).
Proof.
  intros Hx e. unfold round53. fold e. assert (He : 0 <= e) by (unfold e; lia). pose proof (Z.pow_pos_nonneg 2 e ltac:(lia) He) as P.
  pose proof (Z.div_mod x (2 ^ e) ltac:(lia)) as D. pose proof (Z.mod_pos_bound x (2 ^ e) P) as B.
  set (q := x / 2 ^ e) in *. set (r := x mod 2 ^ e) in *. set (p := 2 ^ e) in *. clearbody q r p e.
  destruct (Z.ltb_spec p (2 * r)); cbn [orb].
  - exists (q + 1). split; [reflexivity|]. split; [nia|]. split; nia.
  - destruct (Z.eqb_spec (2 * r) p); cbn [andb].
    + destruct (Z.odd q); [exists (q + 1)|exists q]; (split; [reflexivity|]); (split; [nia|]); split; try nia; auto.
    + exists q. split; [reflexivity|]. split; [nia|]. split; nia.
Qed.
(** next_int's product stays below a. *)
Lemma product_below k a : 0 <= k < 2 ^ 53 -> 0 < a < 2 ^ 32 -> 0 <= round53 (k * a) < a * 2 ^ 53.
Proof.
  intros Hk Ha. set (x := k * a). assert (Hx : 0 <= x <= a * 2 ^ 53 - a) by (unfold x; nia).
  destruct (Z.eq_dec x 0) as [->|Ex]; [change (round53 0) with 0; nia|].
  destruct (round53_eq x ltac:(lia)) as (q & Eq & Hd & Ht & Hm). pose proof (round53_bounds x ltac:(lia)) as B.
  set (e := Z.max 0 (Z.log2 x + 1 - 53)) in *. assert (He : 0 <= e) by (unfold e; lia). clearbody e.
  pose proof (Z.pow_pos_nonneg 2 e ltac:(lia) He) as P.
  assert (Q0 : 0 <= round53 x). { assert (0 <= q); [|nia]. destruct B as [B|[-> B]]; [|cbn in *; nia]. rewrite Z.pow_add_r in B by lia.
    change (2 ^ 52) with 4503599627370496 in B. nia. }
  split; [exact Q0|].
  destruct B as [B|[-> B]].
  - rewrite !Z.pow_add_r in B by lia. set (p := 2 ^ e) in *. set (y := round53 x) in *. clearbody y x.
    (* y and a * 2^53 are multiples of ... *)
    destruct (Z.lt_ge_cases y (a * 2 ^ 53)) as [L|L]; [exact L|exfalso].
    (* p >= 2 a is impossible unless x is in the binade below a power of two *)
    assert (A : 2 * a <= p) by lia.
    assert (C : x < 2 ^ 53 * a) by lia.
    assert (2 ^ 52 * p <= x) by lia. assert (2 ^ 52 * (2 * a) <= 2 ^ 52 * p) by (apply Z.mul_le_mono_nonneg_l; lia).
    change (2 ^ 52) with 4503599627370496 in *. change (2 ^ 53) with 9007199254740992 in *. lia.
  - change (2 ^ 0) with 1 in *. rewrite (Hm (Z.mod_1_r x)). lia.
Qed.
Lemma next_double_below {G} (gen : G -> Z * G) g : 0 <= fst (next_double gen g) < 2 ^ 53.
Proof.
  unfold next_double, gnext. destruct (gen g) as [v g1]. destruct (gen g1) as [w g2]. cbn [fst]. rewrite !Z.shiftr_div_pow2 by lia.
  unfold u32. pose proof (Z.mod_pos_bound v (2 ^ 32) ltac:(lia)) as Hv. pose proof (Z.mod_pos_bound w (2 ^ 32) ltac:(lia)) as Hw.
  set (v' := v mod 2 ^ 32) in *. set (w' := w mod 2 ^ 32) in *. clearbody v' w'.
  assert (0 <= v' / 2 ^ 5 < 2 ^ 27) by (split; [apply Z.div_pos; lia|apply Z.div_lt_upper_bound; lia]).
  assert (0 <= w' / 2 ^ 6 < 2 ^ 26) by (split; [apply Z.div_pos; lia|apply Z.div_lt_upper_bound; lia]). lia.
Qed.
Lemma next_int_range {G} (gen : G -> Z * G) : in_range (next_int gen).
Proof.
  intros a g Ha. unfold next_int. pose proof (next_double_below gen g) as H. destruct (next_double gen g) as [k g']. cbn [fst] in *.
  pose proof (product_below k a H Ha) as P. unfold u32, below. 
  assert (0 <= round53 (k * a) / 2 ^ 53 < a) by (split; [apply Z.div_pos; lia|apply Z.div_lt_upper_bound; lia]).
  rewrite Z.mod_small by lia. lia.
Qed.

(** round53 is rounding to nearest. *)
Lemma round53_representable x : 0 <= x -> significand53 (round53 x).
Proof.
  intros Hx. destruct (Z.eq_dec x 0) as [->|Ex]; [exists 0, 0; split; [lia|split; [lia|reflexivity]]|].
  unfold round53. pose proof (round53_bounds x ltac:(lia)) as B. set (e := Z.max 0 (Z.log2 x + 1 - 53)) in *. assert (He : 0 <= e) by (unfold e; lia). clearbody e.
  pose proof (Z.pow_pos_nonneg 2 e ltac:(lia) He) as P.
  assert (Hq : 0 <= x / 2 ^ e < 2 ^ 53).
  { split; [apply Z.div_pos; lia|]. apply Z.div_lt_upper_bound; [lia|]. rewrite Z.mul_comm. destruct B as [B|[-> B]]; [rewrite !Z.pow_add_r in B by lia; lia|].
    change (2 ^ 0) with 1. lia. }
  set (q := x / 2 ^ e) in *. clearbody q. destruct ((2 ^ e <? 2 * (x mod 2 ^ e)) || ((2 * (x mod 2 ^ e) =? 2 ^ e) && Z.odd q)).
  - destruct (Z.eq_dec (q + 1) (2 ^ 53)) as [E|E].
    + exists (2 ^ 52), (e + 1). split; [lia|]. split; [lia|]. rewrite E, Z.pow_add_r by lia. change (2 ^ 53) with (2 ^ 52 * 2). change (2 ^ 1) with 2. ring.
    + exists (q + 1), e. split; [lia|]. split; [lia|reflexivity].
  - exists q, e. split; [lia|]. split; [lia|reflexivity].
Qed.
Lemma round53_nearest x z : 0 <= x -> significand53 z -> Z.abs (x - round53 x) <= Z.abs (x - z).
Proof.
  intros Hx (m & f & Hf & Hm & ->). destruct (Z.eq_dec x 0) as [->|Ex]; [change (round53 0) with 0; lia|].
  unfold round53. pose proof (round53_bounds x ltac:(lia)) as B. set (e := Z.max 0 (Z.log2 x + 1 - 53)) in *. assert (He : 0 <= e) by (unfold e; lia). clearbody e.
  pose proof (Z.pow_pos_nonneg 2 e ltac:(lia) He) as P. pose proof (Z.pow_pos_nonneg 2 f ltac:(lia) Hf) as Pf.
  pose proof (Z.div_mod x (2 ^ e) ltac:(lia)) as D. pose proof (Z.mod_pos_bound x (2 ^ e) P) as R.
  set (q := x / 2 ^ e) in *. set (r := x mod 2 ^ e) in *. clearbody q r.
  (* z is at most q 2^e or at least (q + 1) 2^e *)
  assert (Z_out : m * 2 ^ f <= q * 2 ^ e \/ (q + 1) * 2 ^ e <= m * 2 ^ f).
  { destruct (Z.le_gt_cases e f) as [L|L].
    - replace f with (f - e + e) by lia. rewrite Z.pow_add_r by lia. rewrite Z.mul_assoc. set (m' := m * 2 ^ (f - e)). destruct (Z.le_gt_cases m' q); [left|right]; apply Z.mul_le_mono_nonneg_r; lia.
    - left. destruct B as [B|[-> B]]; [|lia]. assert (Hq : 2 ^ 52 <= q). { rewrite Z.pow_add_r in B by lia. change (2 ^ 52) with 4503599627370496 in *. nia. }
      replace e with (1 + f + (e - 1 - f)) by lia. rewrite !Z.pow_add_r by lia. pose proof (Z.pow_pos_nonneg 2 (e - 1 - f) ltac:(lia) ltac:(lia)) as P'.
      change (2 ^ 1) with 2. assert (m <= q * 2). { change (2 ^ 53) with 9007199254740992 in *. change (2 ^ 52) with 4503599627370496 in *. lia. }
      assert (m * 2 ^ f <= q * 2 * 2 ^ f) by (apply Z.mul_le_mono_nonneg_r; lia).
      assert (q * 2 * 2 ^ f * 1 <= q * 2 * 2 ^ f * 2 ^ (e - 1 - f)) by (apply Z.mul_le_mono_nonneg_l; [|lia]; change (2 ^ 52) with 4503599627370496 in *; nia). lia. }
  set (z := m * 2 ^ f) in *. clearbody z. set (p := 2 ^ e) in *. clearbody p.
  destruct (Z.ltb_spec p (2 * r)); cbn [orb]; [lia|]. destruct (Z.eqb_spec (2 * r) p); cbn [andb]; [destruct (Z.odd q)|]; lia.
Qed.

(** ** vectors *)
Lemma resize_length v k : length (resize v k) = k.
Proof. unfold resize. rewrite app_length, firstn_length, repeat_length. lia. Qed.
Lemma nth_error_store (v : list Z) i x j : (i < length v)%nat ->
  nth_error (firstn i v ++ x :: skipn (S i) v) j = if Nat.eqb j i then Some x else nth_error v j.
Proof.
  intros H. assert (L : length (firstn i v) = i) by (rewrite firstn_length; lia). destruct (Nat.eqb_spec j i) as [->|E].
  - rewrite nth_error_app2 by lia. rewrite L, Nat.sub_diag. reflexivity.
  - destruct (Nat.lt_ge_cases j i).
    + rewrite nth_error_app1 by lia. rewrite <- (firstn_skipn i v) at 2. now rewrite nth_error_app1 by lia.
    + rewrite nth_error_app2 by lia. rewrite L. destruct (j - i)%nat as [|m] eqn:Em; [lia|]. cbn [nth_error].
      rewrite <- (firstn_skipn (S i) v) at 2. rewrite nth_error_app2 by (rewrite firstn_length; lia). f_equal. rewrite firstn_length. lia.
Qed.
Lemma store_ok v i x : 0 <= i < Z.of_nat (length v) -> exists v', store v i x = Ok v' /\ length v' = length v /\
  forall j, nth_error v' j = if Nat.eqb j (Z.to_nat i) then Some x else nth_error v j.
Proof.
  intros H. unfold store. replace ((0 <=? i) && (i <? Z.of_nat (length v))) with true by lia. eexists. split; [reflexivity|]. split.
  - rewrite app_length, firstn_length. cbn [length]. rewrite skipn_length. lia.
  - intros j. apply nth_error_store. lia.
Qed.
Lemma int_of_small x : 0 <= x < 2 ^ 31 -> int_of x = x.
Proof. intros H. unfold int_of. rewrite Z.mod_small by lia. lia. Qed.

Section sampling.
Context {G : Type} (r : Z -> G -> Z * G) (Hr : in_range r).
Lemma fill_ok n todo : 0 < n < 2 ^ 31 -> forall i v g, 0 <= i -> i + Z.of_nat todo = Z.of_nat (length v) ->
  (forall j, (j < Z.to_nat i)%nat -> exists x, nth_error v j = Some x /\ below n x) ->
  exists v' g', fill r n todo i v g = Ok (v', g') /\ length v' = length v /\ forall j, (j < length v)%nat -> exists x, nth_error v' j = Some x /\ below n x.
Proof.
  intros Hn. induction todo as [|t IH]; intros i v g Hi L H; cbn [fill].
  - exists v, g. split; [reflexivity|]. split; [reflexivity|]. intros j Hj. apply H. lia.
  - pose proof (Hr (n mod 2 ^ 32) g) as B. rewrite Z.mod_small in * by lia. specialize (B ltac:(lia)). destruct (r n g) as [x g']. cbn [fst] in B. unfold below in B.
    rewrite int_of_small by lia. destruct (store_ok v i x ltac:(lia)) as (v' & -> & L' & N). cbn [obind].
    destruct (IH (i + 1) v' g') as (v'' & g'' & E & L'' & F); [lia|lia| |].
    + intros j Hj. rewrite N. destruct (Nat.eqb_spec j (Z.to_nat i)) as [->|]; [exists x; split; [reflexivity|exact B]|]. apply H. lia.
    + exists v'', g''. split; [exact E|]. split; [lia|]. intros j Hj. apply F. lia.
Qed.

(** ** maps *)
Definition sorted (m : map) : Prop := StronglySorted (fun a b => fst a < fst b) m.
Lemma lookup_insert m x y z : lookup (insert m x y) z = if z =? x then Some y else lookup m z.
Proof.
  induction m as [|[k v] m IH]; cbn [insert lookup].
  - destruct (Z.eqb_spec x z), (Z.eqb_spec z x); congruence || reflexivity.
  - destruct (Z.ltb_spec x k); cbn [lookup].
    + destruct (Z.eqb_spec x z), (Z.eqb_spec z x); congruence || reflexivity.
    + destruct (Z.eqb_spec x k) as [->|]; cbn [lookup].
      * destruct (Z.eqb_spec k z), (Z.eqb_spec z k); congruence || reflexivity.
      * rewrite IH. destruct (Z.eqb_spec k z), (Z.eqb_spec z x); congruence || reflexivity.
Qed.
Lemma insert_in m x y p : In p (insert m x y) -> p = (x, y) \/ In p m.
Proof.
  induction m as [|[k v] m IH]; cbn [insert].
  - intros [<-|[]]. auto.
  - destruct (x <? k); [intros [<-|H]; auto|]. destruct (x =? k); intros [<-|H]; cbn [In]; auto. apply IH in H as [H|H]; auto.
Qed.
Lemma insert_sorted m x y : sorted m -> sorted (insert m x y).
Proof.
  unfold sorted. induction m as [|[k v] m IH]; intros H; cbn [insert]; [repeat constructor|]. inversion H as [|? ? H1 H2]; subst.
  destruct (Z.ltb_spec x k).
  - constructor; [exact H|]. constructor; [exact H0|]. eapply Forall_impl; [|exact H2]. cbn. intros a Ha. lia.
  - destruct (Z.eqb_spec x k) as [->|E]; [constructor; assumption|]. constructor; [now apply IH|]. apply Forall_forall. intros p Hp.
    apply insert_in in Hp as [-> | Hp]; cbn [fst]; [lia|]. rewrite Forall_forall in H2. exact (H2 p Hp).
Qed.
Lemma sorted_lookup m p x : sorted m -> In (p, x) m -> lookup m p = Some x.
Proof.
  unfold sorted. induction m as [|[k v] m IH]; intros H [].
  - injection H0 as -> ->. cbn [lookup]. now rewrite Z.eqb_refl.
  - inversion H as [|? ? H1 H2]; subst. cbn [lookup]. rewrite Forall_forall in H2. specialize (H2 _ H0). cbn [fst] in H2.
    rewrite (proj2 (Z.eqb_neq k p)) by lia. now apply IH.
Qed.
Lemma lookup_in m p x : lookup m p = Some x -> In (p, x) m.
Proof.
  induction m as [|[k v] m IH]; cbn [lookup]; [discriminate|]. destruct (Z.eqb_spec k p) as [->|]; [intros [= ->]; now left|]. right. auto.
Qed.

Definition view (m : map) (x : Z) : Z := match lookup m x with Some v => v | None => x end.
Definition swapz (i j x : Z) : Z := if x =? i then j else if x =? j then i else x.
Lemma swapz_inv i j x : swapz i j (swapz i j x) = x.
Proof.
  unfold swapz. destruct (Z.eqb_spec x i) as [->|]; [|destruct (Z.eqb_spec x j) as [->|]].
  - destruct (Z.eqb_spec j i) as [->|]; [reflexivity|]. now rewrite Z.eqb_refl.
  - now rewrite Z.eqb_refl.
  - destruct (Z.eqb_spec x i); [congruence|]. destruct (Z.eqb_spec x j); [congruence|]. reflexivity.
Qed.
(** m with the identity elsewhere is a permutation of [0, n) with inverse h. *)
Record perm (n k : Z) (m : map) (h : Z -> Z) : Prop := {
  p_sorted : sorted m;
  p_dom : forall x v, lookup m x = Some v -> below n x;
  p_first : forall x, below k x -> lookup m x <> None;
  p_range : forall x, below n x -> below n (view m x);
  p_hrange : forall x, below n x -> below n (h x);
  p_left : forall x, below n x -> h (view m x) = x;
  p_right : forall x, below n x -> view m (h x) = x }.
Lemma identity_perm n k todo : forall i m, 0 <= i -> i + Z.of_nat todo = k -> k <= n -> sorted m ->
  (forall x v, lookup m x = Some v -> below i x /\ v = x) -> (forall x, below i x -> lookup m x = Some x) ->
  perm n k (identity todo i m) (fun x => x).
Proof.
  induction todo as [|t IH]; intros i m Hi Ht Hk S H1 H2; cbn [identity].
  - assert (V : forall x, view m x = x). { intros x. unfold view. destruct (lookup m x) eqn:E; [|reflexivity]. now apply H1 in E. }
    split; [exact S| | |intros x Hx; now rewrite V|auto|intros x Hx; apply V|intros x Hx; apply V].
    + intros x v E. apply H1 in E as [E _]. unfold below in *. lia.
    + intros x Hx. rewrite H2; [discriminate|]. unfold below in *. lia.
  - apply (IH (i + 1)); [lia|lia|lia|now apply insert_sorted| |].
    + intros x v. rewrite lookup_insert. destruct (Z.eqb_spec x i) as [->|].
      * intros [= <-]. unfold below. split; [lia|reflexivity].
      * intros E. apply H1 in E as [E ->]. unfold below in *. split; [lia|reflexivity].
    + intros x Hx. rewrite lookup_insert. destruct (Z.eqb_spec x i) as [->|]; [reflexivity|]. apply H2. unfold below in *. lia.
Qed.
Definition swap_map (m : map) (i j : Z) : map :=
  let m := match lookup m j with None => insert m j j | Some _ => m end in
  let (t1, m) := at_ m i in let (v, m) := at_ m j in insert (insert m i v) j t1.
Lemma swap_map_perm n k m h i j : perm n k m h -> below n i -> below n j -> lookup m i <> None ->
  perm n k (swap_map m i j) (fun x => swapz i j (h x)) /\ (forall x, view (swap_map m i j) x = view m (swapz i j x)) /\
  (forall x, lookup m x <> None -> lookup (swap_map m i j) x <> None).
Proof.
  intros P Hi Hj Li. unfold swap_map.
  set (m1 := match lookup m j with None => insert m j j | Some _ => m end).
  assert (V1 : forall x, view m1 x = view m x).
  { intros x. unfold m1, view. destruct (lookup m j) eqn:E; [reflexivity|]. rewrite lookup_insert. destruct (Z.eqb_spec x j) as [->|]; [now rewrite E|reflexivity]. }
  assert (D1 : forall x, lookup m1 x <> None <-> lookup m x <> None \/ x = j).
  { intros x. unfold m1. destruct (lookup m j) eqn:E.
    - split; [auto|]. intros [H| ->]; [exact H|congruence].
    - rewrite lookup_insert. destruct (Z.eqb_spec x j) as [->|]; [split; [auto|discriminate]|]. split; [auto|]. intros [H|H]; [exact H|contradiction]. }
  assert (S1 : sorted m1). { unfold m1. destruct (lookup m j); [|apply insert_sorted]; apply (p_sorted n k m h P). }
  assert (Ei : lookup m1 i = Some (view m i)).
  { rewrite <- V1. unfold view. destruct (lookup m1 i) eqn:E; [reflexivity|]. exfalso. apply (proj2 (D1 i)); [auto|exact E]. }
  assert (Ej : lookup m1 j = Some (view m j)).
  { rewrite <- V1. unfold view. destruct (lookup m1 j) eqn:E; [reflexivity|]. exfalso. apply (proj2 (D1 j)); [auto|exact E]. }
  unfold at_. rewrite Ei, Ej.
  set (m2 := insert (insert m1 i (view m j)) j (view m i)).
  assert (V2 : forall x, view m2 x = view m (swapz i j x)).
  { intros x. unfold m2. unfold view at 1. rewrite !lookup_insert. unfold swapz. destruct (Z.eqb_spec x j) as [->|].
    - destruct (Z.eqb_spec j i) as [->|]; reflexivity.
    - destruct (Z.eqb_spec x i) as [->|]; [reflexivity|]. change (view m1 x = view m x). apply V1. }
  assert (D2 : forall x, lookup m2 x <> None <-> lookup m x <> None \/ x = j).
  { intros x. unfold m2. rewrite !lookup_insert. destruct (Z.eqb_spec x j) as [->|]; [split; [auto|discriminate]|].
    destruct (Z.eqb_spec x i) as [->|]; [split; [auto|discriminate]|]. apply D1. }
  assert (B : forall x, below n x -> below n (swapz i j x)).
  { intros x Hx. unfold swapz. destruct (x =? i); [exact Hj|]. destruct (x =? j); [exact Hi|exact Hx]. }
  split; [|split; [exact V2|]].
  - destruct P as [P1 P2 P3 P4 P5 P6 P7]. split.
    + unfold m2. now apply insert_sorted, insert_sorted.
    + intros x v E. assert (N : lookup m2 x <> None) by congruence. apply D2 in N as [N | ->]; [|exact Hj].
      destruct (lookup m x) as [w|] eqn:F; [|contradiction]. now apply (P2 x w).
    + intros x Hx. apply D2. left. now apply P3.
    + intros x Hx. rewrite V2. now apply P4, B.
    + intros x Hx. now apply B, P5.
    + intros x Hx. rewrite V2, P6 by now apply B. apply swapz_inv.
    + intros x Hx. rewrite V2, swapz_inv. now apply P7.
  - intros x Hx. apply D2. auto.
Qed.
Lemma shuffle_perm n k todo : 0 < n < 2 ^ 31 -> forall i m g h, 0 <= i -> i + Z.of_nat todo <= k -> k <= n -> perm n k m h ->
  exists m' g' h', shuffle r n todo i m g = (m', g') /\ perm n k m' h'.
Proof.
  intros Hn. induction todo as [|t IH]; intros i m g h Hi Ht Hk P; cbn [shuffle]; [eauto|].
  rewrite (Z.mod_small (n - i)) by lia. pose proof (Hr (n - i) g ltac:(lia)) as B. destruct (r (n - i) g) as [x g']. cbn [fst] in B. unfold below in B.
  rewrite (Z.mod_small (i + x)) by lia. rewrite int_of_small by lia.
  destruct (swap_map_perm n k m h i (i + x) P) as (P' & _ & _); [unfold below; lia|unfold below; lia|apply (p_first n k m h P); unfold below; lia|].
  unfold swap_map in P'. set (m1 := match lookup m (i + x) with None => insert m (i + x) (i + x) | Some _ => m end) in *.
  destruct (at_ m1 i) as [t1 m2]. destruct (at_ m2 (i + x)) as [v m3].
  destruct (IH (i + 1) (insert (insert m3 i v) (i + x) t1) g' _ ltac:(lia) ltac:(lia) Hk P') as (m' & g'' & h' & E & P''). eauto.
Qed.
Lemma collect_ok n k (h : Z -> Z) m : k <= n -> forall v, Z.of_nat (length v) = k ->
  (forall p x, In (p, x) m -> below n x -> h x = p) ->
  (forall x, below k x -> In (h x, x) m \/ nth_error v (Z.to_nat x) = Some (h x)) ->
  exists v', collect k m v = Ok v' /\ length v' = length v /\ forall x, below k x -> nth_error v' (Z.to_nat x) = Some (h x).
Proof.
  intros Hkn. induction m as [|[p x] m IH]; intros v L H1 H2; cbn [collect].
  - exists v. split; [reflexivity|]. split; [reflexivity|]. intros x Hx. destruct (H2 x Hx) as [[]|E]. exact E.
  - destruct ((0 <=? x) && (x <? k)) eqn:E.
    + destruct (store_ok v x p ltac:(lia)) as (v' & -> & L' & N). cbn [obind].
      assert (Hp : h x = p) by (apply H1; [now left|unfold below; lia]).
      destruct (IH v') as (v'' & E' & L'' & F); [lia|intros q y Hq; apply H1; now right| |].
      * intros y Hy. rewrite N. destruct (Nat.eqb_spec (Z.to_nat y) (Z.to_nat x)) as [Exy|Exy].
        -- right. replace y with x by (unfold below in Hy; lia). now rewrite Hp.
        -- destruct (H2 y Hy) as [[Eq|Hin]|Hn]; auto. injection Eq as _ <-. congruence.
      * exists v''. split; [exact E'|]. split; [lia|exact F].
    + cbn [obind]. apply IH; [exact L|intros q y Hq; apply H1; now right|]. intros y Hy. destruct (H2 y Hy) as [[Eq|Hin]|Hn]; auto.
      injection Eq as _ <-. unfold below in Hy. lia.
Qed.
End sampling.
