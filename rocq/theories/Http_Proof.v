(** Proofs for Http_Props.v. *)
From Verif Require Import Common CommonLemmas Socket_Spec Socket_Model Socket_Proof Http_Spec Http_Model.
Local Open Scope Z_scope.

(** * Headers as a map *)
Lemma cicmp_same a b : cicmp a b = same a b.
Proof.
  unfold same. revert b. induction a as [|x a IH]; intros [|y b]; cbn [cicmp lower map]; try reflexivity.
  rewrite IH. fold (lower a) (lower b). change (if (65 <=? x) && (x <=? 90) then x + 32 else x) with (tolower x).
  change (if (65 <=? y) && (y <=? 90) then y + 32 else y) with (tolower y).
  destruct (list_eq_dec Z.eq_dec (lower a) (lower b)) as [E|E];
    destruct (list_eq_dec Z.eq_dec (tolower x :: lower a) (tolower y :: lower b)) as [F|F];
    destruct (tolower x =? tolower y) eqn:G; cbn; try reflexivity; try (injection F as F1 F2); try congruence; try lia.
  elim F. f_equal; auto; lia.
Qed.
Lemma same_eq a b : same a b = true <-> lower a = lower b.
Proof. unfold same. destruct (list_eq_dec _ _ _); split; congruence. Qed.
Lemma same_trans a b k : same a b = true -> same a k = same b k.
Proof. rewrite same_eq. intros H. unfold same. now rewrite H. Qed.
Lemma same_sym a b : same a b = same b a.
Proof. unfold same. destruct (list_eq_dec _ (lower a)), (list_eq_dec _ (lower b)); congruence. Qed.
Lemma same_refl a : same a a = true.
Proof. now apply same_eq. Qed.
Lemma value_same p a b : same a b = true -> value p a = value p b.
Proof.
  intros H. assert (Hs : forall k, same k a = same k b) by (intros k; rewrite !(same_sym k); now apply same_trans).
  induction p as [|o p IH]; cbn [value]; [reflexivity|]. destruct o; rewrite ?Hs, ?IH; reflexivity.
Qed.

Definition table (f : list Z -> list Z) (ns : list (list Z)) : header := map (fun n => (n, f n)) ns.
Definition In_same (k : list Z) (ns : list (list Z)) : Prop := exists n, In n ns /\ same n k = true.

Lemma has_key_table f ns k : has_key (table f ns) k = true <-> In_same k ns.
Proof.
  induction ns as [|n ns IH]; cbn [table map has_key].
  - split; [discriminate|]. now intros (n & [] & _).
  - rewrite cicmp_same. destruct (same n k) eqn:E.
    + split; [|reflexivity]. intros _. exists n. split; [now left|auto].
    + rewrite IH. split; intros (m & H1 & H2); exists m; (split; [|auto]).
      * now right.
      * destruct H1 as [<-|H1]; [congruence|auto].
Qed.
Lemma const_ref_table f ns k : (forall a b, same a b = true -> f a = f b) ->
  In_same k ns -> const_ref (table f ns) k = f k.
Proof.
  intros Hf. induction ns as [|n ns IH]; cbn [table map const_ref].
  - now intros (n & [] & _).
  - rewrite cicmp_same. destruct (same n k) eqn:E; [auto|]. intros (m & [<-|H1] & H2); [congruence|].
    apply IH. exists m. auto.
Qed.
Lemma const_ref_absent h k : has_key h k = false -> const_ref h k = [].
Proof. induction h as [|[a v] h IH]; cbn; [reflexivity|]. destruct (cicmp a k); [discriminate|auto]. Qed.
Lemma get_const h k : snd (get h k) = const_ref h k.
Proof.
  unfold get. induction h as [|[a v] h IH]; cbn; [reflexivity|]. destruct (cicmp a k); [reflexivity|].
  destruct (ref h k). auto.
Qed.
Lemma get_present h k : has_key h k = true -> fst (get h k) = h.
Proof.
  unfold get. induction h as [|[a v] h IH]; cbn; [discriminate|]. destruct (cicmp a k); [reflexivity|].
  intros H. specialize (IH H). destruct (ref h k). cbn in *. now rewrite IH.
Qed.
Lemma get_absent h k : has_key h k = false -> fst (get h k) = h ++ [(k, [])].
Proof.
  unfold get. induction h as [|[a v] h IH]; cbn; [reflexivity|]. destruct (cicmp a k); [discriminate|].
  intros H. specialize (IH H). destruct (ref h k). cbn in *. now rewrite IH.
Qed.
Lemma set_absent h k v : has_key h k = false -> set h k v = h ++ [(k, v)].
Proof.
  induction h as [|[a w] h IH]; cbn; [reflexivity|]. destruct (cicmp a k); [discriminate|]. intros H. now rewrite IH.
Qed.
Lemma set_table f g ns k v : NoDup (map lower ns) -> In_same k ns ->
  (forall n, g n = if same k n then v else f n) -> set (table f ns) k v = table g ns.
Proof.
  intros Hn Hi Hg. induction ns as [|n ns IH]; cbn [table map set]; [now destruct Hi as (? & [] & _)|].
  inversion Hn as [|? ? H1 H2]; subst. rewrite cicmp_same. rewrite (Hg n), (same_sym k n). destruct (same n k) eqn:E.
  - f_equal. apply map_ext_in. intros m Hm. f_equal. rewrite Hg. destruct (same k m) eqn:F; [|reflexivity].
    elim H1. apply same_eq in E, F. rewrite E, F. now apply in_map.
  - f_equal. apply IH; auto. destruct Hi as (m & [<-|Hm] & Hs); [congruence|]. now exists m.
Qed.
Lemma filter_all {A} (p : A -> bool) l : (forall a, In a l -> p a = true) -> filter p l = l.
Proof. induction l as [|a l IH]; cbn; [reflexivity|]. intros H. rewrite H by auto. f_equal. auto. Qed.
Lemma erase_table f g ns k : NoDup (map lower ns) ->
  (forall n, In n ns -> same n k = false -> g n = f n) -> erase (table f ns) k = table g (filter (fun n => negb (same n k)) ns).
Proof.
  intros Hn Hg. induction ns as [|n ns IH]; cbn [table map erase filter]; [reflexivity|].
  inversion Hn as [|? ? H1 H2]; subst. rewrite cicmp_same. destruct (same n k) eqn:E; cbn [negb].
  - assert (Hf : forall m, In m ns -> same m k = false).
    { intros m Hm. destruct (same m k) eqn:F; [|reflexivity]. elim H1. apply same_eq in E, F. rewrite E, <- F. now apply in_map. }
    rewrite filter_all by (intros m Hm; now rewrite Hf). apply map_ext_in. intros m Hm. f_equal. symmetry. apply Hg; [now right|auto].
  - cbn [map]. f_equal; [|apply IH; auto; intros; apply Hg; auto; now right]. f_equal. symmetry. apply Hg; auto. now left.
Qed.
Lemma NoDup_filter_map (p : list Z -> bool) ns : NoDup (map lower ns) -> NoDup (map lower (filter p ns)).
Proof.
  induction ns as [|n ns IH]; cbn; [auto|]. intros H. inversion H; subst. destruct (p n); cbn; auto. constructor; auto.
  intros Hi. apply in_map_iff in Hi. destruct Hi as (m & H4 & H5). apply filter_In in H5. apply H2. rewrite <- H4. now apply in_map.
Qed.

Lemma names_value p : NoDup (map lower (names p)) /\ forall k, In_same k (names p) <-> value p k <> None.
Proof.
  assert (Hadd : forall ns k, NoDup (map lower ns) -> ~ In_same k ns -> NoDup (map lower (ns ++ [k]))).
  { intros ns k Hn Hk. rewrite map_app.
    induction ns as [|n ns IH]; cbn; [constructor; [intros []|constructor]|].
    inversion Hn; subst. constructor.
    - rewrite in_app_iff. intros [H|[H|[]]]; [auto|]. apply Hk. exists n. split; [now left|]. now apply same_eq.
    - apply IH; auto. intros (m & Hm & Hs). apply Hk. exists m. split; [now right|auto]. }
  assert (Hin : forall ns k j, In_same j (ns ++ [k]) <-> In_same j ns \/ same k j = true).
  { intros ns k j. split.
    - intros (m & Hm & Hs). apply in_app_or in Hm. destruct Hm as [Hm|[<-|[]]]; [left; now exists m|auto].
    - intros [(m & Hm & Hs)|Hs]; [exists m|exists k]; rewrite in_app_iff; cbn; auto. }
  induction p as [|o p [IH1 IH2]]; [split; [constructor|]; intros k; split; [now intros (n & [] & _)|now intros H; elim H]|].
  destruct o as [k v|k|k]; cbn [names].
  - destruct (value p k) as [w|] eqn:E.
    + split; [auto|]. intros j. rewrite IH2. cbn [value]. destruct (same k j) eqn:F; [|tauto].
      rewrite <- (value_same _ _ _ F), E. split; discriminate.
    + assert (~ In_same k (names p)) by (rewrite IH2; intros H; now elim H).
      split; [auto|]. intros j. rewrite Hin, IH2. cbn [value]. destruct (same k j) eqn:F.
      * split; [discriminate|auto].
      * split; [intros [?|?]; [auto|discriminate]|auto].
  - split; [now apply NoDup_filter_map|]. intros j. cbn [value]. destruct (same k j) eqn:F.
    + split; [|now intros H; elim H]. intros (m & Hm & Hs). apply filter_In in Hm. destruct Hm as [_ Hm].
      rewrite same_sym, (same_trans _ _ _ F), same_sym, Hs in Hm. discriminate.
    + rewrite <- IH2. split; intros (m & Hm & Hs).
      * apply filter_In in Hm. exists m. tauto.
      * exists m. split; [|auto]. apply filter_In. split; [auto|]. rewrite (same_trans _ _ _ Hs), same_sym, F. reflexivity.
  - destruct (value p k) as [w|] eqn:E.
    + split; [auto|]. intros j. rewrite IH2. cbn [value]. destruct (same k j) eqn:F; [|tauto].
      rewrite <- (value_same _ _ _ F), E. split; discriminate.
    + assert (~ In_same k (names p)) by (rewrite IH2; intros H; now elim H).
      split; [auto|]. intros j. rewrite Hin, IH2. cbn [value]. destruct (same k j) eqn:F.
      * split; [discriminate|auto].
      * split; [intros [?|?]; [auto|discriminate]|auto].
Qed.
Lemma header_table p : fold_left apply_op (rev p) [] = table (fun n => orempty (value p n)) (names p).
Proof.
  induction p as [|o p IH]; [reflexivity|]. cbn [rev]. rewrite fold_left_app. cbn [fold_left]. rewrite IH.
  destruct (names_value p) as [Hn Hv].
  assert (Hpres : forall f k, has_key (table f (names p)) k = match value p k with Some _ => true | None => false end).
  { intros f k. destruct (value p k) eqn:E.
    - apply has_key_table. apply Hv. now rewrite E.
    - destruct (has_key _ k) eqn:F; [|reflexivity]. apply has_key_table in F. apply Hv in F. now elim F. }
  assert (Hsnoc : forall f g k w, value p k = None -> g k = w -> (forall n, same k n = false -> g n = f n) ->
    table f (names p) ++ [(k, w)] = table g (names p ++ [k])).
  { intros f g k w Hk H1 H2. unfold table. rewrite map_app. cbn. rewrite H1. f_equal. apply map_ext_in. intros n Hi. f_equal.
    symmetry. apply H2. destruct (same k n) eqn:E; [|reflexivity].
    assert (Hx : value p k <> None) by (apply Hv; exists n; split; [auto|now rewrite same_sym]). congruence. }
  destruct o as [k v|k|k]; cbn [apply_op names].
  - destruct (value p k) eqn:E.
    + apply set_table; [auto|apply Hv; now rewrite E|]. intros n. cbn [value]. now destruct (same k n).
    + rewrite set_absent by now rewrite Hpres, E. apply Hsnoc; auto.
      * cbn [value]. now rewrite same_refl.
      * intros n F. cbn [value]. now rewrite F.
  - apply erase_table; auto. intros n Hi F. cbn [value]. rewrite same_sym in F. now rewrite F.
  - destruct (value p k) eqn:E.
    + rewrite get_present by now rewrite Hpres, E. apply map_ext_in. intros n Hi. f_equal. cbn [value].
      destruct (same k n) eqn:F; [|reflexivity]. now rewrite <- (value_same _ _ _ F), E.
    + rewrite get_absent by now rewrite Hpres, E. apply Hsnoc; auto.
      * cbn [value]. now rewrite same_refl, E.
      * intros n F. cbn [value]. now rewrite F.
Qed.
Lemma header_map ops k : let h := fold_left apply_op ops [] in let p := rev ops in
  h = map (fun n => (n, orempty (value p n))) (names p) /\ NoDup (map lower (names p)) /\
  has_key h k = (match value p k with Some _ => true | None => false end) /\
  const_ref h k = orempty (value p k) /\ snd (get h k) = orempty (value p k).
Proof.
  cbn zeta. pose proof (header_table (rev ops)) as H. rewrite rev_involutive in H. rewrite H.
  destruct (names_value (rev ops)) as [Hn Hv]. split; [reflexivity|]. split; [auto|].
  rewrite get_const. destruct (value (rev ops) k) eqn:E.
  - assert (Hi : In_same k (names (rev ops))) by (apply Hv; now rewrite E).
    split; [now apply has_key_table|]. rewrite const_ref_table; auto.
    + rewrite E. auto.
    + intros a b Hs. now rewrite (value_same _ _ _ Hs).
  - destruct (has_key _ k) eqn:F.
    + apply has_key_table, Hv in F. now elim F.
    + split; [auto|]. rewrite const_ref_absent by auto. auto.
Qed.

(** * The socket as a byte stream *)
Definition stream (x : st) : list Z := rb (fst x) ++ kin (snd x).
(* wout: everything written so far *)
Definition wout (x : st) : list Z := kout (snd x) ++ wb (fst x).
Record alive (x : st) : Prop := { al_ok : okst x; al_end : connf x = false -> kinf x = [] }.

Lemma app_cut {A} (a b c d : list A) x : ~ In x a -> ~ In x c -> a ++ x :: b = c ++ x :: d -> a = c /\ b = d.
Proof.
  revert c. induction a as [|y a IH]; intros [|z c] Ha Hc H; cbn in *.
  - injection H as ->. auto.
  - injection H as -> _. elim Hc. auto.
  - injection H as <- _. elim Ha. auto.
  - injection H as -> H. destruct (IH c) as [-> ->]; auto.
Qed.

Section Live.
Context (rc : nat -> Z) (Hrc : forall i, 0 < rc i).
Lemma live1 : live rc (fun _ => 1).
Proof. split; [auto|intros; lia]. Qed.

Lemma getc_at x c s : alive x -> stream x = c :: s ->
  exists x', getc rc x = (c, x') /\ alive x' /\ stream x' = s /\ kout (snd x') = kout (snd x) /\ wb (fst x') = wb (fst x).
Proof.
  intros [Ho He] Hs. destruct (getc_spec rc (fun _ => 1) x Ho) as (d & x' & e & E1 & E2 & E3 & E4 & E5 & E6 & E7 & E8).
  pose proof (E8 live1 He) as Ha.
  exists x'. unfold stream in *. rewrite Hs in E2. destruct E6 as [[-> Hb]|(-> & -> & Hc & Hr)].
  - cbn in E2. injection E2 as -> ->. repeat split; auto; apply E5.
  - rewrite Hr, (Ha Hc) in E2. discriminate.
Qed.
Lemma getc_end x : alive x -> stream x = [] ->
  exists x', getc rc x = (-1, x') /\ alive x' /\ stream x' = [] /\ kout (snd x') = kout (snd x) /\ wb (fst x') = wb (fst x).
Proof.
  intros [Ho He] Hs. destruct (getc_spec rc (fun _ => 1) x Ho) as (d & x' & e & E1 & E2 & E3 & E4 & E5 & E6 & E7 & E8).
  pose proof (E8 live1 He) as Ha.
  exists x'. unfold stream in *. rewrite Hs in E2. destruct E6 as [[-> Hb]|(-> & -> & Hc & Hr)].
  - discriminate.
  - repeat split; auto; try apply E5.
Qed.
Lemma read_at x n : alive x -> (n <= length (stream x))%nat ->
  exists x', read rc n x = Ok (firstn n (stream x), x') /\ alive x' /\ stream x' = skipn n (stream x) /\
  kout (snd x') = kout (snd x) /\ wb (fst x') = wb (fst x).
Proof.
  intros [Ho He] Hn. destruct (read_spec rc (fun _ => 1) n x Ho) as (d & x' & E1 & E2 & E3 & E4 & E5 & E6 & E7 & E8 & E9).
  pose proof (E9 live1 He) as Ha. unfold stream in *.
  assert (Hl : length d = n).
  { destruct (Nat.lt_ge_cases (length d) n) as [H|H]; [|lia]. destruct (E7 H) as [H1 H2].
    rewrite E3, H2, (Ha H1), !app_nil_r in Hn. lia. }
  exists x'. rewrite E3, <- Hl, firstn_app, firstn_all, Nat.sub_diag, skipn_app, skipn_all, Nat.sub_diag. cbn [firstn skipn].
  rewrite app_nil_r. split; [rewrite Hl; exact E1|]. split; [constructor; auto|]. auto.
Qed.
(* a line that ends within the limit *)
Lemma getline_at x l line s : alive x -> stream x = line ++ 13 :: 10 :: s -> ~ In 10 line ->
  (0 <= l -> Z.of_nat (length line) + 2 <= l) ->
  exists x', getline rc l x = Ok (Some line, x') /\ alive x' /\ stream x' = s /\
  kout (snd x') = kout (snd x) /\ wb (fst x') = wb (fst x).
Proof.
  intros [Ho He] Hs Hn Hl. unfold getline. rewrite <- (Nat.sub_0_r (Z.to_nat l)).
  destruct (getline_loop_spec rc (fun _ => 1) l (S (S (length (rbf x) + length (kinf x))))%nat [] x Ho)
    as (r & x' & d & E1 & E2 & E3 & E4 & E5 & E6 & E7 & E8); [intros []|lia|cbn; lia|].
  cbn [length] in E1. unfold lim in E1. rewrite E1. cbn [app] in E6. pose proof (E8 live1 He) as Ha.
  unfold stream in *. rewrite Hs in E2.
  assert (Hs2 : line ++ 13 :: 10 :: s = (line ++ [13]) ++ 10 :: s) by now rewrite <- app_assoc.
  assert (Hn2 : ~ In 10 (line ++ [13])) by (intros [H|[H|[]]]%in_app_or; [auto|discriminate]).
  destruct r as [t|].
  - destruct E6 as [Ht [->|[[-> Hcr]|[-> [H1 H2]]]]].
    + rewrite Hs2 in E2. replace ((t ++ [13; 10]) ++ rbf x' ++ kinf x') with ((t ++ [13]) ++ 10 :: rbf x' ++ kinf x') in E2
        by (rewrite <- !app_assoc; reflexivity).
      apply app_cut in E2; [|auto|intros [H|[H|[]]]%in_app_or; [auto|discriminate]].
      destruct E2 as [E2 E2']. apply app_inj_tail in E2. destruct E2 as [-> _].
      exists x'. repeat split; auto; apply E5.
    + rewrite Hs2 in E2. replace ((t ++ [10]) ++ rbf x' ++ kinf x') with (t ++ 10 :: rbf x' ++ kinf x') in E2
        by (rewrite <- !app_assoc; reflexivity).
      apply app_cut in E2; auto. destruct E2 as [E2 _]. elim (Hcr line). auto.
    + exfalso. destruct H2 as [[H2 H3]|[H2 H3]].
      * rewrite H3, (Ha H2), !app_nil_r in E2. apply Ht. rewrite <- E2. apply in_or_app. right. cbn. auto.
      * specialize (Hl H2). apply Ht. rewrite Hs2 in E2.
        assert (Hf : t = firstn (length t) ((line ++ [13]) ++ 10 :: s)) by (rewrite E2, firstn_app, Nat.sub_diag, firstn_all; now rewrite app_nil_r).
        rewrite Hf. rewrite firstn_app. apply in_or_app. right. rewrite app_length. cbn [length].
        destruct (length t - (length line + 1))%nat eqn:El; [lia|]. cbn. auto.
  - destruct E6 as (_ & -> & H1 & H2). rewrite H2, (Ha H1) in E2. destruct line; discriminate.
Qed.
End Live.

(* writing *)
Lemma puts_live sc (Hsc : forall i, 0 < sc i) d x : okst x -> connf x = true ->
  exists x', puts sc d x = Ok (true, x') /\ okst x' /\ connf x' = true /\ wout x' = wout x ++ d /\ stream x' = stream x.
Proof.
  intros Hx Hc. destruct (write_spec (fun _ => 1) sc d x Hx) as (n & x' & E1 & E2 & E3 & E4 & E5 & E6 & E7 & E8).
  assert (Hc' : connf x' = true) by (apply E8; [split; [intros; lia|auto]|auto]).
  unfold puts. rewrite E1. cbn [obind]. exists x'.
  assert (Hn : n = Z.of_nat (length d)).
  { destruct (Z.lt_ge_cases n (Z.of_nat (length d))) as [H|H]; [|lia]. destruct (E7 H) as [H1 _]. congruence. }
  destruct (n =? Z.of_nat (length d)) eqn:En; [|lia].
  split; [reflexivity|]. split; [auto|]. split; [auto|]. unfold wout, stream. rewrite E2, E3. split; [|auto].
  destruct E6 as (o & lo & F1 & F2 & F3 & _). destruct (F3 Hc') as [_ ->]. cbn [app] in F2. rewrite F1, <- !app_assoc. now rewrite <- F2.
Qed.
Lemma flush_live sc (Hsc : forall i, 0 < sc i) x : okst x -> connf x = true ->
  exists x', flush sc x = Ok (-1, x') /\ okst x' /\ connf x' = true /\ kout (snd x') = wout x /\ wb (fst x') = [] /\ stream x' = stream x.
Proof.
  intros Hx Hc. destruct (flush_spec (fun _ => 1) sc x (ok_open _ Hx)) as (n & x' & E1 & E2 & E3 & E4 & E5 & E6 & E7 & E8 & E9).
  assert (Hc' : connf x' = true) by (apply E9; [split; [intros; lia|auto]|auto]).
  destruct E6 as [[-> E6]|(_ & _ & H)]; [|congruence].
  exists x'. split; [auto|]. split. { constructor; rewrite ?E2, ?E3, ?E4; auto; try apply Hx. apply buf_pos. }
  unfold wout, stream. rewrite E2, E3. auto.
Qed.

(** * Headers on the wire *)
Lemma send_fields_live sc (Hsc : forall i, 0 < sc i) h : forall x, okst x -> connf x = true ->
  exists x', send_fields sc h x = Ok x' /\ okst x' /\ connf x' = true /\ stream x' = stream x /\
  wout x' = wout x ++ flat_map (fun f : list Z * list Z => fst f ++ [58; 32] ++ snd f ++ [13; 10]) h.
Proof.
  induction h as [|[k v] h IH]; intros x Hx Hc; cbn [send_fields flat_map].
  - exists x. rewrite app_nil_r. auto.
  - destruct (puts_live sc Hsc (k ++ str ": " ++ v ++ [13; 10]) x Hx Hc) as (x1 & E1 & E2 & E3 & E4 & E5).
    rewrite E1. cbn [obind]. destruct (IH x1 E2 E3) as (x' & F1 & F2 & F3 & F4 & F5).
    exists x'. split; [auto|]. split; [auto|]. split; [auto|]. split; [congruence|].
    rewrite F5, E4, <- app_assoc. reflexivity.
Qed.
Lemma send_header_live sc (Hsc : forall i, 0 < sc i) h x : okst x -> connf x = true ->
  exists x', send_header sc h x = Ok x' /\ okst x' /\ connf x' = true /\ stream x' = stream x /\ wout x' = wout x ++ wire h.
Proof.
  intros Hx Hc. unfold send_header. destruct (send_fields_live sc Hsc h x Hx Hc) as (x1 & E1 & E2 & E3 & E4 & E5).
  rewrite E1. cbn [obind]. destruct (puts_live sc Hsc [13; 10] x1 E2 E3) as (x' & F1 & F2 & F3 & F4 & F5).
  rewrite F1. cbn [obind]. exists x'. split; [auto|]. split; [auto|]. split; [auto|]. split; [congruence|].
  unfold wire. rewrite F4, E5. now rewrite app_assoc.
Qed.

Lemma token_char_facts c : token_char c -> c <> 58 /\ c <> 10 /\ c <> 13 /\ isspace c = false.
Proof.
  intros (H1 & H2 & _). repeat split; try lia.
  - intros ->. apply H2. vm_compute. tauto.
  - unfold isspace. lia.
Qed.
Lemma isspace_blank c : isspace c = true <-> blank c.
Proof. unfold isspace, blank. lia. Qed.
Lemma split_line_key k : forall key r, ~ In 58 k -> split_line key (k ++ 58 :: r) = (rev (rtrim_rev (rev (key ++ k))), r).
Proof.
  induction k as [|c k IH]; intros key r H; cbn [app split_line].
  - cbn. now rewrite app_nil_r.
  - destruct (c =? 58) eqn:E; [elim H; left; lia|]. rewrite IH by (intros ?; apply H; now right). now rewrite <- app_assoc.
Qed.
Lemma rtrim_token k : token k -> rev (rtrim_rev (rev k)) = k.
Proof.
  intros [Hn Ht]. apply Forall_rev in Ht. rewrite <- (rev_involutive k) at 2. f_equal.
  destruct (rev k) as [|c r]; [reflexivity|]. inversion Ht as [|? ? H1 H2]; subst. cbn.
  now destruct (token_char_facts c H1) as (_ & _ & _ & ->).
Qed.
Lemma token_no c k : token k -> (forall d, token_char d -> d <> c) -> ~ In c k.
Proof. intros [_ Ht] Hd Hi. rewrite Forall_forall in Ht. now apply (Hd c (Ht c Hi)). Qed.

Section Live2.
Context (rc : nat -> Z) (Hrc : forall i, 0 < rc i).
Notation getl := (getline rc line_limit).
Notation fieldline f := (fst f ++ [58; 32] ++ snd f).
Lemma field_line_no_lf f : field_ok f -> ~ In 10 (fieldline f).
Proof.
  intros (H1 & (_ & _ & H3) & _). rewrite !in_app_iff. intros [H|[H|H]].
  - revert H. apply (token_no 10); [auto|]. intros d Hd ->. now destruct (token_char_facts _ Hd).
  - cbn in H. lia.
  - auto.
Qed.
Lemma getl_field f x s : field_ok f -> alive x -> stream x = fieldline f ++ 13 :: 10 :: s ->
  exists x', getl x = Ok (Some (fieldline f), x') /\ alive x' /\ stream x' = s.
Proof.
  intros Hf Ha Hs. destruct (getline_at rc Hrc x line_limit (fieldline f) s Ha Hs) as (x' & E1 & E2 & E3 & _).
  - now apply field_line_no_lf.
  - destruct Hf as (_ & _ & _ & H). unfold line_limit. rewrite !app_length. cbn [length]. lia.
  - exists x'. auto.
Qed.
Lemma rest_of_value_next f val fl x s : field_ok fl -> alive x -> stream x = fieldline fl ++ 13 :: 10 :: s ->
  exists x', rest_of_value getl (S f) val x = Ok (val, Some (fieldline fl), x') /\ alive x' /\ stream x' = s.
Proof.
  intros Hf Ha Hs. destruct (getl_field fl x s Hf Ha Hs) as (x' & E1 & E2 & E3).
  cbn [rest_of_value]. rewrite E1. cbn [obind]. exists x'. split; [|auto].
  destruct Hf as ([Hn Ht] & _). destruct fl as [k v]. cbn [fst snd] in *. destruct k as [|c k]; [easy|]. cbn [app].
  inversion Ht; subst. destruct (token_char_facts c) as (_ & _ & F1 & F2); [auto|].
  rewrite F2. unfold eqs. destruct (list_eq_dec _ _ _) as [F|F]; [congruence|]. reflexivity.
Qed.
Lemma rest_of_value_end f val x s : alive x -> stream x = 13 :: 10 :: s ->
  exists x', rest_of_value getl (S f) val x = Ok (val, None, x') /\ alive x' /\ stream x' = s.
Proof.
  intros Ha Hs. destruct (getline_at rc Hrc x line_limit [] s Ha Hs) as (x' & E1 & E2 & E3 & _); [intros []|cbn; unfold line_limit; lia|].
  cbn [rest_of_value]. rewrite E1. cbn [obind]. exists x'. auto.
Qed.
Lemma wire_cons f h s : wire (f :: h) ++ s = fieldline f ++ 13 :: 10 :: wire h ++ s.
Proof. unfold wire. cbn [flat_map]. rewrite <- !app_assoc. reflexivity. Qed.
Lemma split_field fl : field_ok fl -> split_line [] (fieldline fl) = (fst fl, 32 :: snd fl).
Proof.
  intros (Hk & _). change ([58; 32] ++ snd fl) with (58 :: 32 :: snd fl). rewrite split_line_key.
  - cbn [app]. now rewrite rtrim_token.
  - apply (token_no 58); [auto|]. intros d Hd ->. now destruct (token_char_facts _ Hd).
Qed.
Lemma ltrim_value fl : field_ok fl -> ltrim (32 :: snd fl) = snd fl.
Proof.
  intros (_ & _ & Hb & _). cbn [ltrim]. change (isspace 32) with true. cbn match.
  destruct (snd fl) as [|c v]; [reflexivity|]. cbn. destruct (isspace c) eqn:E; [|reflexivity].
  apply isspace_blank in E. now elim (Hb c v).
Qed.
Lemma set_new done fl h v : NoDup (map (fun g => lower (fst g)) (done ++ fl :: h)) -> set done (fst fl) v = done ++ [(fst fl, v)].
Proof.
  intros Hn. apply set_absent. induction done as [|[k w] done IH]; [reflexivity|]. cbn [app map fst] in Hn. inversion Hn as [|? ? H1 H2]; subst.
  cbn. rewrite cicmp_same. destruct (same k (fst fl)) eqn:E; [|auto]. elim H1. apply same_eq in E. cbn [fst]. rewrite E.
  rewrite map_app. apply in_or_app. right. cbn. auto.
Qed.
Lemma read_fields_at s h : forall f fl done x, field_ok fl -> Forall field_ok h -> (length h < f)%nat -> alive x ->
  stream x = wire h ++ s -> NoDup (map (fun g => lower (fst g)) (done ++ fl :: h)) ->
  exists x', read_fields getl f (fieldline fl) done x = Ok (done ++ fl :: h, x') /\ alive x' /\ stream x' = s.
Proof.
  induction h as [|g h IH]; intros f fl done x Hf Hh Hl Ha Hs Hn; (destruct f as [|f]; [cbn in Hl; lia|]);
    cbn [read_fields]; rewrite split_field by auto.
  - destruct (rest_of_value_end f (32 :: snd fl) x s Ha Hs) as (x' & E1 & E2 & E3). rewrite E1. cbn [obind].
    exists x'. split; [|auto]. rewrite ltrim_value by auto. rewrite (set_new done fl [] (snd fl) Hn). now destruct fl.
  - inversion Hh; subst. rewrite wire_cons in Hs.
    destruct (rest_of_value_next f (32 :: snd fl) g x _ H1 Ha Hs) as (x1 & E1 & E2 & E3). rewrite E1. cbn [obind].
    rewrite ltrim_value by auto. rewrite (set_new done fl (g :: h) (snd fl) Hn).
    destruct (IH f g (done ++ [(fst fl, snd fl)]) x1) as (x' & F1 & F2 & F3); auto.
    { cbn in Hl. lia. }
    { rewrite <- app_assoc. cbn [app]. now destruct fl. }
    exists x'. rewrite F1, <- app_assoc. cbn [app]. split; [now destruct fl|auto].
Qed.
Lemma header_from_wire h x s : Forall field_ok h -> NoDup (map (fun g => lower (fst g)) h) -> alive x -> stream x = wire h ++ s ->
  exists x', header_from rc x = Ok (h, x') /\ alive x' /\ stream x' = s.
Proof.
  intros Hh Hn Ha Hs. unfold header_from, read_header. destruct h as [|g h].
  - destruct (getline_at rc Hrc x line_limit [] s Ha Hs) as (x' & E1 & E2 & E3 & _); [intros []|cbn; unfold line_limit; lia|].
    rewrite E1. cbn [obind]. exists x'. auto.
  - inversion Hh; subst. pose proof Hs as Hs0. rewrite wire_cons in Hs.
    destruct (getl_field g x _ H1 Ha Hs) as (x1 & E1 & E2 & E3). rewrite E1. cbn [obind].
    destruct (read_fields_at s h (fuel x) g [] x1 H1 H2) as (x' & F1 & F2 & F3); auto.
    { unfold fuel, stream in *. apply (f_equal (@length Z)) in Hs0. rewrite !app_length in Hs0.
      assert (Hw : (length h <= length (wire (g :: h)))%nat).
      { unfold wire. rewrite app_length. cbn [flat_map]. rewrite app_length. clear.
        induction h as [|y h IH]; cbn [length flat_map]; [lia|]. rewrite !app_length in *. cbn [length] in *. lia. }
      lia. }
    assert (Hne : fieldline g <> []).
    { destruct H1 as ([Hk _] & _). destruct (fst g); [easy|discriminate]. }
    destruct (fieldline g) as [|c l] eqn:El; [easy|]. exists x'. auto.
Qed.
End Live2.

(** * Bodies *)
Section Bodies.
Context (rc : nat -> Z) (Hrc : forall i, 0 < rc i).

Definition adv (o : rdop) (body : list Z) : list Z := match o with Peek => body | Next => tl body end.
Section Generic.
Context {B : Type} (step : rdop -> B * st -> outcome (Z * (B * st))) (rep : B -> st -> list Z -> list Z -> Prop).
Context (Hstep : forall o b x body left, rep b x body left ->
  exists r b' x', step o (b, x) = Ok (r, (b', x')) /\ delivered r = hd_error body /\ rep b' x' (adv o body) left).
Lemma run_body_spec ops : forall b x body left, rep b x body left ->
  exists rs b' x', run_body step ops (b, x) = Ok (rs, (b', x')) /\ map delivered rs = reads ops body /\ rep b' x' (unread ops body) left.
Proof.
  induction ops as [|o os IH]; intros b x body left Hr.
  - exists [], b, x. auto.
  - destruct (Hstep o b x body left Hr) as (r & b1 & x1 & E1 & E2 & E3).
    destruct (IH b1 x1 _ left E3) as (rs & b' & x' & F1 & F2 & F3).
    exists (r :: rs), b', x'. cbn [run_body]. rewrite E1. cbn [obind]. rewrite F1. cbn [obind]. split; [reflexivity|].
    cbn [map reads]. rewrite E2, F2. destruct body as [|c t], o; cbn [hd_error adv tl unread] in *; auto.
Qed.
End Generic.

(* Content-Length *)
Inductive zrep : sized -> st -> list Z -> list Z -> Prop :=
| zr_on n x : 0 < n -> alive x -> zrep (mkZ true n (-1)) x (firstn (Z.to_nat n) (stream x)) (skipn (Z.to_nat n) (stream x))
| zr_off n x : alive x -> zrep (mkZ false n (-1)) x [] (stream x)
| zr_peek a n c x body left : is_byte c -> zrep (mkZ a n (-1)) x body left -> zrep (mkZ a n c) x (c :: body) left.
Lemma stream_bytes x : alive x -> bytes (stream x).
Proof. intros [H _]. unfold stream. apply Forall_app. split; apply H. Qed.
Lemma zrep_next n x : 0 < n -> alive x -> forall c s, stream x = c :: s ->
  exists x', getc rc x = (c, x') /\ is_byte c /\
  zrep (mkZ (negb (n - 1 =? 0)) (n - 1) (-1)) x' (tl (firstn (Z.to_nat n) (stream x))) (skipn (Z.to_nat n) (stream x)).
Proof.
  intros Hn Ha c s Hs. destruct (getc_at rc Hrc x c s Ha Hs) as (x' & E1 & E2 & E3 & _). exists x'. split; [auto|].
  pose proof (stream_bytes x Ha) as Hb. rewrite Hs in Hb. split; [now inversion Hb|].
  rewrite Hs. replace (Z.to_nat n) with (S (Z.to_nat (n - 1))) by lia. cbn [firstn tl skipn]. rewrite <- E3.
  destruct (n - 1 =? 0) eqn:E; cbn [negb].
  - replace (n - 1) with 0 by lia. cbn [Z.to_nat firstn skipn]. now constructor.
  - constructor; auto. lia.
Qed.
Lemma zstep o b x body left : zrep b x body left ->
  exists r b' x', sized_step rc o (b, x) = Ok (r, (b', x')) /\ delivered r = hd_error body /\ zrep b' x' (adv o body) left.
Proof.
  intros Hr. inversion Hr; subst; unfold sized_step; cbn [z_buf z_sock z_rest negb].
  - change (-1 =? -1) with true. cbn match. destruct (stream x) as [|c s] eqn:Es.
    + destruct (getc_end rc Hrc x H0 Es) as (x' & E1 & E2 & E3 & _). rewrite E1.
      eexists _, _, _. split; [reflexivity|]. rewrite firstn_nil, skipn_nil. split; [reflexivity|]. cbn [z_sock z_rest].
      assert (Hz : zrep (mkZ (negb (n - 1 =? 0)) (n - 1) (-1)) x' [] []).
      { rewrite <- E3 at 2. destruct (n - 1 =? 0) eqn:E; cbn [negb]; [now constructor|].
        pose proof (zr_on (n - 1) x') as Hz. rewrite E3, firstn_nil, skipn_nil in Hz. rewrite E3. apply Hz; [lia|auto]. }
      destruct o; exact Hz.
    + destruct (zrep_next n x H H0 c s Es) as (x' & E1 & E2 & E3). rewrite E1.
      eexists _, _, _. split; [reflexivity|]. rewrite Es in E3. revert E3. replace (Z.to_nat n) with (S (Z.to_nat (n - 1))) by lia.
      cbn [firstn hd_error tl adv z_sock z_rest]. intros E3.
      split. { unfold delivered. unfold is_byte in E2. destruct (c =? -1) eqn:E; [lia|]. now rewrite Z.mod_small. }
      destruct o; cbn [adv tl]; [now constructor|exact E3].
  - change (-1 =? -1) with true. cbn match. eexists _, _, _. split; [reflexivity|]. split; [reflexivity|]. destruct o; now constructor.
  - unfold is_byte in H. destruct (c =? -1) eqn:E; [lia|]. eexists _, _, _. split; [reflexivity|].
    split. { unfold delivered. rewrite E. now rewrite Z.mod_small. }
    destruct o; cbn [adv tl z_sock z_rest]; auto.
Qed.
Lemma zrep_left b x body left : zrep b x body left -> (exists t, stream x = t ++ left) /\ (body = [] -> stream x = left).
Proof.
  intros Hr. induction Hr.
  - split.
    + exists (firstn (Z.to_nat n) (stream x)). symmetry. apply firstn_skipn.
    + intros Hf. rewrite <- (firstn_skipn (Z.to_nat n) (stream x)) at 1. now rewrite Hf.
  - split; [now exists []|auto].
  - split; [apply IHHr|discriminate].
Qed.
Lemma sized_body n ops x : 0 < n -> alive x ->
  exists rs b' x', run_body (sized_step rc) ops (sized_init n, x) = Ok (rs, (b', x')) /\
  map delivered rs = reads ops (firstn (Z.to_nat n) (stream x)) /\
  (exists t, stream x' = t ++ skipn (Z.to_nat n) (stream x)) /\
  (unread ops (firstn (Z.to_nat n) (stream x)) = [] -> stream x' = skipn (Z.to_nat n) (stream x)).
Proof.
  intros Hn Ha. destruct (run_body_spec (sized_step rc) zrep zstep ops (sized_init n) x _ _ (zr_on n x Hn Ha)) as (rs & b' & x' & E1 & E2 & E3).
  exists rs, b', x'. split; [auto|]. split; [auto|]. apply (zrep_left _ _ _ _ E3).
Qed.

(* chunk sizes *)
Lemma hexdigit_val c v : hexdigit c v -> hexval c = Some v /\ In c (str "0123456789abcdefABCDEF").
Proof.
  intros [Hv H]. assert (Hi : In v (range0 16)) by (unfold range0; apply in_map_iff; exists (Z.to_nat v); split; [lia|apply in_seq; lia]).
  revert H. repeat (destruct Hi as [<-|Hi]; [intros [<-|<-]; vm_compute; split; (reflexivity || tauto)|]). destruct Hi.
Qed.
Lemma hexnum_nonneg ds n : hexnum ds n -> 0 <= n.
Proof. induction 1 as [c v [H _]|ds n c v _ IH [H _]]; lia. Qed.
Lemma hexdigits_num ds n : hexnum ds n -> forall e, hexdigits 0 (ds ++ e) = hexdigits n e.
Proof.
  induction 1 as [c v H|ds n c v _ IH H]; intros e.
  - cbn. destruct (hexdigit_val _ _ H) as [-> _]. reflexivity.
  - rewrite <- app_assoc, IH. cbn. destruct (hexdigit_val _ _ H) as [-> _]. reflexivity.
Qed.
Lemma hexnum_digits ds n : hexnum ds n -> ds <> [] /\ Forall (fun c => In c (str "0123456789abcdefABCDEF")) ds.
Proof.
  induction 1 as [c v H|ds n c v _ IH H].
  - split; [discriminate|]. constructor; [apply (hexdigit_val _ _ H)|constructor].
  - split; [destruct ds; discriminate|]. apply Forall_app. split; [apply IH|]. constructor; [apply (hexdigit_val _ _ H)|constructor].
Qed.
Lemma hexdigits_ext n e : extension e -> hexdigits n e = n.
Proof. intros (_ & _ & _ & H). destruct e as [|c e]; [reflexivity|]. cbn [hexdigits]. destruct H as [->|[->| ->]]; reflexivity. Qed.
Definition no_x (l : list Z) : Prop := match l with c :: _ => c <> 120 /\ c <> 88 | [] => True end.
Lemma digit_cases c (P : Z -> Prop) : In c (str "0123456789abcdefABCDEF") -> Forall P (str "0123456789abcdefABCDEF") -> P c.
Proof. intros H HF. rewrite Forall_forall in HF. auto. Qed.
Lemma scan_hex_line ds e n : hexnum ds n -> extension e -> n < 2 ^ 31 -> scan_hex (ds ++ e) = n.
Proof.
  intros Hn He Hb. pose proof (hexnum_nonneg _ _ Hn) as H0.
  destruct (hexnum_digits _ _ Hn) as [Hne Hd]. destruct ds as [|c ds]; [easy|]. inversion Hd as [|? ? Hc Hds]; subst.
  assert (Hx : no_x (ds ++ e)).
  { destruct ds as [|d ds]; cbn [app].
    - destruct He as (_ & _ & _ & He). destruct e as [|d e]; cbn; [auto|]. destruct He as [->|[->| ->]]; lia.
    - cbn. inversion Hds; subst. apply (digit_cases d); [auto|]. repeat constructor; discriminate. }
  assert (Hs : scan_hex ((c :: ds) ++ e) = clamp (hexdigits 0 ((c :: ds) ++ e))).
  { cbn [app]. revert Hx. generalize (ds ++ e). intros l Hx. unfold scan_hex.
    assert (Hsp : isspace c = false /\ (c =? 45) = false /\ (c =? 43) = false).
    { apply (digit_cases c); [auto|]. vm_compute. repeat constructor. }
    destruct Hsp as (H1 & H2 & H3). cbn [ltrim]. rewrite H1, H2, H3. f_equal. f_equal.
    destruct l as [|d l]; [reflexivity|]. cbn [no_x] in Hx. cbn [skip0x].
    destruct ((c =? 48) && ((d =? 120) || (d =? 88))) eqn:E; [lia|reflexivity]. }
  rewrite Hs, (hexdigits_num _ _ Hn), hexdigits_ext by auto. unfold clamp. lia.
Qed.

(* chunks *)
Inductive cbase : chunked -> st -> list Z -> list Z -> Prop :=
| cr_start x body t follow : alive x -> chunked_body body t -> stream x = t ++ follow -> cbase (mkC true 0 []) x body follow
| cr_mid n x d body t follow : 0 < n < 2 ^ 31 -> n = Z.of_nat (length d) -> alive x -> chunked_body body t ->
    stream x = d ++ 13 :: 10 :: t ++ follow -> cbase (mkC true n []) x (d ++ body) follow
| cr_off x follow : alive x -> stream x = follow -> cbase (mkC false 0 []) x [] follow.
Definition crep (b : chunked) (x : st) (body follow : list Z) : Prop :=
  exists rest, body = cbuf b ++ rest /\ cbase (mkC (has_sock b) (chunk_rest b) []) x rest follow.

Lemma getl_line x line s : alive x -> stream x = line ++ 13 :: 10 :: s -> ~ In 10 line -> (length line <= 4094)%nat ->
  exists x', getline rc line_limit x = Ok (Some line, x') /\ alive x' /\ stream x' = s.
Proof.
  intros Ha Hs Hn Hl. destruct (getline_at rc Hrc x line_limit line s Ha Hs Hn) as (x' & E1 & E2 & E3 & _); [unfold line_limit; lia|].
  exists x'. auto.
Qed.
Lemma size_line_at x n l s : alive x -> size_line n l -> n < 2 ^ 31 -> stream x = l ++ s ->
  exists x', read_chunk_size rc x = Ok (mkC true n [], x') /\ alive x' /\ stream x' = s.
Proof.
  intros Ha Hl Hn Hs. inversion Hl as [ds e H1 H2 H3]; subst. unfold read_chunk_size.
  destruct (getl_line x (ds ++ e) s) as (x' & E1 & E2 & E3); auto.
  - rewrite Hs, <- !app_assoc. reflexivity.
  - destruct H2 as (_ & _ & H2 & _). intros [H|H]%in_app_or; [|auto].
    destruct (hexnum_digits _ _ H1) as [_ Hd]. rewrite Forall_forall in Hd. specialize (Hd _ H). revert Hd. vm_compute. intuition discriminate.
  - rewrite E1. cbn [obind]. rewrite (scan_hex_line ds e n) by auto. exists x'. auto.
Qed.
Lemma trailer_at tr : forall f x s, Forall trailer_line tr -> (length tr < f)%nat -> alive x ->
  stream x = flat_map (fun t => t ++ [13; 10]) tr ++ 13 :: 10 :: s ->
  exists x', skip_trailer rc f x = Ok x' /\ alive x' /\ stream x' = s.
Proof.
  induction tr as [|l tr IH]; intros f x s Ht Hf Ha Hs; (destruct f as [|f]; [cbn in Hf; lia|]); cbn [skip_trailer].
  - destruct (getl_line x [] s) as (x' & E1 & E2 & E3); auto; [cbn; lia|]. rewrite E1. cbn [obind]. exists x'. auto.
  - inversion Ht as [|? ? H1 H2]; subst. cbn [flat_map] in Hs. rewrite <- !app_assoc in Hs.
    destruct H1 as (Hl1 & Hl2 & Hl3 & Hl4 & Hl5).
    destruct (getl_line x l _ Ha Hs Hl5 Hl2) as (x' & E1 & E2 & E3). rewrite E1. cbn [obind].
    destruct l as [|c l]; [easy|]. apply IH; auto. cbn in Hf. lia.
Qed.
Lemma footer_at x s : alive x -> stream x = 13 :: 10 :: s -> exists x', footer rc x = Ok x' /\ alive x' /\ stream x' = s.
Proof.
  intros Ha Hs. unfold footer. destruct (getc_at rc Hrc x _ _ Ha Hs) as (x1 & E1 & E2 & E3 & _). rewrite E1.
  change (13 =? 13) with true. cbn match. destruct (getc_at rc Hrc x1 _ _ E2 E3) as (x' & F1 & F2 & F3 & _). rewrite F1.
  exists x'. auto.
Qed.
(* the part of fill that reads data *)
Definition fill_data (b1 : chunked) (x1 : st) : outcome (chunked * st) :=
  let cur := Z.min (chunk_rest b1) body_buf_size in
  let* (d, x2) := read_int rc cur x1 in
  if negb (Z.of_nat (length d) =? cur) then Ok (chunked_off, x2) else
  let rest := chunk_rest b1 - cur in
  let* x3 := (if rest =? 0 then footer rc x2 else Ok x2) in
  Ok (mkC true rest d, x3).
Lemma fill_data_at n x d body t follow : 0 < n < 2 ^ 31 -> n = Z.of_nat (length d) -> alive x -> chunked_body body t ->
  stream x = d ++ 13 :: 10 :: t ++ follow ->
  exists b' x', fill_data (mkC true n []) x = Ok (b', x') /\ crep b' x' (d ++ body) follow /\ cbuf b' <> [].
Proof.
  intros Hn Hl Ha Hb Hs. unfold fill_data. cbn [chunk_rest]. set (cur := Z.min n body_buf_size).
  assert (Hcur : 0 < cur <= n) by (unfold cur, body_buf_size; lia).
  unfold read_int. destruct (cur <? 0) eqn:E0; [lia|].
  destruct (read_at rc Hrc x (Z.to_nat cur) Ha) as (x2 & E1 & E2 & E3 & _); [rewrite Hs, app_length; lia|].
  rewrite E1. cbn [obind]. rewrite Hs in E3.
  assert (Hfd : firstn (Z.to_nat cur) (stream x) = firstn (Z.to_nat cur) d).
  { rewrite Hs, firstn_app. replace (Z.to_nat cur - length d)%nat with 0%nat by lia. cbn [firstn]. apply app_nil_r. }
  rewrite Hfd. assert (Hfl : length (firstn (Z.to_nat cur) d) = Z.to_nat cur) by (rewrite firstn_length; lia).
  destruct (Z.of_nat (length (firstn (Z.to_nat cur) d)) =? cur) eqn:E4; [|lia]. cbn [negb].
  rewrite skipn_app in E3. replace (Z.to_nat cur - length d)%nat with 0%nat in E3 by lia. cbn [skipn] in E3.
  assert (Hne : firstn (Z.to_nat cur) d <> []) by (intros H; rewrite H in Hfl; cbn in Hfl; lia).
  destruct (n - cur =? 0) eqn:E5.
  - rewrite skipn_all2 in E3 by lia. destruct (footer_at x2 _ E2 E3) as (x3 & F1 & F2 & F3). rewrite F1. cbn [obind].
    eexists _, _. split; [reflexivity|]. split; [|exact Hne]. exists body. cbn [cbuf has_sock chunk_rest]. split.
    + rewrite firstn_all2 by lia. reflexivity.
    + replace (n - cur) with 0 by lia. now apply cr_start with (t := t).
  - cbn [obind]. eexists _, _. split; [reflexivity|]. split; [|exact Hne]. exists (skipn (Z.to_nat cur) d ++ body).
    cbn [cbuf has_sock chunk_rest]. split; [now rewrite app_assoc, firstn_skipn|].
    apply cr_mid with (t := t); auto; [lia|]. rewrite skipn_length. lia.
Qed.
Lemma flat_map_len (tr : list (list Z)) : (length tr <= length (flat_map (fun t => t ++ [13; 10]%Z) tr))%nat.
Proof. induction tr as [|y h IH]; cbn [length flat_map]; [lia|]. rewrite !app_length in *. cbn [length] in *. lia. Qed.
Lemma fill_at b x rest follow : cbuf b = [] -> cbase b x rest follow ->
  exists b' x', fill rc b x = Ok (b', x') /\ crep b' x' rest follow /\ (cbuf b' = [] -> rest = [] /\ b' = chunked_off).
Proof.
  intros Hb Hr. inversion Hr as [x0 body t fo Ha Hc Hs|n x0 d body t fo Hn Hl Ha Hc Hs|x0 fo Ha Hs]; subst; unfold fill; cbn [has_sock chunk_rest negb].
  - change (0 =? 0) with true. cbn match. inversion Hc as [l tr Hl Ht|d c body' t' Hd Hc']; subst.
    + rewrite <- !app_assoc in Hs. destruct (size_line_at x 0 l _ Ha Hl ltac:(lia) Hs) as (x1 & E1 & E2 & E3). rewrite E1. cbn [obind chunk_rest has_sock].
      change (0 =? 0) with true. cbn match. destruct (trailer_at tr (fuel x1) x1 follow Ht) as (x2 & F1 & F2 & F3); auto.
      { unfold fuel, stream in *. apply (f_equal (@length Z)) in E3. rewrite !app_length in E3.
        pose proof (flat_map_len tr). lia. }
      rewrite F1. cbn [obind]. eexists _, _. split; [reflexivity|]. split; [|auto]. exists []. split; [reflexivity|].
      cbn. now constructor.
    + inversion Hd as [l Hd1 Hd2 Hd3]; subst. rewrite <- !app_assoc in Hs.
      destruct (size_line_at x _ l _ Ha Hd3 Hd2 Hs) as (x1 & E1 & E2 & E3). rewrite E1. cbn [obind chunk_rest has_sock].
      assert (length d <> 0%nat) by (destruct d; [easy|discriminate]).
      destruct (Z.of_nat (length d) =? 0) eqn:E0; [lia|].
      destruct (fill_data_at (Z.of_nat (length d)) x1 d body' t' follow) as (b' & x' & F1 & F2 & F3); auto; [lia|].
      exists b', x'. split; [exact F1|]. split; [auto|]. intros H1. now elim F3.
  - destruct (Z.of_nat (length d) =? 0) eqn:E0; [lia|]. cbn [obind chunk_rest]. rewrite E0.
    destruct (fill_data_at (Z.of_nat (length d)) x d body t follow) as (b' & x' & F1 & F2 & F3); auto.
    exists b', x'. split; [exact F1|]. split; [auto|]. intros H1. now elim F3.
  - eexists _, _. split; [reflexivity|]. split; [|auto]. exists []. split; [reflexivity|]. now constructor.
Qed.
Definition crep' (b : chunked) (x : st) (body follow : list Z) : Prop :=
  crep b x body follow /\ Forall (fun c => is_byte c /\ c <> 255) body.
Lemma schar_delivered c : is_byte c -> c <> 255 -> delivered (schar c) = Some c.
Proof.
  unfold is_byte, delivered, schar. intros H1 H2. destruct (c <? 128) eqn:E.
  - destruct (c =? -1) eqn:F; [lia|]. now rewrite Z.mod_small.
  - destruct (c - 256 =? -1) eqn:F; [lia|]. f_equal. symmetry. apply (Z.mod_unique _ _ (-1)); lia.
Qed.
Lemma cstep o b x body left : crep' b x body left ->
  exists r b' x', chunked_step rc o (b, x) = Ok (r, (b', x')) /\ delivered r = hd_error body /\ crep' b' x' (adv o body) left.
Proof.
  intros [Hr Hb]. unfold chunked_step.
  assert (Hf : exists b' x', (match cbuf b with [] => fill rc b x | _ => Ok (b, x) end) = Ok (b', x') /\ crep b' x' body left /\
     (cbuf b' = [] -> body = [] /\ b' = chunked_off)).
  { destruct Hr as (rest & -> & Hr). destruct (cbuf b) as [|c e] eqn:E.
    - assert (Hb' : mkC (has_sock b) (chunk_rest b) [] = b) by (destruct b; cbn in *; now subst). rewrite Hb' in Hr.
      cbn [app]. now apply fill_at.
    - exists b, x. split; [reflexivity|]. split; [exists rest; rewrite E; auto|rewrite E; discriminate]. }
  destruct Hf as (b' & x' & -> & Hc & He). cbn [obind]. destruct (cbuf b') as [|c e] eqn:E.
  - eexists _, _, _. split; [reflexivity|]. destruct (He eq_refl) as [-> _]. split; [reflexivity|]. destruct o; now split.
  - eexists _, _, _. split; [reflexivity|]. destruct Hc as (rest & -> & Hc). rewrite E in *. cbn [app hd_error] in *.
    inversion Hb as [|? ? [H1 H2] H3]; subst. split; [now apply schar_delivered|].
    destruct o; cbn [adv tl]; split; auto.
    + exists rest. rewrite E. auto.
    + exists rest. auto.
Qed.
Lemma cstep_end o b x left : crep' b x [] left ->
  exists x', chunked_step rc o (b, x) = Ok (-1, (chunked_off, x')) /\ stream x' = left.
Proof.
  intros [(rest & He & Hr) _]. symmetry in He. apply app_eq_nil in He. destruct He as [He ->]. unfold chunked_step. rewrite He.
  assert (Hb' : mkC (has_sock b) (chunk_rest b) [] = b) by (destruct b; cbn in *; now subst). rewrite Hb' in Hr.
  destruct (fill_at b x [] left He Hr) as (b' & x' & -> & (r & F1 & F2) & F3). cbn [obind].
  symmetry in F1. apply app_eq_nil in F1. destruct F1 as [F1 ->]. destruct (F3 F1) as [_ ->]. cbn.
  exists x'. split; [reflexivity|]. cbn in F2. now inversion F2.
Qed.
Lemma run_off ops x : run_body (chunked_step rc) ops (chunked_off, x) = Ok (repeat (-1) (length ops), (chunked_off, x)).
Proof. induction ops as [|o ops IH]; [reflexivity|]. cbn [run_body]. unfold chunked_step at 1. cbn. cbn in IH. now rewrite IH. Qed.
Lemma chunked_end ops : forall b x body left rs b' x', crep' b x body left ->
  run_body (chunked_step rc) ops (b, x) = Ok (rs, (b', x')) -> In None (reads ops body) -> stream x' = left.
Proof.
  induction ops as [|o ops IH]; intros b x body left rs b' x' Hr Hrun Hi; [destruct Hi|].
  cbn [run_body] in Hrun. destruct body as [|c body].
  - destruct (cstep_end o b x left Hr) as (x1 & E1 & E2). rewrite E1 in Hrun. cbn [obind] in Hrun. rewrite run_off in Hrun.
    cbn [obind] in Hrun. injection Hrun as _ _ <-. exact E2.
  - destruct (cstep o b x _ left Hr) as (r & b1 & x1 & E1 & _ & E3). rewrite E1 in Hrun. cbn [obind] in Hrun.
    destruct (run_body _ ops (b1, x1)) as [[rs1 [b2 x2]]| | |] eqn:E4; try discriminate. cbn [obind] in Hrun.
    injection Hrun as _ <- <-. cbn [reads] in Hi. destruct Hi as [Hi|Hi]; [discriminate|].
    apply (IH b1 x1 _ left rs1 b2 x2 E3 E4). destruct o; exact Hi.
Qed.
Lemma chunked_stream body t ops x follow : alive x -> chunked_body body t -> Forall (fun c => is_byte c /\ c <> 255) body ->
  stream x = t ++ follow ->
  exists rs b' x', run_body (chunked_step rc) ops (chunked_init, x) = Ok (rs, (b', x')) /\
  map delivered rs = reads ops body /\ (In None (reads ops body) -> stream x' = follow).
Proof.
  intros Ha Hc Hb Hs. assert (Hr : crep' chunked_init x body follow).
  { split; [|auto]. exists body. split; [reflexivity|]. now apply cr_start with (t := t). }
  destruct (run_body_spec (chunked_step rc) crep' cstep ops chunked_init x body follow Hr) as (rs & b' & x' & E1 & E2 & E3).
  exists rs, b', x'. split; [auto|]. split; [auto|]. intros Hi. exact (chunked_end ops _ _ _ _ _ _ _ Hr E1 Hi).
Qed.
End Bodies.

(** * Any peer, any kernel *)
Section Total.
Context (rc : nat -> Z).
Definition fine {A} (o : outcome A) (P : A -> Prop) : Prop := match o with Ok a => P a | Throw => True | _ => False end.
Lemma fine_bind {A B} (o : outcome A) (f : A -> outcome B) P Q : fine o P -> (forall a, P a -> fine (f a) Q) -> fine (obind o f) Q.
Proof. destruct o; cbn; auto. Qed.
Definition later (x x' : st) : Prop := okst x' /\ exists d, stream x = d ++ stream x'.
Lemma later_refl x : okst x -> later x x.
Proof. split; [auto|now exists []]. Qed.
Lemma later_trans x y z : later x y -> later y z -> later x z.
Proof. intros [_ [d Hd]] [Hz [e He]]. split; [auto|]. exists (d ++ e). now rewrite Hd, He, app_assoc. Qed.
Lemma later_len x y : later x y -> (length (stream y) <= length (stream x))%nat.
Proof. intros [_ [d ->]]. rewrite app_length. lia. Qed.
Lemma later_in x y c : later x y -> In c (stream y) -> In c (stream x).
Proof. intros [_ [d ->]] H. apply in_or_app. auto. Qed.
Lemma getline_any l x : okst x -> exists r x', getline rc l x = Ok (r, x') /\ later x x' /\
  match r with Some s => (s <> [] -> (length (stream x') < length (stream x))%nat) /\ (forall c, In c s -> In c (stream x)) | None => True end.
Proof.
  intros Hx. destruct (call_spec rc (fun _ => 1) (Getline l) x Hx) as (r & x' & d & E1 & E2 & E3 & E4 & _).
  cbn [do_call] in E1. destruct (getline rc l x) as [[r' x1]| | |]; try discriminate. cbn [obind] in E1. injection E1 as <- <-.
  exists r', x1. split; [reflexivity|]. split; [split; [auto|now exists d]|]. destruct r' as [s|]; [|auto].
  unfold stream. rewrite E4, (app_length d). split.
  - intros Hs. enough (length d <> 0%nat) by lia. inversion E3; subst; rewrite ?app_length; cbn [length]; try lia.
    destruct d; [easy|discriminate].
  - intros c Hc. apply in_or_app. left. inversion E3; subst; auto; apply in_or_app; auto.
Qed.
Lemma getc_any x : okst x -> exists c x', getc rc x = (c, x') /\ later x x'.
Proof.
  intros Hx. destruct (getc_spec rc (fun _ => 1) x Hx) as (c & x' & d & E1 & E2 & _ & _ & E5 & _).
  exists c, x'. split; [auto|]. split; [auto|now exists d].
Qed.
Lemma read_any n x : okst x -> exists d x', read rc n x = Ok (d, x') /\ later x x'.
Proof.
  intros Hx. destruct (read_spec rc (fun _ => 1) n x Hx) as (d & x' & E1 & _ & E3 & _ & _ & E6 & _).
  exists d, x'. split; [auto|]. split; [auto|now exists d].
Qed.
Notation getl := (getline rc line_limit).
Lemma rest_of_value_any f : forall val x, okst x -> (length (stream x) < f)%nat ->
  fine (rest_of_value getl f val x) (fun r => later x (snd r) /\
    match snd (fst r) with Some _ => (length (stream (snd r)) < length (stream x))%nat | None => True end).
Proof.
  induction f as [|f IH]; intros val x Hx Hf; [lia|]. cbn [rest_of_value].
  destruct (getline_any line_limit x Hx) as (r & x' & -> & Hl & Hr). cbn [obind].
  destruct r as [[|c s]|]; [cbn; auto| |cbn; auto]. destruct Hr as [Hr _]. specialize (Hr ltac:(discriminate)).
  destruct (eqs (c :: s) [13]); [cbn; auto|]. destruct (isspace c); [|cbn; auto].
  pose proof (IH (lws val (c :: s)) x' (proj1 Hl) ltac:(lia)) as H.
  destruct (rest_of_value getl f _ x') as [[[v n] x2]| | |]; cbn in *; auto. destruct H as [H1 H2].
  split; [now apply (later_trans x x')|]. destruct n; [lia|auto].
Qed.
Lemma read_fields_any f : forall line h x, okst x -> (length (stream x) < f)%nat ->
  fine (read_fields getl f line h x) (fun r => later x (snd r)).
Proof.
  induction f as [|f IH]; intros line h x Hx Hf; [lia|]. cbn [read_fields]. destruct (split_line [] line) as [key val].
  eapply fine_bind; [apply (rest_of_value_any (S f) val x Hx Hf)|]. intros [[v n] x'] [H1 H2]. cbn [fst snd] in *.
  destruct n as [l|]; [|exact H1].
  pose proof (IH l (set h key (ltrim v)) x' (proj1 H1) ltac:(lia)) as H.
  destruct (read_fields getl f l _ x') as [[h' x2]| | |]; cbn in *; auto. now apply (later_trans x x').
Qed.
Lemma header_any x : okst x -> fine (header_from rc x) (fun r => later x (snd r)).
Proof.
  intros Hx. unfold header_from, read_header. destruct (getline_any line_limit x Hx) as (r & x' & -> & Hl & Hr). cbn [obind].
  destruct r as [[|c s]|]; [exact Hl| |exact I].
  pose proof (read_fields_any (fuel x) (c :: s) [] x' (proj1 Hl)) as H. pose proof (later_len _ _ Hl).
  assert (H1 : (length (stream x') < fuel x)%nat) by (unfold fuel, stream in *; rewrite !app_length in *; lia).
  specialize (H H1). destruct (read_fields getl (fuel x) _ _ x') as [[h' x2]| | |]; cbn in *; auto. now apply (later_trans x x').
Qed.
Lemma sized_any ops : forall b x, okst x -> fine (run_body (sized_step rc) ops (b, x)) (fun r => okst (snd (snd r))).
Proof.
  induction ops as [|o ops IH]; intros b x Hx; [exact Hx|]. cbn [run_body].
  apply (fine_bind _ _ (fun r => okst (snd (snd r)))).
  - unfold sized_step. destruct (z_buf b =? -1).
    + destruct (negb (z_sock b)); [exact Hx|]. destruct (getc_any x Hx) as (c & x' & -> & Hl & _). exact Hl.
    + exact Hx.
  - intros [r [b' x']] H. cbn in H. eapply fine_bind; [apply (IH b' x' H)|]. intros [rs [b2 x2]] H2. exact H2.
Qed.
Lemma hexdigits_nonneg l : forall a, 0 <= a -> 0 <= hexdigits a l.
Proof.
  induction l as [|c l IH]; intros a Ha; cbn [hexdigits]; [auto|]. destruct (hexval c) as [d|] eqn:E; [|auto]. apply IH.
  unfold hexval in E. repeat (match goal with H : context [if ?b then _ else _] |- _ => destruct b eqn:? end); try discriminate; injection E as <-; lia.
Qed.
Lemma scan_hex_nonneg line : ~ In 45 line -> 0 <= scan_hex line.
Proof.
  intros Hn. unfold scan_hex. assert (Hl : ~ In 45 (ltrim line)).
  { clear -Hn. induction line as [|c l IH]; [exact Hn|]. cbn. destruct (isspace c); [|exact Hn]. apply IH. intros H. apply Hn. now right. }
  destruct (ltrim line) as [|c r]; [lia|]. destruct (c =? 45) eqn:E; [elim Hl; left; lia|].
  match goal with |- 0 <= clamp ?e => assert (0 <= e) by (apply hexdigits_nonneg; lia) end. unfold clamp. lia.
Qed.
Lemma skip_trailer_any f : forall x, okst x -> (length (stream x) < f)%nat -> fine (skip_trailer rc f x) (later x).
Proof.
  induction f as [|f IH]; intros x Hx Hf; [lia|]. cbn [skip_trailer].
  destruct (getline_any line_limit x Hx) as (r & x' & -> & Hl & Hr). cbn [obind].
  destruct r as [[|c s]|]; [exact Hl| |exact Hl]. destruct Hr as [Hr _]. specialize (Hr ltac:(discriminate)).
  pose proof (IH x' (proj1 Hl) ltac:(lia)) as H. destruct (skip_trailer rc f x'); cbn in *; auto. now apply (later_trans x x').
Qed.
Lemma footer_any x : okst x -> fine (footer rc x) (later x).
Proof.
  intros Hx. unfold footer. destruct (getc_any x Hx) as (c & x1 & -> & H1). destruct (c =? 13).
  - destruct (getc_any x1 (proj1 H1)) as (c2 & x2 & -> & H2). destruct (c2 =? 10); [|exact I]. now apply (later_trans x x1).
  - destruct (c =? 10); [exact H1|exact I].
Qed.
Definition csafe (b : chunked) (x : st) : Prop := okst x /\ 0 <= chunk_rest b /\ ~ In 45 (stream x).
Lemma csafe_off x x' : csafe chunked_off x -> later x x' -> csafe chunked_off x'.
Proof. intros (_ & H & Hn) Hl. split; [apply Hl|]. split; [exact H|]. intros H3. apply Hn. eapply later_in; eauto. Qed.
Lemma fill_any b x : csafe b x -> fine (fill rc b x) (fun r => csafe (fst r) (snd r)).
Proof.
  intros (Hx & Hc & Hn). unfold fill. destruct (negb (has_sock b)); [split; auto|].
  apply (fine_bind _ _ (fun r => csafe (fst r) (snd r))).
  - destruct (chunk_rest b =? 0); [|split; auto]. unfold read_chunk_size.
    destruct (getline_any line_limit x Hx) as (r & x' & -> & Hl & Hr). cbn [obind].
    assert (Hn' : ~ In 45 (stream x')) by (intros H; apply Hn; eapply later_in; eauto).
    destruct r as [line|]; cbn; (split; [apply Hl|]); (split; [|exact Hn']); cbn; [|lia].
    apply scan_hex_nonneg. intros H. apply Hn. now apply Hr.
  - intros [b1 x1] (Hx1 & Hc1 & Hn1). cbn [fst snd] in *.
    assert (Hlat : forall x', later x1 x' -> ~ In 45 (stream x')) by (intros x' Hl H; apply Hn1; eapply later_in; eauto).
    destruct (chunk_rest b1 =? 0).
    + apply (fine_bind _ _ (later x1)).
      * destruct (has_sock b1); [|now apply later_refl]. apply skip_trailer_any; [auto|]. unfold fuel, stream. rewrite app_length. lia.
      * intros x2 Hl. cbn. split; [apply Hl|]. split; [cbn; lia|auto].
    + unfold read_int. destruct (Z.min (chunk_rest b1) body_buf_size <? 0) eqn:E; [unfold body_buf_size in E; lia|].
      destruct (read_any (Z.to_nat (Z.min (chunk_rest b1) body_buf_size)) x1 Hx1) as (d & x2 & -> & Hl). cbn [obind].
      destruct (negb _); [cbn; split; [apply Hl|]; split; [cbn; lia|auto]|].
      apply (fine_bind _ _ (later x1)).
      * destruct (_ =? 0); [|exact Hl]. pose proof (footer_any x2 (proj1 Hl)) as H. destruct (footer rc x2); cbn in *; auto.
        now apply (later_trans x1 x2).
      * intros x3 Hl3. cbn. split; [apply Hl3|]. split; [cbn; lia|auto].
Qed.
Lemma chunked_any ops : forall b x, csafe b x -> fine (run_body (chunked_step rc) ops (b, x)) (fun r => okst (snd (snd r))).
Proof.
  induction ops as [|o ops IH]; intros b x Hx; [apply Hx|]. cbn [run_body].
  apply (fine_bind _ _ (fun r => csafe (fst (snd r)) (snd (snd r)))).
  - unfold chunked_step. apply (fine_bind _ _ (fun r => csafe (fst r) (snd r))).
    + destruct (cbuf b); [now apply fill_any|exact Hx].
    + intros [b' x'] H. cbn [fst snd] in H. destruct (cbuf b'); [exact H|]. destruct o; [exact H|]. exact H.
  - intros [r [b' x']] H. cbn [fst snd] in H. eapply fine_bind; [apply (IH b' x' H)|]. intros [rs [b2 x2]] H2. exact H2.
Qed.
End Total.

(** * A socket after any calls *)
Lemma reached_ok rc sc cs inb n rs x : bytes inb -> run rc sc cs (fresh inb n) = Ok (rs, x) -> okst x.
Proof.
  intros Hb Hr. destruct (run_spec rc sc cs _ (okst_fresh inb n Hb)) as (rs1 & x1 & ds & E1 & E2 & _).
  rewrite Hr in E1. injection E1 as <- <-. auto.
Qed.
Lemma reached_alive rc sc cs inb n rs x : bytes inb -> (forall i, 0 < rc i) -> (forall i, 0 < sc i) ->
  run rc sc cs (fresh inb n) = Ok (rs, x) -> alive x.
Proof.
  intros Hb H1 H2 Hr. split; [eapply reached_ok; eauto|].
  destruct (stays rc sc cs inb n Hb H1 H2) as (rs1 & x1 & E1 & E2). rewrite Hr in E1. injection E1 as <- <-. exact E2.
Qed.

Lemma wire_trip rc sc cs inb n rs x h s : bytes inb -> (forall i, 0 < rc i) -> (forall i, 0 < sc i) ->
  run rc sc cs (fresh inb n) = Ok (rs, x) -> rb (fst x) ++ kin (snd x) = wire h ++ s ->
  Forall field_ok h -> NoDup (map (fun g => lower (fst g)) h) ->
  exists x', header_from rc x = Ok (h, x') /\ rb (fst x') ++ kin (snd x') = s.
Proof.
  intros Hb H1 H2 Hr Hs Hf Hn. destruct (header_from_wire rc H1 h x s Hf Hn (reached_alive rc sc cs inb n rs x Hb H1 H2 Hr) Hs) as (x' & E1 & _ & E3).
  exists x'. auto.
Qed.
Lemma send_trip rc sc cs inb n rs x h : bytes inb -> (forall i, 0 < sc i) ->
  run rc sc cs (fresh inb n) = Ok (rs, x) -> conn (fst x) = true ->
  exists x1 x2, send_header sc h x = Ok x1 /\ flush sc x1 = Ok (-1, x2) /\
  kout (snd x2) = kout (snd x) ++ wb (fst x) ++ wire h.
Proof.
  intros Hb H2 Hr Hc. destruct (send_header_live sc H2 h x (reached_ok rc sc cs inb n rs x Hb Hr) Hc) as (x1 & E1 & E2 & E3 & E4 & E5).
  destruct (flush_live sc H2 x1 E2 E3) as (x2 & F1 & F2 & F3 & F4 & _). exists x1, x2. split; [auto|]. split; [auto|].
  rewrite F4, E5. unfold wout. now rewrite app_assoc.
Qed.
Lemma chunked_trip rc sc cs inb n rs x body t s ops : bytes inb -> (forall i, 0 < rc i) -> (forall i, 0 < sc i) ->
  run rc sc cs (fresh inb n) = Ok (rs, x) -> rb (fst x) ++ kin (snd x) = t ++ s ->
  chunked_body body t -> Forall (fun c => c <> 255) body ->
  exists res b' x', run_body (chunked_step rc) ops (chunked_init, x) = Ok (res, (b', x')) /\
  map delivered res = reads ops body /\ (In None (reads ops body) -> rb (fst x') ++ kin (snd x') = s).
Proof.
  intros Hb H1 H2 Hr Hs Hc Hf. pose proof (reached_alive rc sc cs inb n rs x Hb H1 H2 Hr) as Ha.
  apply (chunked_stream rc H1 body t ops x s Ha Hc); [|exact Hs].
  assert (Ht : bytes t) by (pose proof (stream_bytes x Ha) as H; unfold stream in H; rewrite Hs in H; now apply Forall_app in H).
  clear -Hc Ht Hf. induction Hc as [l tr H1 H2|d c b t H1 H2 IH].
  - constructor.
  - apply Forall_app in Ht, Hf. apply Forall_app. split; [|apply IH; tauto].
    destruct H1. destruct Ht as [Ht _]. apply Forall_app in Ht. destruct Ht as [_ Ht]. apply Forall_app in Ht.
    destruct Ht as [Ht _], Hf as [Hf _]. clear -Ht Hf. induction d; [constructor|]. inversion Ht; inversion Hf; subst. constructor; auto.
Qed.
Lemma sized_trip rc sc cs inb k rs x n ops : bytes inb -> (forall i, 0 < rc i) -> (forall i, 0 < sc i) ->
  run rc sc cs (fresh inb k) = Ok (rs, x) -> 0 < n ->
  exists res b' x', run_body (sized_step rc) ops (sized_init n, x) = Ok (res, (b', x')) /\
  map delivered res = reads ops (firstn (Z.to_nat n) (rb (fst x) ++ kin (snd x))) /\
  (exists t, rb (fst x') ++ kin (snd x') = t ++ skipn (Z.to_nat n) (rb (fst x) ++ kin (snd x))) /\
  (unread ops (firstn (Z.to_nat n) (rb (fst x) ++ kin (snd x))) = [] ->
   rb (fst x') ++ kin (snd x') = skipn (Z.to_nat n) (rb (fst x) ++ kin (snd x))).
Proof.
  intros Hb H1 H2 Hr Hn. exact (sized_body rc H1 n ops x Hn (reached_alive rc sc cs inb k rs x Hb H1 H2 Hr)).
Qed.
Lemma readers_any rc sc cs inb k rs x n ops : bytes inb -> run rc sc cs (fresh inb k) = Ok (rs, x) ->
  (exists r, header_from rc x = Ok r \/ header_from rc x = Throw) /\
  (exists r, run_body (sized_step rc) ops (sized_init n, x) = Ok r \/ run_body (sized_step rc) ops (sized_init n, x) = Throw) /\
  (~ In 45 inb -> exists r, run_body (chunked_step rc) ops (chunked_init, x) = Ok r \/ run_body (chunked_step rc) ops (chunked_init, x) = Throw).
Proof.
  intros Hb Hr. pose proof (reached_ok rc sc cs inb k rs x Hb Hr) as Hx.
  assert (Hfine : forall A (a : A) (o : outcome A) P, fine o P -> exists r, o = Ok r \/ o = Throw).
  { intros A a o P H. destruct o as [r| | |]; try contradiction; [exists r|exists a]; auto. }
  split; [exact (Hfine _ ([], x) _ _ (header_any rc x Hx))|]. split; [exact (Hfine _ ([], (sized_init n, x)) _ _ (sized_any rc ops (sized_init n) x Hx))|].
  intros Hn. apply (Hfine _ ([], (chunked_init, x)) _ _ (chunked_any rc ops chunked_init x ltac:(split; [auto|split; [cbn; lia|]];
    destruct (received_fresh rc sc cs inb k Hb) as (rs1 & x1 & ds & E1 & _ & E2); rewrite Hr in E1; injection E1 as <- <-;
    intros H; apply Hn; rewrite E2; apply in_or_app; right; exact H))).
Qed.
