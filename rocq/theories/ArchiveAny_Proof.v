(** Reading any bytes gives a value of the type. *)
From Verif Require Import Common Archive_Model Archive_Spec Archive_Proof ArchiveAny_Spec.
Local Open Scope Z_scope.

(** *** The comparison of values of one type is a strict total order *)
Definition good (P : val -> Prop) : Prop :=
  (forall a b, P a -> P b -> vcmp a b = Eq -> a = b) /\
  (forall a b c, P a -> P b -> P c -> vcmp a b = Lt -> vcmp b c = Lt -> vcmp a c = Lt) /\
  (forall a b, P a -> P b -> vcmp b a = CompOpp (vcmp a b)).

Lemma good_sub (P Q : val -> Prop) : (forall v, P v -> Q v) -> good Q -> good P.
Proof. intros H (E & T & O). split; [|split]; intros; [apply E|apply (T a b c)|apply O]; auto. Qed.

Lemma bytes_cmp_eq : forall a b, bytes_cmp a b = Eq -> a = b.
Proof.
  induction a as [|x a IH]; intros [|y b]; cbn [bytes_cmp]; try discriminate; [reflexivity|].
  destruct (Z.compare_spec x y) as [->| |]; try discriminate. intros H. now rewrite (IH b H).
Qed.
Lemma bytes_cmp_trans : forall a b c, bytes_cmp a b = Lt -> bytes_cmp b c = Lt -> bytes_cmp a c = Lt.
Proof.
  induction a as [|x a IH]; intros [|y b] [|z c]; cbn [bytes_cmp]; try discriminate; auto.
  destruct (Z.compare_spec x y) as [->|H1|]; try discriminate; destruct (Z.compare_spec y z) as [->|H2|]; try discriminate; intros A B.
  - now apply (IH b).
  - reflexivity.
  - replace (x ?= z) with Lt by (symmetry; apply Z.compare_lt_iff; lia). reflexivity.
  - replace (x ?= z) with Lt by (symmetry; apply Z.compare_lt_iff; lia). reflexivity.
Qed.
Lemma bytes_cmp_opp : forall a b, bytes_cmp b a = CompOpp (bytes_cmp a b).
Proof.
  induction a as [|x a IH]; intros [|y b]; cbn [bytes_cmp]; try reflexivity.
  rewrite (Z.compare_antisym x y). destruct (x ?= y); cbn [CompOpp]; auto.
Qed.

Definition pair_of (P Q : val -> Prop) (v : val) : Prop := exists x y, v = VP x y /\ P x /\ Q y.
Lemma good_pair P Q : good P -> good Q -> good (pair_of P Q).
Proof.
  intros (E1 & T1 & O1) (E2 & T2 & O2). split; [|split].
  - intros a b (x & y & -> & Hx & Hy) (x' & y' & -> & Hx' & Hy'). cbn [vcmp]. destruct (vcmp x x') eqn:E; try discriminate.
    intros F. f_equal; auto.
  - intros a b c (x & y & -> & Hx & Hy) (x' & y' & -> & Hx' & Hy') (x2 & y2 & -> & Hx2 & Hy2). cbn [vcmp].
    destruct (vcmp x x') eqn:E; try discriminate; destruct (vcmp x' x2) eqn:F; try discriminate; intros A B.
    + apply E1 in E; auto. apply E1 in F; auto. subst x' x2. rewrite (O1 x x) by assumption.
      assert (R : vcmp x x = Eq). { pose proof (O1 x x Hx Hx) as K. destruct (vcmp x x); cbn in K; congruence. }
      rewrite R. cbn [CompOpp]. now apply (T2 y y').
    + apply E1 in E; auto. subst x'. now rewrite F.
    + apply E1 in F; auto. subst x'. now rewrite E.
    + now rewrite (T1 x x' x2).
  - intros a b (x & y & -> & Hx & Hy) (x' & y' & -> & Hx' & Hy'). cbn [vcmp]. rewrite (O1 x x') by assumption.
    destruct (vcmp x x'); cbn [CompOpp]; auto.
Qed.

Definition list_of (P : val -> Prop) (v : val) : Prop := exists l, v = VL l /\ Forall P l.
Lemma vcmp_cons a x b y : vcmp (VL (a :: x)) (VL (b :: y)) = match vcmp a b with Eq => vcmp (VL x) (VL y) | c => c end.
Proof. reflexivity. Qed.
Lemma good_list P : good P -> good (list_of P).
Proof.
  intros (E1 & T1 & O1). split; [|split].
  - intros a b (l & -> & Hl) (m & -> & Hm). revert m Hm. induction Hl as [|x l Hx Hl IH]; intros [|y m] Hm; try discriminate; [reflexivity|].
    inversion Hm; subst. rewrite vcmp_cons. destruct (vcmp x y) eqn:E; try discriminate. intros F. apply IH in F; [|assumption].
    apply E1 in E; auto. congruence.
  - intros a b c (l & -> & Hl) (m & -> & Hm) (n & -> & Hn). revert m n Hm Hn.
    induction Hl as [|x l Hx Hl IH]; intros [|y m] [|z n] Hm Hn; try discriminate; try reflexivity.
    inversion Hm; inversion Hn; subst. rewrite !vcmp_cons.
    destruct (vcmp x y) eqn:E; try discriminate; destruct (vcmp y z) eqn:F; try discriminate; intros A B.
    + apply E1 in E; auto. apply E1 in F; auto. subst y z.
      assert (R : vcmp x x = Eq). { pose proof (O1 x x Hx Hx) as K. destruct (vcmp x x); cbn in K; congruence. }
      rewrite R. now apply (IH m).
    + apply E1 in E; auto. subst y. now rewrite F.
    + apply E1 in F; auto. subst y. now rewrite E.
    + now rewrite (T1 x y z).
  - intros a b (l & -> & Hl) (m & -> & Hm). revert m Hm. induction Hl as [|x l Hx Hl IH]; intros [|y m] Hm; try reflexivity.
    inversion Hm; subst. rewrite !vcmp_cons, (O1 x y) by assumption. destruct (vcmp x y); cbn [CompOpp]; auto.
Qed.

Lemma map_pairs (P Q : val -> Prop) (l : list (val * val)) : Forall (fun p => P (fst p) /\ Q (snd p)) l ->
  Forall (pair_of P Q) (map (fun p => VP (fst p) (snd p)) l).
Proof. intros H. apply Forall_map. eapply Forall_impl; [|exact H]. intros [x y] [Hx Hy]. now exists x, y. Qed.

Lemma has_type_good t : good (has_type t).
Proof.
  induction t as [|n sg| |t IH|n t IH|a IHa b IHb|t IH|a IHa b IHb|t IH|a IHa b IHb].
  - split; [|split].
    + intros ? ? ([|] & ->) ([|] & ->); cbn; congruence.
    + intros ? ? ? ([|] & ->) ([|] & ->) ([|] & ->); cbn; congruence.
    + intros ? ? ([|] & ->) ([|] & ->); reflexivity.
  - split; [|split].
    + intros ? ? (_ & x & -> & _) (_ & y & -> & _). cbn [vcmp]. intros H. apply Z.compare_eq in H. congruence.
    + intros ? ? ? (_ & x & -> & _) (_ & y & -> & _) (_ & z & -> & _). cbn [vcmp]. rewrite !Z.compare_lt_iff. lia.
    + intros ? ? (_ & x & -> & _) (_ & y & -> & _). cbn [vcmp]. apply Z.compare_antisym.
  - split; [|split].
    + intros ? ? (x & -> & _) (y & -> & _). cbn [vcmp]. intros H. apply bytes_cmp_eq in H. congruence.
    + intros ? ? ? (x & -> & _) (y & -> & _) (z & -> & _). cbn [vcmp]. apply bytes_cmp_trans.
    + intros ? ? (x & -> & _) (y & -> & _). cbn [vcmp]. apply bytes_cmp_opp.
  - eapply good_sub; [|exact (good_list _ IH)]. intros v (l & -> & _ & H). now exists l.
  - eapply good_sub; [|exact (good_list _ IH)]. intros v (l & -> & _ & H). now exists l.
  - eapply good_sub; [|exact (good_pair _ _ IHa IHb)]. intros v H. exact H.
  - eapply good_sub; [|exact (good_list _ IH)]. intros v (l & -> & _ & H & _). now exists l.
  - eapply good_sub; [|exact (good_list _ (good_pair _ _ IHa IHb))]. intros v (l & -> & _ & H & _). eexists. split; [reflexivity|]. now apply map_pairs.
  - eapply good_sub; [|exact (good_list _ IH)]. intros v (l & -> & _ & H & _). now exists l.
  - eapply good_sub; [|exact (good_list _ (good_pair _ _ IHa IHb))]. intros v (l & -> & _ & H & _). eexists. split; [reflexivity|]. now apply map_pairs.
Qed.

(** *** It is operator< *)
Definition tells (P : val -> Prop) : Prop := forall a b, P a -> P b -> vcmp a b = Lt <-> less a b.
Lemma good_refl P a : good P -> P a -> vcmp a a = Eq.
Proof. intros (_ & _ & O) H. pose proof (O a a H H) as K. destruct (vcmp a a); cbn in K; congruence. Qed.
Lemma tells_sub (P Q : val -> Prop) : (forall v, P v -> Q v) -> tells Q -> tells P.
Proof. intros H T a b Ha Hb. apply T; auto. Qed.
Lemma bytes_cmp_less : forall a b, bytes_cmp a b = Lt <-> less (VS a) (VS b).
Proof.
  assert (R : forall p s t, bytes_cmp (p ++ s) (p ++ t) = bytes_cmp s t).
  { induction p as [|x p IH]; intros s t; [reflexivity|]. cbn [app bytes_cmp]. rewrite Z.compare_refl. apply IH. }
  intros a b. split.
  - revert b. induction a as [|x a IH]; intros [|y b]; cbn [bytes_cmp]; try discriminate.
    + intros _. exact (less_str_end [] y b).
    + destruct (Z.compare_spec x y) as [->|H|]; try discriminate.
      * intros H. apply IH in H. inversion H as [|?|p c s d t L|s d t| | | |]; subst; [exact (less_str (y :: p) c s d t L)|exact (less_str_end (y :: a) d t)].
      * intros _. exact (less_str [] x a y b H).
  - intros H. inversion H as [|?|p c s d t L|s d t| | | |]; subst.
    + rewrite R. cbn [bytes_cmp]. now replace (c ?= d) with Lt by (symmetry; now apply Z.compare_lt_iff).
    + rewrite <- (app_nil_r a) at 1. rewrite R. reflexivity.
Qed.
Lemma tells_pair P Q : good P -> tells P -> tells Q -> tells (pair_of P Q).
Proof.
  intros G TP TQ a b (x & y & -> & Hx & Hy) (x' & y' & -> & Hx' & Hy'). cbn [vcmp]. split.
  - destruct (vcmp x x') eqn:E; try discriminate.
    + destruct G as (GE & _). apply GE in E; auto. subst x'. intros H. apply less_second. now apply TQ.
    + intros _. apply less_first. now apply TP.
  - intros H. inversion H; subst.
    + match goal with L : less x x' |- _ => apply TP in L; auto; now rewrite L end.
    + rewrite (good_refl P x') by assumption. now apply TQ.
Qed.
Lemma tells_list P : good P -> tells P -> tells (list_of P).
Proof.
  intros G TP a b (l & -> & Hl) (m & -> & Hm). split.
  - revert m Hm. induction Hl as [|x l Hx Hl IH]; intros [|y m] Hm; try discriminate.
    + intros _. exact (less_list_end [] y m).
    + inversion Hm; subst. rewrite vcmp_cons. destruct (vcmp x y) eqn:E; try discriminate.
      * destruct G as (GE & _). apply GE in E; auto. subst y. intros H. apply IH in H; [|assumption].
        inversion H as [| | | |p c s d t L|s d t| |]; subst; [exact (less_list (x :: p) c s d t L)|exact (less_list_end (x :: l) d t)].
      * intros _. apply (less_list [] x l y m). now apply TP.
  - assert (R : forall p s t, Forall P p -> vcmp (VL (p ++ s)) (VL (p ++ t)) = vcmp (VL s) (VL t)).
    { induction p as [|x p IH]; intros s t F; [reflexivity|]. inversion F; subst. cbn [app]. rewrite vcmp_cons, (good_refl P x) by assumption. now apply IH. }
    intros H. inversion H as [| | | |p c s d t L|s d t| |]; subst.
    + apply Forall_app in Hl as [Hp Hc], Hm as [_ Hd]. inversion Hc; inversion Hd; subst. rewrite R by assumption. rewrite vcmp_cons.
      apply TP in L; auto. now rewrite L.
    + rewrite <- (app_nil_r l) at 1. rewrite R by assumption. reflexivity.
Qed.
Lemma has_type_tells t : tells (has_type t).
Proof.
  induction t as [|n sg| |t IH|n t IH|a IHa b IHb|t IH|a IHa b IHb|t IH|a IHa b IHb]; try (pose proof (has_type_good t) as G); try (pose proof (has_type_good a) as Ga; pose proof (has_type_good b) as Gb).
  - intros ? ? ([|] & ->) ([|] & ->); cbn; split; intros H; try discriminate; try constructor; inversion H.
  - intros ? ? (_ & x & -> & _) (_ & y & -> & _). cbn [vcmp]. rewrite Z.compare_lt_iff. split; [apply less_num|]. intros H. now inversion H.
  - intros ? ? (x & -> & _) (y & -> & _). cbn [vcmp]. apply bytes_cmp_less.
  - eapply tells_sub; [|exact (tells_list _ G IH)]. intros v (l & -> & _ & H). now exists l.
  - eapply tells_sub; [|exact (tells_list _ G IH)]. intros v (l & -> & _ & H). now exists l.
  - eapply tells_sub; [|exact (tells_pair _ _ Ga IHa IHb)]. intros v H. exact H.
  - eapply tells_sub; [|exact (tells_list _ G IH)]. intros v (l & -> & _ & H & _). now exists l.
  - eapply tells_sub; [|exact (tells_list _ (good_pair _ _ Ga Gb) (tells_pair _ _ Ga IHa IHb))]. intros v (l & -> & _ & H & _). eexists. split; [reflexivity|]. now apply map_pairs.
  - eapply tells_sub; [|exact (tells_list _ G IH)]. intros v (l & -> & _ & H & _). now exists l.
  - eapply tells_sub; [|exact (tells_list _ (good_pair _ _ Ga Gb) (tells_pair _ _ Ga IHa IHb))]. intros v (l & -> & _ & H & _). eexists. split; [reflexivity|]. now apply map_pairs.
Qed.
Lemma pairs_on (P : val -> Prop) (R S : val -> val -> Prop) l : (forall a b, P a -> P b -> R a b -> S a b) -> Forall P l -> ForallOrdPairs R l -> ForallOrdPairs S l.
Proof.
  intros H F O. induction O as [|a l Ha O IH]; [constructor|]. inversion F as [|? ? Pa F']; subst. constructor; [|auto].
  rewrite Forall_forall in *. intros b Hb. apply H; auto.
Qed.
Lemma ascending_less t l : Forall (has_type t) l -> ascending l <-> ForallOrdPairs less l.
Proof. intros F. split; apply (pairs_on (has_type t)); auto; intros a b Ha Hb; now apply (has_type_tells t a b Ha Hb). Qed.
Lemma distinct_nodup t l : Forall (has_type t) l -> distinct l <-> NoDup l.
Proof.
  intros F. unfold distinct. split.
  - intros D. induction D as [|a l Ha D IH]; [constructor|]. inversion F as [|? ? Pa F']; subst. constructor; [|auto]. intros I.
    rewrite Forall_forall in Ha. apply (Ha a I). exact (good_refl _ a (has_type_good t) Pa).
  - intros N. induction N as [|a l Ha N IH]; [constructor|]. inversion F as [|? ? Pa F']; subst. constructor; [|auto]. rewrite Forall_forall in *.
    intros b Hb E. destruct (has_type_good t) as (GE & _). apply GE in E; auto. subst b. contradiction.
Qed.

(** *** Insertion keeps the keys ascending or distinct *)
Definition ups (key : val -> val) (l : list val) : Prop := ForallOrdPairs (fun a b => vcmp (key a) (key b) = Lt) l.
Definition difs (key : val -> val) (l : list val) : Prop := ForallOrdPairs (fun a b => vcmp (key a) (key b) <> Eq) l.
(** What an insertion has to do. *)
Definition keeps (P : val -> Prop) (R : list val -> Prop) (ins : val -> list val -> list val) : Prop :=
  forall x l, P x -> Forall P l -> R l -> Forall P (ins x l) /\ R (ins x l) /\ (length (ins x l) <= S (length l))%nat.

Lemma insert_ord_in key x l y : In y (insert_ord key x l) -> y = x \/ In y l.
Proof.
  induction l as [|z l IH]; cbn [insert_ord]; [intros [->|[]]; auto|].
  destruct (vcmp (key z) (key x)); cbn [In]; intros H; intuition.
Qed.
Lemma insert_ord_keeps (key : val -> val) (P K : val -> Prop) : (forall v, P v -> K (key v)) -> good K -> keeps P (ups key) (insert_ord key).
Proof.
  intros HK (E & T & O) x l Hx. induction l as [|y l IH]; intros Hl Hu.
  - cbn. split; [auto|]. split; [repeat constructor|lia].
  - inversion Hl as [|? ? Hy Hl']; subst. inversion Hu as [|? ? Hy' Hu']; subst. cbn [insert_ord].
    destruct (vcmp (key y) (key x)) eqn:C.
    + split; [exact Hl|]. split; [exact Hu|lia].
    + destruct (IH Hl' Hu') as (A & B & L). split; [now constructor|]. split; [|cbn [length]; lia]. constructor; [|exact B].
      apply Forall_forall. intros z Hz. apply insert_ord_in in Hz as [->|Hz]; [exact C|]. rewrite Forall_forall in Hy'. now apply Hy'.
    + assert (X : vcmp (key x) (key y) = Lt) by (rewrite (O (key y) (key x)), C; auto).
      split; [now constructor|]. split; [|cbn [length]; lia]. constructor; [|exact Hu]. constructor; [exact X|].
      apply Forall_forall. intros z Hz. rewrite Forall_forall in Hy', Hl'. apply (T _ (key y)); auto.
Qed.
Lemma insert_hash_keeps (key : val -> val) (P : val -> Prop) : keeps P (difs key) (insert_hash key).
Proof.
  intros x l Hx Hl Hd. unfold insert_hash. destruct (existsb _ l) eqn:E; [split; [exact Hl|split; [exact Hd|lia]]|].
  split; [apply Forall_app; auto|]. split; [|rewrite app_length; cbn; lia].
  assert (N : Forall (fun y => vcmp (key y) (key x) <> Eq) l).
  { apply Forall_forall. intros y Hy C. assert (T : existsb (fun y => match vcmp (key y) (key x) with Eq => true | _ => false end) l = true); [|congruence].
    apply existsb_exists. exists y. now rewrite C. }
  clear E Hl. unfold difs in *. induction Hd as [|y l Hy Hd IH]; [repeat constructor|]. inversion N; subst. cbn [app]. constructor; [|auto].
  apply Forall_app. split; [exact Hy|]. constructor; auto.
Qed.

(** *** Reading *)
Definition reads (rd : val -> st -> outcome (val * st)) (P : val -> Prop) : Prop :=
  forall old s, P old -> bytes (fst s) -> exists v s', rd old s = Ok (v, s') /\ P v /\ bytes (fst s').

Lemma firstn_bytes n l : bytes l -> bytes (firstn n l).
Proof. intros H. rewrite <- (firstn_skipn n l) in H. now apply Forall_app in H. Qed.
Lemma skipn_bytes n l : bytes l -> bytes (skipn n l).
Proof. intros H. rewrite <- (firstn_skipn n l) in H. now apply Forall_app in H. Qed.
Lemma sread_any n s : bytes (fst s) -> exists o s', sread n s = (o, s') /\ bytes (fst s') /\ forall b, o = Some b -> bytes b /\ length b = n.
Proof.
  destruct s as [inp g]. cbn [fst]. intros H. unfold sread. destruct g; [|exists None, (inp, false); split; [reflexivity|]; split; [exact H|discriminate]].
  destruct (Nat.leb_spec n (length inp)).
  - eexists _, _. split; [reflexivity|]. split; [now apply skipn_bytes|]. intros b E. injection E as <-. split; [now apply firstn_bytes|]. apply firstn_length_le. assumption.
  - eexists None, _. split; [reflexivity|]. split; [constructor|discriminate].
Qed.
Lemma le_num_range b : bytes b -> 0 <= le_num b < 2 ^ (8 * Z.of_nat (length b)).
Proof.
  induction 1 as [|c b Hc Hb IH]; cbn [le_num length]; [cbn; lia|]. unfold is_byte in Hc.
  replace (8 * Z.of_nat (S (length b))) with (8 + 8 * Z.of_nat (length b)) by lia. rewrite Z.pow_add_r by lia. change (2 ^ 8) with 256. nia.
Qed.
Lemma read_num_any n sg : n <> O -> reads (read_num n sg) (has_type (TNum n sg)).
Proof.
  intros Hn old s Ho Hb. unfold read_num. destruct (sread_any n s Hb) as (o & s' & -> & Hs & H). destruct o as [b|].
  - destruct (H b eq_refl) as (Bb & Lb). eexists _, s'. split; [reflexivity|]. split; [|exact Hs]. split; [lia|]. eexists. split; [reflexivity|].
    pose proof (le_num_range b Bb) as R. rewrite Lb in R. unfold in_range. set (k := 8 * Z.of_nat n) in *.
    assert (P : 2 ^ k = 2 * 2 ^ (k - 1)) by (rewrite <- (Z.pow_succ_r 2 (k - 1)) by lia; f_equal; lia).
    destruct sg; cbn [andb]; [|exact R]. destruct (Z.leb_spec (2 ^ (k - 1)) (le_num b)); lia.
  - exists old, s'. auto.
Qed.
Lemma read_size_any old s : 0 <= old < 2 ^ 32 -> bytes (fst s) -> exists z s', read_size old s = (z, s') /\ 0 <= z < 2 ^ 32 /\ bytes (fst s').
Proof.
  intros Ho Hb. unfold read_size. destruct (sread_any 4 s Hb) as (o & s' & -> & Hs & H). destruct o as [b|]; [|exists old, s'; auto].
  destruct (H b eq_refl) as (Bb & Lb). exists (le_num b), s'. split; [reflexivity|]. split; [|exact Hs]. pose proof (le_num_range b Bb) as R. rewrite Lb in R. exact R.
Qed.
Lemma u32_range n : 0 <= u32 n < 2 ^ 32.
Proof. unfold u32. apply Z.mod_pos_bound. lia. Qed.
Lemma read_chars_any : forall olds s, bytes olds -> bytes (fst s) ->
  exists cs s', read_chars olds s = (cs, s') /\ bytes cs /\ length cs = length olds /\ bytes (fst s').
Proof.
  induction olds as [|o olds IH]; intros s Ho Hs; cbn [read_chars]; [exists [], s; auto|]. inversion Ho as [|? ? Hc Ho']; subst.
  unfold read_char. destruct (sread_any 1 s Hs) as (v & s1 & E & Hs1 & H). rewrite E.
  destruct v as [b|].
  - destruct (H b eq_refl) as (Bb & Lb). destruct (IH s1 Ho' Hs1) as (cs & s2 & -> & A & B & C).
    exists (le_num b :: cs), s2. split; [reflexivity|]. split; [|cbn [length]; split; [lia|exact C]]. constructor; [|exact A].
    pose proof (le_num_range b Bb) as R. rewrite Lb in R. exact R.
  - destruct (IH s1 Ho' Hs1) as (cs & s2 & -> & A & B & C). exists (o :: cs), s2. split; [reflexivity|]. split; [now constructor|cbn [length]; split; [lia|exact C]].
Qed.
Lemma read_each_any rd P : reads rd P -> forall olds s, Forall P olds -> bytes (fst s) ->
  exists vs s', read_each rd olds s = Ok (vs, s') /\ Forall P vs /\ length vs = length olds /\ bytes (fst s').
Proof.
  intros R. induction olds as [|o olds IH]; intros s Ho Hs; cbn [read_each]; [exists [], s; auto|]. inversion Ho as [|? ? Hc Ho']; subst.
  destruct (R o s Hc Hs) as (v & s1 & -> & Hv & Hs1). cbn [obind]. destruct (IH s1 Ho' Hs1) as (vs & s2 & -> & A & B & C). cbn [obind].
  exists (v :: vs), s2. split; [reflexivity|]. split; [now constructor|]. cbn [length]. split; [lia|exact C].
Qed.
Lemma read_insert_any rd (P : val -> Prop) (R : list val -> Prop) ins start : reads rd P -> P start -> (forall v, P v -> v <> VUndef) -> keeps P R ins ->
  forall n acc s, Forall P acc -> R acc -> bytes (fst s) ->
  exists l s', read_insert n rd start ins acc s = Ok (l, s') /\ Forall P l /\ R l /\ (length l <= length acc + n)%nat /\ bytes (fst s').
Proof.
  intros Hr Hst Hu Hk. induction n as [|n IH]; intros acc s Ha HR Hs; cbn [read_insert]; [exists acc, s; split; [reflexivity|]; split; [exact Ha|split; [exact HR|split; [lia|exact Hs]]]|].
  destruct (Hr start s Hst Hs) as (v & s1 & -> & Hv & Hs1). cbn [obind]. destruct (Hk v acc Hv Ha HR) as (A & B & L).
  destruct (IH (ins v acc) s1 A B Hs1) as (l & s2 & E & C & D & L' & F). exists l, s2. split; [|split; [exact C|split; [exact D|split; [lia|exact F]]]].
  destruct v; try exact E. now destruct (Hu VUndef Hv).
Qed.
Lemma read_pair_any ra rb a b : reads ra (has_type a) -> reads rb (has_type b) -> reads (read_pair ra (dflt a) rb (dflt b)) (pair_of (has_type a) (has_type b)).
Proof.
  intros Ha Hb old s (x & y & -> & Hx & Hy) Hs. unfold read_pair. destruct (Ha x s Hx Hs) as (x' & s1 & -> & Hx' & Hs1). cbn [obind].
  destruct (Hb y s1 Hy Hs1) as (y' & s2 & -> & Hy' & Hs2). cbn [obind]. exists (VP x' y'), s2. split; [reflexivity|]. split; [|exact Hs2]. now exists x', y'.
Qed.

Lemma pairs_map_conv {A B} (R : B -> B -> Prop) (f : A -> B) l : ForallOrdPairs (fun a b => R (f a) (f b)) l -> ForallOrdPairs R (map f l).
Proof. induction 1 as [|x l Hx H IH]; cbn; constructor; auto. now apply Forall_map. Qed.
Lemma pair_list P Q l : Forall (pair_of P Q) l -> exists m : list (val * val), l = map (fun p => VP (fst p) (snd p)) m /\
  Forall (fun p => P (fst p) /\ Q (snd p)) m /\ map fst m = map vfst l /\ length m = length l.
Proof.
  induction 1 as [|v l (x & y & -> & Hx & Hy) Hl (m & -> & A & B & C)]; [exists []; cbn; auto|].
  exists ((x, y) :: m). cbn [map fst snd length vfst]. split; [reflexivity|]. split; [now constructor|]. split; [now rewrite B|now rewrite C].
Qed.

Lemma dflt_typed t : proper t -> has_type t (dflt t).
Proof.
  induction t as [|n sg| |t IH|n t IH|a IHa b IHb|t IH|a IHa b IHb|t IH|a IHa b IHb]; intros H; cbn [proper] in H.
  - now exists false.
  - split; [lia|]. exists 0. split; [reflexivity|]. unfold in_range. destruct sg.
    + assert (0 < 2 ^ (8 * Z.of_nat n - 1)) by (apply Z.pow_pos_nonneg; lia). lia.
    + assert (0 < 2 ^ (8 * Z.of_nat n)) by (apply Z.pow_pos_nonneg; lia). lia.
  - exists []. split; [reflexivity|]. split; [constructor|unfold small; cbn; lia].
  - exists []. split; [reflexivity|]. split; [unfold small; cbn; lia|constructor].
  - exists (repeat (dflt t) n). split; [reflexivity|]. split; [apply repeat_length|]. apply Forall_forall. intros v Hv. apply repeat_spec in Hv. subst v. auto.
  - destruct H. exists (dflt a), (dflt b). auto.
  - exists []. split; [reflexivity|]. split; [unfold small; cbn; lia|split; constructor].
  - exists []. split; [reflexivity|]. split; [unfold small; cbn; lia|split; constructor].
  - exists []. split; [reflexivity|]. split; [unfold small; cbn; lia|split; constructor].
  - exists []. split; [reflexivity|]. split; [unfold small; cbn; lia|split; constructor].
Qed.

Lemma Forall_firstn_ {A} (P : A -> Prop) n l : Forall P l -> Forall P (firstn n l).
Proof. intros H. rewrite <- (firstn_skipn n l) in H. now apply Forall_app in H. Qed.
Lemma Forall_repeat_ {A} (P : A -> Prop) x n : P x -> Forall P (repeat x n).
Proof. intros H. apply Forall_forall. intros y Hy. apply repeat_spec in Hy. now subst. Qed.

Theorem read_any t : proper t -> no_bool t -> no_arith_set t = true -> reads (read t) (has_type t).
Proof.
  induction t as [|n sg| |t IH|n t IH|a IHa b IHb|t IH|a IHa b IHb|t IH|a IHa b IHb]; intros HP HB HN; cbn [proper no_bool no_arith_set] in HP, HB, HN.
  - contradiction.
  - apply read_num_any. exact HP.
  - intros old s (o & -> & Ho & _) Hs. cbn [read chars]. destruct (read_size_any _ s (u32_range (length o)) Hs) as (z & s1 & -> & Hz & Hs1).
    destruct (read_chars_any (firstn (Z.to_nat z) o ++ repeat 0 (Z.to_nat z - length o)) s1) as (cs & s2 & -> & A & B & C).
    + apply Forall_app. split; [now apply firstn_bytes|]. apply Forall_repeat_. unfold is_byte. lia.
    + exact Hs1.
    + exists (VS cs), s2. split; [reflexivity|]. split; [|exact C]. exists cs. split; [reflexivity|]. split; [exact A|]. unfold small. rewrite B, slots_len2. lia.
  - intros old s (o & -> & _ & Ho) Hs. cbn [read elems]. destruct (read_size_any _ s (u32_range (length o)) Hs) as (z & s1 & -> & Hz & Hs1).
    destruct (read_each_any _ _ (IH HP HB HN) (firstn (Z.to_nat z) o) s1 (Forall_firstn_ _ _ _ Ho) Hs1) as (x & s2 & -> & A & B & C). cbn [obind].
    destruct (read_each_any _ _ (IH HP HB HN) (repeat (dflt t) (Z.to_nat z - length x)) s2 (Forall_repeat_ _ _ _ (dflt_typed t HP)) C) as (y & s3 & -> & A' & B' & C'). cbn [obind].
    exists (VL (x ++ y)), s3. split; [reflexivity|]. split; [|exact C']. exists (x ++ y). split; [reflexivity|]. split; [|apply Forall_app; auto].
    unfold small. rewrite app_length, B', repeat_length. rewrite B, firstn_length. lia.
  - intros old s (o & -> & Lo & Ho) Hs. cbn [read elems].
    destruct (read_each_any _ _ (IH HP HB HN) (firstn n (o ++ repeat (dflt t) n)) s) as (x & s2 & -> & A & B & C).
    + apply Forall_firstn_, Forall_app. split; [exact Ho|]. apply Forall_repeat_, dflt_typed, HP.
    + exact Hs.
    + cbn [obind]. exists (VL x), s2. split; [reflexivity|]. split; [|exact C]. exists x. split; [reflexivity|]. split; [|exact A].
      rewrite B, firstn_length, app_length, repeat_length. lia.
  - apply andb_true_iff in HN as [HNa HNb]. destruct HP, HB. apply (read_pair_any (read a) (read b) a b); auto.
  - apply andb_true_iff in HN as [HA HN]. intros old s (o & -> & _ & Ho & _) Hs. cbn [read elems]. destruct (read_size_any _ s (u32_range (length o)) Hs) as (z & s1 & -> & Hz & Hs1).
    assert (HU : uninit t = dflt t) by (destruct t; [discriminate HA|discriminate HA|reflexivity..]). rewrite HU.
    destruct (read_insert_any (read t) (has_type t) (ups self) (insert_ord self) (dflt t) (IH HP HB HN) (dflt_typed t HP) (has_type_def t)
      (insert_ord_keeps self _ (has_type t) (fun v H => H) (has_type_good t)) (Z.to_nat z) [] s1 ltac:(constructor) ltac:(constructor) Hs1) as (l & s2 & -> & A & B & L & C).
    cbn [obind]. exists (VL l), s2. split; [reflexivity|]. split; [|exact C]. exists l. split; [reflexivity|]. split; [unfold small; cbn [length] in L; lia|]. split; [exact A|exact B].
  - apply andb_true_iff in HN as [HNa HNb]. destruct HP as [HPa HPb], HB as [HBa HBb].
    intros old s (o & -> & _ & Ho & _) Hs. cbn [read elems]. destruct (read_size_any _ s (u32_range (length (map (fun p => VP (fst p) (snd p)) o))) Hs) as (z & s1 & -> & Hz & Hs1).
    destruct (read_insert_any (read_pair (read a) (dflt a) (read b) (dflt b)) (pair_of (has_type a) (has_type b)) (ups vfst) (insert_ord vfst) (VP (dflt a) (dflt b))) with (n := Z.to_nat z) (acc := @nil val) (s := s1) as (l & s2 & -> & A & B & L & C); try assumption; try solve [constructor].
    + apply (read_pair_any (read a) (read b) a b); auto.
    + exists (dflt a), (dflt b). split; [reflexivity|]. split; now apply dflt_typed.
    + intros v (x & y & -> & _). discriminate.
    + apply (insert_ord_keeps vfst _ (has_type a)); [|apply has_type_good]. intros v (x & y & -> & Hx & _). exact Hx.
    + cbn [obind]. exists (VL l), s2. split; [reflexivity|]. split; [|exact C]. destruct (pair_list _ _ l A) as (m & E & F & G & K).
      exists m. split; [now rewrite <- E|]. split; [unfold small; cbn [length] in L; lia|]. split; [exact F|]. rewrite G. unfold ascending. apply pairs_map_conv. exact B.
  - apply andb_true_iff in HN as [HA HN]. intros old s (o & -> & _ & Ho & _) Hs. cbn [read elems]. destruct (read_size_any _ s (u32_range (length o)) Hs) as (z & s1 & -> & Hz & Hs1).
    assert (HU : uninit t = dflt t) by (destruct t; [discriminate HA|discriminate HA|reflexivity..]). rewrite HU.
    destruct (read_insert_any (read t) (has_type t) (difs self) (insert_hash self) (dflt t) (IH HP HB HN) (dflt_typed t HP) (has_type_def t)
      (insert_hash_keeps self _) (Z.to_nat z) [] s1 ltac:(constructor) ltac:(constructor) Hs1) as (l & s2 & -> & A & B & L & C).
    cbn [obind]. exists (VL l), s2. split; [reflexivity|]. split; [|exact C]. exists l. split; [reflexivity|]. split; [unfold small; cbn [length] in L; lia|]. split; [exact A|exact B].
  - apply andb_true_iff in HN as [HNa HNb]. destruct HP as [HPa HPb], HB as [HBa HBb].
    intros old s (o & -> & _ & Ho & _) Hs. cbn [read elems]. destruct (read_size_any _ s (u32_range (length (map (fun p => VP (fst p) (snd p)) o))) Hs) as (z & s1 & -> & Hz & Hs1).
    destruct (read_insert_any (read_pair (read a) (dflt a) (read b) (dflt b)) (pair_of (has_type a) (has_type b)) (difs vfst) (insert_hash vfst) (VP (dflt a) (dflt b))) with (n := Z.to_nat z) (acc := @nil val) (s := s1) as (l & s2 & -> & A & B & L & C); try assumption; try solve [constructor].
    + apply (read_pair_any (read a) (read b) a b); auto.
    + exists (dflt a), (dflt b). split; [reflexivity|]. split; now apply dflt_typed.
    + intros v (x & y & -> & _). discriminate.
    + apply insert_hash_keeps.
    + cbn [obind]. exists (VL l), s2. split; [reflexivity|]. split; [|exact C]. destruct (pair_list _ _ l A) as (m & E & F & G & K).
      exists m. split; [now rewrite <- E|]. split; [unfold small; cbn [length] in L; lia|]. split; [exact F|]. rewrite G. unfold distinct. apply pairs_map_conv. exact B.
Qed.

(** *** Elements in any order, some of them more than once *)
Definition adds (key : val -> val) (P : val -> Prop) (R : list val -> Prop) (ins : val -> list val -> list val) : Prop :=
  forall x l y, P x -> Forall P l -> R l -> (In y (ins x l) <-> In y l \/ (y = x /\ forall z, In z l -> key z <> key x)).

Lemma insert_ord_adds (key : val -> val) (P K : val -> Prop) : (forall v, P v -> K (key v)) -> good K -> adds key P (ups key) (insert_ord key).
Proof.
  intros HK G x l y Hx. pose proof G as (E & T & O). induction l as [|z l IH]; intros Hl Hu; cbn [insert_ord].
  - cbn [In]. split; [intros [<-|[]]; auto|intros [[]|[-> _]]; auto].
  - inversion Hl as [|? ? Hz Hl']; subst. inversion Hu as [|? ? Hz' Hu']; subst. destruct (vcmp (key z) (key x)) eqn:C.
    + apply E in C; auto. split; [auto|]. intros [H|[-> H]]; [exact H|]. now destruct (H z (or_introl eq_refl)).
    + cbn [In]. rewrite (IH Hl' Hu'). split.
      * intros [<-|[H|[-> H]]]; auto. right. split; [reflexivity|]. intros w [<-|Hw]; [|auto]. intros F. rewrite F, (good_refl K) in C; auto. discriminate.
      * intros [[<-|H]|[-> H]]; auto. right. right. split; [reflexivity|]. intros w Hw. apply H. now right.
    + cbn [In]. split; [|intros [H|[-> _]]; auto]. intros [<-|H]; [|auto]. right. split; [reflexivity|].
      assert (X : vcmp (key x) (key z) = Lt) by (rewrite (O (key z) (key x)), C; auto).
      intros w Hw F. assert (Y : vcmp (key x) (key w) = Lt).
      { destruct Hw as [<-|Hw]; [exact X|]. rewrite Forall_forall in Hz', Hl'. apply (T _ (key z)); auto. }
      rewrite F, (good_refl K) in Y; auto. discriminate.
Qed.
Lemma insert_hash_adds (key : val -> val) (P K : val -> Prop) : (forall v, P v -> K (key v)) -> good K -> adds key P (difs key) (insert_hash key).
Proof.
  intros HK G x l y Hx Hl _. pose proof G as (E & _). rewrite Forall_forall in Hl. unfold insert_hash. destruct (existsb _ l) eqn:X.
  - apply existsb_exists in X as (z & Hz & C). split; [auto|]. intros [H|[-> H]]; [exact H|]. destruct (vcmp (key z) (key x)) eqn:F; try discriminate.
    apply E in F; auto. now destruct (H z Hz).
  - rewrite in_app_iff. cbn [In]. split; [|intros [H|[-> _]]; auto]. intros [H|[<-|[]]]; [auto|]. right. split; [reflexivity|]. intros z Hz F.
    assert (Y : existsb (fun y => match vcmp (key y) (key x) with Eq => true | _ => false end) l = true); [|congruence].
    apply existsb_exists. exists z. split; [exact Hz|]. rewrite F, (good_refl K); auto.
Qed.

Definition firsts (key : val -> val) (l : list val) (y : val) : Prop := exists pre post, l = pre ++ y :: post /\ Forall (fun z => key z <> key y) pre.
Lemma read_insert_seq w r ok start ins : RT w r ok -> (forall v, ok v -> v <> VUndef) -> forall vs acc rest, Forall ok vs ->
  read_insert (length vs) r start ins acc (flat_map w vs ++ rest, true) = Ok (fold_left (fun a x => ins x a) vs acc, (rest, true)).
Proof.
  intros HR HU. induction vs as [|v vs IH]; intros acc rest Hv; [reflexivity|]. inversion Hv as [|? ? Hv1 Hv2]; subst.
  cbn [flat_map read_insert length fold_left]. rewrite <- app_assoc, HR by assumption. cbn [obind]. rewrite <- (IH (ins v acc) rest Hv2).
  destruct v; try reflexivity. exfalso. now apply (HU VUndef).
Qed.
Lemma fold_adds (key : val -> val) (P : val -> Prop) (R : list val -> Prop) ins : keeps P R ins -> adds key P R ins ->
  forall vs acc, Forall P vs -> Forall P acc -> R acc -> Forall P (fold_left (fun a x => ins x a) vs acc) /\ R (fold_left (fun a x => ins x a) vs acc) /\
  (length (fold_left (fun a x => ins x a) vs acc) <= length acc + length vs)%nat /\
  forall y, In y (fold_left (fun a x => ins x a) vs acc) <-> In y acc \/ (firsts key vs y /\ forall z, In z acc -> key z <> key y).
Proof.
  intros HK HA. induction vs as [|v vs IH]; intros acc Hv Ha HR; cbn [fold_left].
  - split; [exact Ha|]. split; [exact HR|]. split; [cbn; lia|]. intros y. split; [auto|]. intros [H|[(pre & post & E & _) _]]; [exact H|]. now destruct pre.
  - inversion Hv as [|? ? Hv1 Hv2]; subst. destruct (HK v acc Hv1 Ha HR) as (A & B & L). destruct (IH (ins v acc) Hv2 A B) as (C & D & L' & F).
    split; [exact C|]. split; [exact D|]. split; [cbn [length]; lia|]. intros y. rewrite F. rewrite (HA v acc y Hv1 Ha HR). split.
    + intros [[H|[-> H]]|[(pre & post & -> & Hp) H]]; [auto| |].
      * right. split; [exists [], vs; split; [reflexivity|constructor]|exact H].
      * assert (N : key v <> key y).
        { intros X. apply (H v); [|exact X]. apply (HA v acc v Hv1 Ha HR). right. split; [reflexivity|]. intros z Hz. rewrite X. apply H.
          apply (HA v acc z Hv1 Ha HR). now left. }
        right. split; [exists (v :: pre), post; split; [reflexivity|now constructor]|]. intros z Hz. apply H. apply (HA v acc z Hv1 Ha HR). now left.
    + intros [H|[(pre & post & E & Hp) H]]; [auto|]. destruct pre as [|p pre]; cbn [app] in E; injection E as <- ->.
      * left. right. auto.
      * inversion Hp as [|? ? Hp1 Hp2]; subst. right. split; [now exists pre, post|]. intros z Hz. apply (HA v acc z Hv1 Ha HR) in Hz as [Hz|[-> _]]; auto.
Qed.

Lemma first_place (P : val -> Prop) v vs : good P -> Forall P vs -> In v vs -> firsts self vs v.
Proof.
  intros G. pose proof G as (E & _). induction 1 as [|x vs Hx Hv IH]; [intros []|]. intros Hin. assert (Pv : P v) by (destruct Hin as [<-|Hin]; [exact Hx|rewrite Forall_forall in Hv; auto]).
  destruct (vcmp x v) eqn:C.
  1: apply E in C; auto; subst x; exists [], vs; split; [reflexivity|constructor].
  all: assert (N : x <> v) by (intros ->; rewrite (good_refl P) in C; auto; discriminate);
    destruct Hin as [->|Hin]; [congruence|]; destruct (IH Hin) as (pre & post & -> & Hp); exists (x :: pre), post; split; [reflexivity|constructor; [exact N|exact Hp]].
Qed.

Lemma read_set_any (sets : bool) t vs old rest : Forall (has_type t) vs -> small vs -> exists l,
  read (if sets then TSet t else TUSet t) old (wsize (length vs) ++ flat_map (write t) vs ++ rest, true) = Ok (VL l, (rest, true)) /\
  has_type (if sets then TSet t else TUSet t) (VL l) /\ forall v, In v l <-> In v vs.
Proof.
  intros Hv Hs. set (ins := if sets then insert_ord self else insert_hash self). set (R := if sets then ups self else difs self).
  assert (HK : keeps (has_type t) R ins) by (destruct sets; [apply (insert_ord_keeps self _ (has_type t)); [auto|apply has_type_good]|apply insert_hash_keeps]).
  assert (HA : adds self (has_type t) R ins) by (destruct sets; [apply (insert_ord_adds self _ (has_type t))|apply (insert_hash_adds self _ (has_type t))]; auto; apply has_type_good).
  destruct (fold_adds self (has_type t) R ins HK HA vs [] Hv ltac:(constructor) ltac:(destruct sets; constructor)) as (A & B & L & F).
  exists (fold_left (fun a x => ins x a) vs []). split; [|split].
  - assert (E : read_insert (length vs) (read t) (uninit t) ins [] (flat_map (write t) vs ++ rest, true) = Ok (fold_left (fun a x => ins x a) vs [], (rest, true))).
    { apply (read_insert_seq (write t) (read t) (has_type t)); [|apply has_type_def|exact Hv]. intros v o r Ht. now apply archive_roundtrip. }
    destruct sets; cbn [read]; rewrite read_size_ok by exact Hs; rewrite Nat2Z.id; fold ins; rewrite E; reflexivity.
  - destruct sets; eexists; (split; [reflexivity|]); (split; [unfold small in *; cbn [length] in L; lia|]); split; [exact A|exact B|exact A|exact B].
  - intros v. rewrite F. cbn [In]. split.
    + intros [[]|[(pre & post & -> & _) _]]. apply in_elt.
    + intros H. right. split; [|intros z []]. apply (first_place (has_type t)); auto. apply has_type_good.
Qed.

Lemma entry_inj p q : entry p = entry q -> p = q.
Proof. destruct p, q. unfold entry. cbn. congruence. Qed.
Lemma read_map_any (maps : bool) a b (vs : list (val * val)) old rest : Forall (fun p => has_type a (fst p) /\ has_type b (snd p)) vs -> small vs -> exists l,
  read (if maps then TMap a b else TUMap a b) old (wsize (length vs) ++ flat_map (write_pair (write a) (write b)) (map entry vs) ++ rest, true) = Ok (VL (map entry l), (rest, true)) /\
  has_type (if maps then TMap a b else TUMap a b) (VL (map entry l)) /\ forall p, In p l <-> first_entry vs p.
Proof.
  intros Hv Hs. set (ins := if maps then insert_ord vfst else insert_hash vfst). set (R := if maps then ups vfst else difs vfst).
  set (P := pair_of (has_type a) (has_type b)). assert (KP : forall v, P v -> has_type a (vfst v)) by (intros v (x & y & -> & Hx & _); exact Hx).
  assert (HK : keeps P R ins) by (destruct maps; [apply (insert_ord_keeps vfst _ (has_type a)); [auto|apply has_type_good]|apply insert_hash_keeps]).
  assert (HA : adds vfst P R ins) by (destruct maps; [apply (insert_ord_adds vfst _ (has_type a))|apply (insert_hash_adds vfst _ (has_type a))]; auto; apply has_type_good).
  assert (Hp : Forall P (map entry vs)) by now apply map_pairs.
  destruct (fold_adds vfst P R ins HK HA (map entry vs) [] Hp ltac:(constructor) ltac:(destruct maps; constructor)) as (A & B & L & F).
  destruct (pair_list _ _ _ A) as (l & El & Hl & Ek & Ll). rewrite map_length in L. cbn [length] in L.
  assert (Em : fold_left (fun a x => ins x a) (map entry vs) [] = map entry l) by exact El. exists l. split; [|split].
  - assert (E : read_insert (length vs) (read_pair (read a) (dflt a) (read b) (dflt b)) (VP (dflt a) (dflt b)) ins [] (flat_map (write_pair (write a) (write b)) (map entry vs) ++ rest, true) = Ok (map entry l, (rest, true))).
    { rewrite <- Em. rewrite <- (map_length entry vs) at 1. apply (read_insert_seq (write_pair (write a) (write b)) _ P); [|intros v (x & y & -> & _); discriminate|exact Hp].
      apply (rd_pair_ok a b); intros v o r Ht; now apply archive_roundtrip. }
    destruct maps; cbn [read]; rewrite read_size_ok by exact Hs; rewrite Nat2Z.id; fold ins; rewrite E; reflexivity.
  - assert (Sl : small l) by (unfold small in *; lia). rewrite Em in Ek, B.
    destruct maps; exists l; (split; [reflexivity|]); (split; [exact Sl|]); (split; [exact Hl|]); rewrite Ek; apply pairs_map_conv; exact B.
  - intros p. transitivity (In (entry p) (map entry l)).
    { split; [apply in_map|]. intros H. apply in_map_iff in H as (q & Eq & Hq). apply entry_inj in Eq. now subst q. }
    rewrite <- Em, F. cbn [In]. split.
    + intros [[]|[(pre & post & E & Hf) _]]. apply map_eq_app in E as (pre' & post' & -> & <- & E). destruct post' as [|q post']; [discriminate|]. cbn [map] in E.
      assert (Q : entry q = entry p) by congruence. apply entry_inj in Q. subst q. exists pre', post'. split; [reflexivity|]. apply Forall_forall. intros q Hq X. rewrite Forall_forall in Hf. apply (Hf (entry q)); [now apply in_map|exact X].
    + intros (pre & post & -> & Hf). right. split; [|intros z []]. exists (map entry pre), (map entry post). split; [now rewrite map_app|]. apply Forall_forall. intros q Hq. apply in_map_iff in Hq as (q' & <- & Hq). rewrite Forall_forall in Hf. exact (Hf q' Hq).
Qed.
