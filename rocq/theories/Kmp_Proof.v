From Verif Require Import Common CommonLemmas Kmp_Model Kmp_Spec.

Ltac Zify.zify_post_hook ::= Z.div_mod_to_equations.
Section Proof.
  Variable A : Type.
  Variable aeq : forall a b : A, {a = b} + {a <> b}.

  (** [mt q w t]: the first [t] elements of [q] are a suffix of [w]. *)
  Definition mt (q w : list A) (t : nat) : Prop := t <= length q /\ exists p, w = p ++ firstn t q.

  Lemma mt_len q w t : mt q w t -> t <= length w.
  Proof. intros (H & p & ->). rewrite app_length, firstn_length_le by assumption. lia. Qed.
  Lemma mt_0 q w : mt q w 0.
  Proof. split; [lia|]. exists w. cbn. now rewrite app_nil_r. Qed.

  Lemma firstn_snoc (q : list A) k c : nth_error q k = Some c -> firstn (S k) q = firstn k q ++ [c].
  Proof.
    revert k. induction q as [|x q IH]; intros [|k] H; try discriminate; cbn in *; [congruence|]. now rewrite <- IH.
  Qed.

  Lemma mt_snoc q w c k : mt q (w ++ [c]) (S k) <-> mt q w k /\ nth_error q k = Some c.
  Proof.
    split.
    - intros (H & p & E). destruct (nth_error q k) as [x|] eqn:Ek; [|apply nth_error_None in Ek; lia].
      rewrite (firstn_snoc q k x Ek), app_assoc in E. apply app_inj_tail in E as [E ->]. split; [|reflexivity].
      split; [lia|]. eauto.
    - intros ((H & p & E) & Hk). split; [apply nth_error_Some; congruence|]. exists p.
      rewrite (firstn_snoc q k c Hk), E. now rewrite app_assoc.
  Qed.

  (** Two suffixes of the same list are suffixes of one another. *)
  Lemma suffix_nest (w a b p1 p2 : list A) : w = p1 ++ a -> w = p2 ++ b -> length b <= length a -> exists p, a = p ++ b.
  Proof.
    intros E1 E2 L. exists (skipn (length p1) p2).
    assert (LL : length p1 <= length p2).
    { assert (length p1 + length a = length p2 + length b) by (rewrite <- !app_length; congruence). lia. }
    assert (E : p1 ++ a = p2 ++ b) by congruence. apply (f_equal (skipn (length p1))) in E.
    rewrite !skipn_app, skipn_all, Nat.sub_diag in E. cbn in E. rewrite E. f_equal.
    replace (length p1 - length p2) with 0 by lia. reflexivity.
  Qed.

  Lemma mt_trans q w t k : mt q w t -> mt q (firstn t q) k -> mt q w k.
  Proof.
    intros (H & p & E) (H2 & p2 & E2). split; [assumption|]. exists (p ++ p2). rewrite <- app_assoc, <- E2. exact E.
  Qed.
  Lemma mt_nest q w t k : mt q w t -> mt q w k -> k <= t -> mt q (firstn t q) k.
  Proof.
    intros (H & p & E) (H2 & p2 & E2) Hk. split; [assumption|].
    apply (suffix_nest w (firstn t q) (firstn k q) p p2 E E2). rewrite !firstn_length_le by assumption. exact Hk.
  Qed.

  (** [next] is correct on the entries below [n]: entry [t-1] is the longest proper border. *)
  Definition good_next (q : list A) (next : list nat) : Prop :=
    length next <= length q /\
    forall t, 0 < t -> t <= length next -> exists b, nth_error next (t - 1) = Some b /\ b < t /\
      mt q (firstn t q) b /\ forall k, k < t -> mt q (firstn t q) k -> k <= b.

  Lemma fall_spec q next c w fuel : good_next q next -> forall t, t <= fuel -> t <= length next -> t < length q ->
    mt q w t -> (forall k, mt q (w ++ [c]) (S k) -> k <= t) ->
    exists t1, fall A aeq fuel q next c t = Ok t1 /\ t1 <= t /\ mt q w t1 /\ (forall k, mt q (w ++ [c]) (S k) -> k <= t1) /\
      (t1 = 0 \/ nth_error q t1 = Some c).
  Proof.
    intros (GL & G). induction fuel as [|f IH]; intros t Hf Hn Hq Hm Hb.
    - exists 0. replace t with 0 in * by lia. cbn. repeat split; auto; apply Hm.
    - destruct t as [|t']; [exists 0; cbn; repeat split; auto; apply Hm|].
      cbn [fall]. unfold at_ at 1. destruct (nth_error q (S t')) as [x|] eqn:Ex; [|apply nth_error_None in Ex; lia]. cbn [obind].
      destruct (aeq c x) as [<-|Hne].
      + exists (S t'). repeat split; auto; apply Hm.
      + destruct (G (S t') ltac:(lia) Hn) as (b & Eb & Hbt & Hbm & Hbb). replace (S t' - 1) with t' in Eb by lia.
        unfold at_. rewrite Eb. cbn [obind].
        destruct (IH b ltac:(lia) ltac:(lia) ltac:(lia)) as (t1 & E1 & L1 & M1 & B1 & D1).
        * eapply mt_trans; eassumption.
        * intros k Hk. pose proof (Hb k Hk) as Hkt. apply mt_snoc in Hk as [Hk1 Hk2].
          assert (k <> S t') by (intros ->; congruence).
          apply Hbb; [lia|]. eapply mt_nest; eassumption.
        * exists t1. repeat split; auto; try lia; apply M1.
  Qed.

  (** One step of the automaton: from the longest match of [w] to that of [w ++ [c]]. *)
  Definition longest q w t := mt q w t /\ forall k, mt q w k -> k <= t.

  Lemma step_spec q next c w t : good_next q next -> t <= length next -> t < length q -> longest q w t ->
    exists t1 x, fall A aeq t q next c t = Ok t1 /\ at_ q t1 = Ok x /\ t1 <= t /\
      longest q (w ++ [c]) (if aeq c x then S t1 else t1) /\ (aeq c x = aeq c x -> x <> c -> t1 = 0).
  Proof.
    intros G Hn Hq (Hm & Hb).
    destruct (fall_spec q next c w t G t ltac:(lia) Hn Hq Hm) as (t1 & E1 & L1 & M1 & B1 & D1).
    { intros k Hk. apply mt_snoc in Hk as [Hk _]. now apply Hb. }
    destruct (nth_error q t1) as [x|] eqn:Ex; [|apply nth_error_None in Ex; lia].
    exists t1, x. split; [exact E1|]. split; [unfold at_; now rewrite Ex|]. split; [exact L1|].
    split.
    - destruct (aeq c x) as [<-|Hne].
      + split; [apply mt_snoc; auto|]. intros [|k] Hk; [lia|]. apply B1 in Hk. lia.
      + destruct D1 as [->|D1]; [|congruence]. split; [apply mt_0|]. intros [|k] Hk; [lia|]. exfalso.
        pose proof (B1 k Hk) as Hk0. apply mt_snoc in Hk as [_ Hk]. replace k with 0 in Hk by lia. congruence.
    - intros _ Hx. destruct D1 as [|D1]; [assumption|congruence].
  Qed.

  (** A border of [c0 :: w] shorter than it is a match in [w]. *)
  Lemma mt_proper q c w k : k <= length w -> mt q (c :: w) k <-> mt q w k.
  Proof.
    intros Hk. split; intros (H & p & E); (split; [assumption|]).
    - destruct p as [|x p]; [|cbn in E; injection E as _ ->; eauto].
      cbn in E. apply (f_equal (@length A)) in E. cbn in E. rewrite firstn_length_le in E by assumption. lia.
    - exists (c :: p). now rewrite E.
  Qed.

  Lemma build_spec c0 q' : let q := c0 :: q' in forall rest done next t, q' = done ++ rest ->
    length next = S (length done) -> good_next q next -> longest q done t ->
    exists next', build A aeq q rest next t = Ok next' /\ length next' = length q /\ good_next q next'.
  Proof.
    intros q. assert (Hqd : q = c0 :: q') by reflexivity. clearbody q. induction rest as [|c rest IH]; intros done next t Eq Ln G Lg.
    - exists next. cbn. split; [reflexivity|]. split; [|exact G]. rewrite app_nil_r in Eq. subst done q. cbn. exact Ln.
    - cbn [build]. pose proof (mt_len _ _ _ (proj1 Lg)) as Ht.
      assert (Lq : length q = S (length done + S (length rest))) by (rewrite Hqd, Eq; cbn; rewrite app_length; cbn; lia).
      destruct (step_spec q next c done t G ltac:(lia) ltac:(lia) Lg) as (t1 & x & E1 & E2 & L1 & Lg' & Z1).
      rewrite E1. cbn [obind]. rewrite E2. cbn [obind].
      assert (HN : forall b, longest q (done ++ [c]) b -> good_next q (next ++ [b])).
      { intros b (Mb & Bb). split; [rewrite app_length; cbn; lia|]. intros t' Ht0 Ht'. rewrite app_length in Ht'. cbn in Ht'.
        destruct (Nat.eq_dec t' (S (length next))) as [->|Hne].
        - exists b. assert (F : firstn (S (length next)) q = c0 :: done ++ [c]).
          { rewrite Hqd, Eq, Ln, firstn_cons. f_equal. rewrite firstn_app. replace (S (length done) - length done) with 1 by lia.
            rewrite firstn_all2 by lia. reflexivity. }
          rewrite F. split; [rewrite nth_error_app2 by lia; replace (S (length next) - 1 - length next) with 0 by lia; reflexivity|].
          pose proof (mt_len _ _ _ Mb) as Hbl. rewrite app_length in Hbl. cbn in Hbl.
          split; [lia|]. split.
          + apply mt_proper; [rewrite app_length; cbn; lia|assumption].
          + intros k Hk Hm. apply (mt_proper q c0 (done ++ [c]) k) in Hm; [now apply Bb|rewrite app_length; cbn; lia].
        - destruct (proj2 G t' Ht0 ltac:(lia)) as (b' & E & R). exists b'. split; [|exact R]. now rewrite nth_error_app1 by lia. }
      destruct (aeq c x) as [Hc|Hc].
      + apply (IH (done ++ [c])); [rewrite <- app_assoc; exact Eq|rewrite !app_length; cbn; lia|now apply HN|exact Lg'].
      + assert (t1 = 0) by (apply Z1; [reflexivity|congruence]). subst t1.
        apply (IH (done ++ [c])); [rewrite <- app_assoc; exact Eq|rewrite !app_length; cbn; lia|now apply HN|exact Lg'].
  Qed.

  Lemma kmp_new_ok q : q <> [] -> exists k, kmp_new A aeq q = Ok k /\ query A k = q /\ length (next A k) = length q /\ good_next q (next A k).
  Proof.
    destruct q as [|c0 q']; intros Hne; [congruence|]. unfold kmp_new.
    destruct (build_spec c0 q' q' [] [0] 0) as (n & E & L & G); auto.
    - split; [cbn; lia|]. intros t Ht0 Ht. cbn in Ht. replace t with 1 by lia. exists 0. cbn. split; [reflexivity|]. split; [lia|].
      split; [apply mt_0|intros; lia].
    - split; [apply mt_0|]. intros k Hk. apply mt_len in Hk. exact Hk.
    - rewrite E. cbn [obind]. eexists. split; [reflexivity|]. cbn. auto.
  Qed.

  Lemma mt_full q w : mt q w (length q) <-> exists p, w = p ++ q.
  Proof. unfold mt. rewrite firstn_all. split; [intros (_ & H); exact H|intros H; split; [lia|exact H]]. Qed.

  (** [pre] is the text before the offset, [w] what has been read since. *)
  Lemma find_loop_spec q k : q <> [] -> query A k = q -> length (next A k) = length q -> good_next q (next A k) ->
    forall rest pre w t, longest q w t -> t < length q ->
    (forall a b, w <> a ++ q ++ b) ->
    exists r, find_loop A aeq k rest (length pre + length w) t = Ok r /\ first_occurrence q (pre ++ w ++ rest) (length pre) r.
  Proof.
    intros Hne Eq Ln G. induction rest as [|c rest IH]; intros pre w t Lg Ht Hno.
    - exists None. split; [reflexivity|]. intros m Hm (a & b & E & L).
      rewrite app_nil_r in E. assert (EE : exists a', w = a' ++ q ++ b).
      { exists (skipn (length pre) a). apply (f_equal (skipn (length pre))) in E.
        rewrite !skipn_app, skipn_all, Nat.sub_diag in E. cbn in E. rewrite E.
        replace (length pre - length a) with 0 by lia. reflexivity. }
      destruct EE as (a' & E'). exact (Hno a' b E').
    - cbn [find_loop]. rewrite Eq.
      destruct (step_spec q (next A k) c w t G ltac:(lia) Ht Lg) as (t1 & x & E1 & E2 & L1 & Lg' & _).
      rewrite E1. cbn [obind]. rewrite E2. cbn [obind].
      set (t2 := if aeq c x then S t1 else t1) in *.
      assert (Hno2 : forall a b, b <> [] -> w ++ [c] <> a ++ q ++ b).
      { intros a b Hb E. destruct (exists_last Hb) as (b' & y & ->). rewrite !app_assoc in E. apply app_inj_tail in E as [E _].
        rewrite <- app_assoc in E. exact (Hno a b' E). }
      destruct (Nat.eqb_spec t2 (length q)) as [Hfull|Hpart].
      + eexists. split; [reflexivity|]. destruct Lg' as (Mf & _). rewrite Hfull in Mf. apply mt_full in Mf as (p & Ep).
        assert (Lp : length w + 1 = length p + length q) by (apply (f_equal (@length A)) in Ep; rewrite !app_length in Ep; cbn in Ep; lia).
        unfold first_occurrence. replace (length pre + length w + 1 - length q) with (length pre + length p) by lia.
        split; [lia|]. split.
        * exists (pre ++ p), rest. rewrite app_length. split; [|reflexivity].
          replace (w ++ c :: rest) with ((w ++ [c]) ++ rest) by (rewrite <- app_assoc; reflexivity). rewrite Ep. now rewrite <- !app_assoc.
        * intros m Hm (a & b & E & L). destruct (Nat.le_gt_cases (length pre + length p) m) as [|Hlt]; [assumption|exfalso].
          (* an earlier occurrence would lie inside w *)
          assert (EE : w ++ c :: rest = skipn (length pre) a ++ q ++ b).
          { apply (f_equal (skipn (length pre))) in E. rewrite !skipn_app, skipn_all, Nat.sub_diag in E. cbn in E. rewrite E.
            replace (length pre - length a) with 0 by lia. reflexivity. }
          set (a' := skipn (length pre) a) in *.
          assert (La : length a' = m - length pre) by (unfold a'; rewrite skipn_length; lia).
          apply (f_equal (firstn (length w))) in EE. rewrite firstn_app, firstn_all, Nat.sub_diag in EE. cbn in EE. rewrite app_nil_r in EE.
          rewrite app_assoc, firstn_app in EE. rewrite (firstn_all2 (a' ++ q)) in EE by (rewrite app_length; lia).
          rewrite <- app_assoc in EE. exact (Hno _ _ EE).
      + assert (t2 <= length q) by (destruct Lg' as ((H & _) & _); exact H).
        destruct (IH pre (w ++ [c]) t2 Lg' ltac:(lia)) as (r & E & F).
        * intros a b E. destruct b as [|y b]; [|exact (Hno2 a (y :: b) ltac:(discriminate) E)].
          rewrite app_nil_r in E. assert (M : mt q (w ++ [c]) (length q)) by (apply mt_full; eauto).
          apply (proj2 Lg') in M. lia.
        * exists r. rewrite app_length in E. cbn in E. replace (S (length pre + length w)) with (length pre + (length w + 1)) by lia.
          split; [exact E|]. replace (w ++ c :: rest) with ((w ++ [c]) ++ rest) by (rewrite <- app_assoc; reflexivity). exact F.
  Qed.

  Theorem kmp_correct q text offset : q <> [] -> exists k r,
    kmp_new A aeq q = Ok k /\ find A aeq k text offset = Ok r /\ first_occurrence q text offset r.
  Proof.
    intros Hne. destruct (kmp_new_ok q Hne) as (k & E & Eq & Ln & G).
    assert (Lq : 0 < length q) by (destruct q; [congruence|cbn; lia]).
    destruct (Nat.le_gt_cases offset (length text)) as [Ho|Ho].
    - destruct (find_loop_spec q k Hne Eq Ln G (skipn offset text) (firstn offset text) [] 0) as (r & Ef & F).
      + split; [apply mt_0|]. intros t Ht. apply mt_len in Ht. exact Ht.
      + exact Lq.
      + intros a b Hab. destruct a, q; cbn in *; congruence.
      + rewrite firstn_length_le in Ef, F by assumption. cbn [length app] in *. rewrite firstn_skipn in F.
        exists k, r. split; [exact E|]. split; [|exact F]. unfold find. now rewrite Nat.add_0_r in Ef.
    - exists k, None. split; [exact E|]. split; [unfold find; rewrite skipn_all2 by lia; reflexivity|].
      intros m Hm (a & b & Et & L). apply (f_equal (@length A)) in Et. rewrite !app_length in Et. lia.
  Qed.

  Local Open Scope Z_scope.
  Lemma isize_small {B} (l : list B) : Z.of_nat (length l) < 2 ^ 31 -> isize l = Z.of_nat (length l).
  Proof. intros H. unfold isize. rewrite Z.mod_small by lia. lia. Qed.

  Lemma kmp_new_int_same q k : Z.of_nat (length q) < 2 ^ 31 -> kmp_new A aeq q = Ok k -> length (next A k) = length q ->
    kmp_new_int A aeq q = Ok k.
  Proof.
    intros L. destruct q as [|c r]; [discriminate|]. unfold kmp_new, kmp_new_int. rewrite isize_small by exact L.
    rewrite firstn_all2 by (cbn [length] in *; lia). destruct (build A aeq (c :: r) r [O] O) as [n| | |]; try discriminate. cbn [obind].
    intros E; injection E as <-. cbn [next]. intros ->. rewrite Nat.sub_diag. cbn [repeat]. now rewrite app_nil_r.
  Qed.

  Lemma find_loop_int_same q k : query A k = q -> good_next q (next A k) -> length (next A k) = length q -> Z.of_nat (length q) < 2 ^ 31 ->
    forall rest pre w t r, longest q w t -> (t < length q)%nat -> Z.of_nat (pre + length w + length rest) < 2 ^ 31 ->
    find_loop A aeq k rest (pre + length w) t = Ok r ->
    find_loop_int A aeq k rest (Z.of_nat (pre + length w)) t = Ok (match r with Some n => Z.of_nat n | None => 2 ^ 64 - 1 end).
  Proof.
    intros Eq G Ln Lq. induction rest as [|c rest IH]; intros pre w t r Lg Ht Hb.
    - cbn [find_loop find_loop_int]. intros E. now injection E as <-.
    - cbn [find_loop find_loop_int]. rewrite Eq.
      destruct (step_spec q (next A k) c w t G ltac:(lia) Ht Lg) as (t1 & x & E1 & E2 & L1 & Lg' & _).
      rewrite E1. cbn [obind]. rewrite E2. cbn [obind].
      set (t2 := if aeq c x then S t1 else t1) in *. rewrite isize_small by exact Lq. cbn [length] in Hb.
      assert (t2 <= length q)%nat by (destruct Lg' as ((H & _) & _); exact H).
      pose proof (mt_len _ _ _ (proj1 Lg')) as Hl. rewrite app_length in Hl. cbn [length] in Hl.
      destruct (Nat.eqb_spec t2 (length q)) as [Hf|Hp].
      + rewrite Hf, Z.eqb_refl. intros E. assert (Er : r = Some (pre + length w + 1 - length q)%nat) by congruence. rewrite Er.
        f_equal. rewrite Z.mod_small by lia. lia.
      + destruct (Z.eqb_spec (Z.of_nat t2) (Z.of_nat (length q))); [lia|]. intros E.
        replace (S (pre + length w)) with (pre + length (w ++ [c]))%nat in E by (rewrite app_length; cbn; lia).
        replace (Z.of_nat (pre + length w) + 1) with (Z.of_nat (pre + length (w ++ [c]))) by (rewrite app_length; cbn [length]; lia).
        apply IH; [exact Lg'|lia| |exact E]. rewrite app_length; cbn [length]; lia.
  Qed.

  Lemma isize_seen (text : list A) : Z.of_nat (length (seen text)) = Z.max 0 (isize text) /\ seen text = firstn (Z.to_nat (isize text)) text /\ isize text < 2 ^ 31.
  Proof.
    unfold seen, isize. set (n := Z.of_nat (length text)).
    assert (D : n mod 2 ^ 32 < 2 ^ 31 /\ (n + 2 ^ 31) mod 2 ^ 32 - 2 ^ 31 = n mod 2 ^ 32 \/ 2 ^ 31 <= n mod 2 ^ 32 /\ (n + 2 ^ 31) mod 2 ^ 32 - 2 ^ 31 = n mod 2 ^ 32 - 2 ^ 32) by lia.
    assert (0 <= n mod 2 ^ 32 <= n) by lia.
    destruct (Z.ltb_spec (n mod 2 ^ 32) (2 ^ 31)) as [Hs|Hs]; destruct D as [[D1 ->]|[D1 ->]]; try lia.
    - rewrite firstn_length_le by (unfold n in *; lia). split; [lia|]. split; [reflexivity|lia].
    - replace (Z.to_nat (n mod 2 ^ 32 - 2 ^ 32)) with O by lia. cbn [length firstn]. split; [lia|]. split; [reflexivity|lia].
  Qed.

  Theorem kmp_int_correct q text offset : q <> [] -> Z.of_nat (length q) < 2 ^ 31 -> 0 <= offset ->
    exists k z, kmp_new_int A aeq q = Ok k /\ find_int A aeq k text offset = Ok z /\ answers q (seen text) (Z.to_nat offset) z.
  Proof.
    intros Hne Lq Ho. destruct (kmp_new_ok q Hne) as (k & E & Eq & Ln & G).
    destruct (kmp_correct q (seen text) (Z.to_nat offset) Hne) as (k' & r & E' & Ef & F). assert (k' = k) by congruence. subst k'.
    exists k, (match r with Some n => Z.of_nat n | None => 2 ^ 64 - 1 end). split; [now apply kmp_new_int_same|]. split; [|now exists r].
    destruct (isize_seen text) as (S1 & S2 & S3). unfold find_int. destruct (Z.leb_spec (isize text) offset) as [Hi|Hi].
    - unfold find in Ef. rewrite skipn_all2 in Ef by lia. cbn in Ef. now injection Ef as <-.
    - destruct (Z.ltb_spec offset 0); [lia|].
      assert (T : firstn (Z.to_nat (isize text - offset)) (skipn (Z.to_nat offset) text) = skipn (Z.to_nat offset) (seen text)).
      { rewrite S2, skipn_firstn_comm. f_equal. lia. }
      rewrite T. unfold find in Ef.
      pose proof (find_loop_int_same q k Eq G Ln Lq (skipn (Z.to_nat offset) (seen text)) (Z.to_nat offset) [] 0 r) as K.
      cbn [length] in K. rewrite Nat.add_0_r, Z2Nat.id in K by lia. apply K.
      + split; [apply mt_0|]. intros t Ht. apply mt_len in Ht. exact Ht.
      + destruct q; [congruence|cbn; lia].
      + rewrite skipn_length. lia.
      + exact Ef.
  Qed.

  Lemma negative_offset k (text : list A) offset : Z.of_nat (length text) < 2 ^ 31 -> offset < 0 -> find_int A aeq k text offset = UB.
  Proof. intros L H. unfold find_int. rewrite isize_small by exact L. destruct (Z.leb_spec (Z.of_nat (length text)) offset); [lia|]. destruct (Z.ltb_spec offset 0); [reflexivity|lia]. Qed.
End Proof.
