From Verif Require Import Common CommonLemmas Archive_Model Archive_Spec.
Local Open Scope Z_scope.

Lemma le_bytes_len n : forall z, length (le_bytes n z) = n.
Proof. induction n; intros; cbn; auto. Qed.
Lemma le_num_bytes n : forall z, 0 <= z < 2 ^ (8 * Z.of_nat n) -> le_num (le_bytes n z) = z.
Proof.
  induction n as [|n IH]; intros z Hz.
  - cbn in *. lia.
  - cbn [le_bytes le_num]. rewrite IH; [lia|].
    replace (8 * Z.of_nat (S n)) with (8 + 8 * Z.of_nat n) in Hz by lia. rewrite Z.pow_add_r in Hz by lia. change (2 ^ 8) with 256 in Hz.
    split; [lia|]. apply Z.div_lt_upper_bound; lia.
Qed.

Lemma sread_ok n b rest : length b = n -> sread n (b ++ rest, true) = (Some b, (rest, true)).
Proof.
  intros L. cbn. rewrite app_length. destruct (Nat.leb_spec n (length b + length rest)); [|lia].
  rewrite <- L, firstn_app, firstn_all, Nat.sub_diag, skipn_app, skipn_all, Nat.sub_diag. cbn. now rewrite app_nil_r.
Qed.
Lemma sread_short n p : (length p < n)%nat -> sread n (p, true) = (None, ([], false)).
Proof. intros. cbn. destruct (Nat.leb_spec n (length p)); [lia|reflexivity]. Qed.

Lemma read_size_ok old n rest : Z.of_nat n < 2 ^ 32 -> read_size old (wsize n ++ rest, true) = (Z.of_nat n, (rest, true)).
Proof.
  intros H. unfold read_size, wsize. rewrite sread_ok by apply le_bytes_len.
  assert (u32 n = Z.of_nat n) by (unfold u32; apply Z.mod_small; lia). rewrite H0, le_num_bytes; [reflexivity|]. change (8 * Z.of_nat 4) with 32. lia.
Qed.

Lemma read_chars_ok : forall cs olds rest, length olds = length cs -> read_chars olds (cs ++ rest, true) = (cs, (rest, true)).
Proof.
  induction cs as [|c cs IH]; intros [|o olds] rest L; try discriminate; [reflexivity|].
  cbn [read_chars]. unfold read_char. change ((c :: cs) ++ rest) with ([c] ++ cs ++ rest). rewrite sread_ok by reflexivity.
  rewrite IH by (cbn in L; lia). cbn [le_num]. f_equal. f_equal. lia.
Qed.

(** What a type's reader must satisfy. *)
Definition RT (w : val -> list Z) (r : val -> st -> outcome (val * st)) (ok : val -> Prop) : Prop :=
  forall v old rest, ok v -> r old (w v ++ rest, true) = Ok (v, (rest, true)).

Lemma read_each_app rd a b s : read_each rd (a ++ b) s =
  let* (x, s1) := read_each rd a s in let* (y, s2) := read_each rd b s1 in Ok (x ++ y, s2).
Proof.
  revert s. induction a as [|o a IH]; intros s; cbn [app read_each obind].
  - destruct (read_each rd b s) as [[y s2]| | |]; reflexivity.
  - destruct (rd o s) as [[x s1]| | |]; cbn [obind]; try reflexivity. rewrite IH.
    destruct (read_each rd a s1) as [[xs s2]| | |]; cbn [obind]; try reflexivity.
    destruct (read_each rd b s2) as [[ys s3]| | |]; reflexivity.
Qed.
Lemma read_each_len rd : forall olds s x s', read_each rd olds s = Ok (x, s') -> length x = length olds.
Proof.
  induction olds as [|o olds IH]; intros s x s' H; cbn in H; [injection H as <- _; reflexivity|].
  destruct (rd o s) as [[y s1]| | |]; cbn in H; try discriminate.
  destruct (read_each rd olds s1) as [[ys s2]| | |] eqn:E; cbn in H; try discriminate.
  injection H as <- _. cbn. f_equal. eapply IH; eassumption.
Qed.
(** The two loops of a sequence reader are one. *)
Lemma two_loops rd d n o s :
  (let* (a, s2) := read_each rd (firstn n o) s in
   let* (b, s3) := read_each rd (repeat d (n - length a)) s2 in Ok (VL (a ++ b), s3)) =
  (let* (x, s3) := read_each rd (firstn n o ++ repeat d (n - length (firstn n o))) s in Ok (VL x, s3)).
Proof.
  rewrite read_each_app. destruct (read_each rd (firstn n o) s) as [[a s2]| | |] eqn:E; cbn [obind]; try reflexivity.
  rewrite (read_each_len _ _ _ _ _ E). destruct (read_each rd _ s2) as [[b s3]| | |]; reflexivity.
Qed.
Lemma slots_len {A} n (o : list A) d : length (firstn n o ++ repeat d (n - length (firstn n o))) = n.
Proof. rewrite app_length, repeat_length, firstn_length. lia. Qed.
Lemma slots_len2 {A} n (o : list A) d : length (firstn n o ++ repeat d (n - length o)) = n.
Proof. rewrite app_length, repeat_length, firstn_length. lia. Qed.

Lemma read_each_ok w r ok : RT w r ok -> forall vs olds rest, Forall ok vs -> length olds = length vs ->
  read_each r olds (flat_map w vs ++ rest, true) = Ok (vs, (rest, true)).
Proof.
  intros HR. induction vs as [|v vs IH]; intros [|o olds] rest Hv L; try discriminate; [reflexivity|].
  inversion Hv; subst. cbn [flat_map read_each]. rewrite <- app_assoc, HR by assumption. cbn [obind]. rewrite IH; auto.
Qed.

(** Insertion loops rebuild the container. *)
Lemma read_insert_ok w r ok start ins : RT w r ok -> (forall v, ok v -> v <> VUndef) ->
  forall vs acc rest, Forall ok vs -> (forall pre x post, vs = pre ++ x :: post -> ins x (acc ++ pre) = (acc ++ pre) ++ [x]) ->
  read_insert (length vs) r start ins acc (flat_map w vs ++ rest, true) = Ok (acc ++ vs, (rest, true)).
Proof.
  intros HR HU. induction vs as [|v vs IH]; intros acc rest Hv Hins.
  - cbn. now rewrite app_nil_r.
  - inversion Hv; subst. cbn [flat_map read_insert length]. rewrite <- app_assoc, HR by assumption. cbn [obind].
    pose proof (Hins [] v vs eq_refl) as Hi. rewrite app_nil_r in Hi. rewrite Hi.
    replace (acc ++ v :: vs) with ((acc ++ [v]) ++ vs) by (rewrite <- app_assoc; reflexivity).
    rewrite <- (IH (acc ++ [v]) rest H2).
    + destruct v; try reflexivity. exfalso. apply (HU VUndef); auto.
    + intros pre x post ->. specialize (Hins (v :: pre) x post eq_refl). rewrite <- !app_assoc in *. exact Hins.
Qed.

Lemma insert_ord_last key x l : Forall (fun y => vcmp (key y) (key x) = Lt) l -> insert_ord key x l = l ++ [x].
Proof. induction 1 as [|y l H _ IH]; cbn; [reflexivity|]. rewrite H, IH. reflexivity. Qed.
Lemma insert_hash_last key x l : Forall (fun y => vcmp (key y) (key x) <> Eq) l -> insert_hash key x l = l ++ [x].
Proof.
  intros H. unfold insert_hash. destruct (existsb _ l) eqn:E; [|reflexivity]. exfalso.
  apply existsb_exists in E as (y & Hy & E). rewrite Forall_forall in H. specialize (H y Hy). destruct (vcmp (key y) (key x)); congruence.
Qed.
Lemma pairs_split {A} (R : A -> A -> Prop) pre x post : ForallOrdPairs R (pre ++ x :: post) -> Forall (fun y => R y x) pre.
Proof.
  induction pre as [|y pre IH]; cbn; intros H; [constructor|]. inversion H as [|? ? Hy H']; subst. constructor.
  - rewrite Forall_forall in Hy. apply Hy. apply in_or_app. right. now left.
  - auto.
Qed.
Lemma pairs_map {A B} (R : B -> B -> Prop) (f : A -> B) l : ForallOrdPairs R (map f l) -> ForallOrdPairs (fun a b => R (f a) (f b)) l.
Proof.
  induction l as [|x l IH]; cbn; intros H; [constructor|]. inversion H as [|? ? Hx H']; subst. constructor; [|auto].
  apply Forall_forall. intros y Hy. rewrite Forall_forall in Hx. apply Hx. now apply in_map.
Qed.

Lemma has_type_def t v : has_type t v -> v <> VUndef.
Proof.
  destruct t; cbn; intros H ->; repeat match goal with H : exists _, _ |- _ => destruct H | H : _ /\ _ |- _ => destruct H end; discriminate.
Qed.

Definition rd_pair (a b : ty) : val -> st -> outcome (val * st) := read_pair (read a) (dflt a) (read b) (dflt b).
Definition wr_pair (a b : ty) : val -> list Z := write_pair (write a) (write b).
Definition ok_pair (a b : ty) (v : val) : Prop := exists x y, v = VP x y /\ has_type a x /\ has_type b y.

Lemma rd_pair_ok a b : RT (write a) (read a) (has_type a) -> RT (write b) (read b) (has_type b) -> RT (wr_pair a b) (rd_pair a b) (ok_pair a b).
Proof.
  intros Ha Hb v old rest (x & y & -> & Hx & Hy). unfold rd_pair, wr_pair, read_pair, write_pair.
  destruct (match old with VP x0 y0 => (x0, y0) | _ => (dflt a, dflt b) end) as [oa ob].
  rewrite <- app_assoc, Ha by assumption. cbn [obind]. rewrite Hb by assumption. reflexivity.
Qed.

Lemma num_ok n sg z : (n > 0)%nat -> in_range n sg z ->
  let u := le_num (le_bytes n (z mod 2 ^ (8 * Z.of_nat n))) in
  (if sg && (2 ^ (8 * Z.of_nat n - 1) <=? u) then u - 2 ^ (8 * Z.of_nat n) else u) = z.
Proof.
  intros Hn H. cbv zeta. set (b := 8 * Z.of_nat n) in *.
  assert (P : 2 ^ b = 2 * 2 ^ (b - 1)) by (rewrite <- (Z.pow_succ_r 2 (b - 1)) by lia; f_equal; lia).
  assert (0 < 2 ^ (b - 1)) by (apply Z.pow_pos_nonneg; lia).
  rewrite le_num_bytes by (apply Z.mod_pos_bound; lia).
  unfold in_range in H. destruct sg; cbn [andb].
  - fold b in H. assert (E : z mod 2 ^ b = if z <? 0 then z + 2 ^ b else z).
    { destruct (Z.ltb_spec z 0).
      - symmetry. apply Z.mod_unique with (-1); lia.
      - apply Z.mod_small. lia. }
    rewrite E. destruct (Z.ltb_spec z 0); destruct (Z.leb_spec (2 ^ (b - 1)) (if z <? 0 then z + 2 ^ b else z)).
    all: destruct (Z.ltb_spec z 0); try lia.
    all: destruct (Z.leb_spec (2 ^ (b - 1)) (z + 2 ^ b)); destruct (Z.leb_spec (2 ^ (b - 1)) z); lia.
  - fold b in H. apply Z.mod_small. lia.
Qed.

Theorem archive_roundtrip t : RT (write t) (read t) (has_type t).
Proof.
  induction t as [|n sg| |t IH|n t IH|a IHa b IHb|t IH|a IHa b IHb|t IH|a IHa b IHb]; intros v old rest Hv; cbn [has_type] in Hv.
  - destruct Hv as (bb & ->). destruct bb; reflexivity.
  - destruct Hv as (Hn & z & -> & Hz). cbn [write read]. unfold read_num. rewrite sread_ok by apply le_bytes_len.
    rewrite num_ok by assumption. reflexivity.
  - destruct Hv as (s & -> & Hb & Hs). cbn [write read]. rewrite <- app_assoc, read_size_ok by exact Hs.
    rewrite Nat2Z.id, read_chars_ok by apply slots_len2. reflexivity.
  - destruct Hv as (l & -> & Hs & Hl). cbn [write read]. rewrite <- app_assoc, read_size_ok by exact Hs. rewrite Nat2Z.id, two_loops.
    rewrite (read_each_ok _ _ _ IH) by (assumption || apply slots_len). reflexivity.
  - destruct Hv as (l & -> & Hn & Hl). cbn [write read]. rewrite (read_each_ok _ _ _ IH); [reflexivity|assumption|].
    rewrite firstn_length, app_length, repeat_length. lia.
  - change (read (TPair a b) old (write (TPair a b) v ++ rest, true)) with (rd_pair a b old (write (TPair a b) v ++ rest, true)).
    destruct Hv as (x & y & -> & Hx & Hy). apply (rd_pair_ok a b IHa IHb (VP x y)). exists x, y. auto.
  - destruct Hv as (l & -> & Hs & Hl & Ho). cbn [write read]. rewrite <- app_assoc, read_size_ok by exact Hs. rewrite Nat2Z.id.
    rewrite (read_insert_ok _ _ _ _ _ IH (has_type_def t)); [reflexivity|assumption|].
    intros pre x post E. cbn. apply insert_ord_last. subst l. eapply pairs_split in Ho. exact Ho.
  - destruct Hv as (l & -> & Hs & Hl & Ho). cbn [write read]. rewrite <- app_assoc, read_size_ok by (rewrite map_length; exact Hs). rewrite Nat2Z.id.
    fold (rd_pair a b). fold (wr_pair a b).
    rewrite (read_insert_ok _ _ (ok_pair a b) _ _ (rd_pair_ok a b IHa IHb)); [reflexivity| | |].
    + intros ? (? & ? & -> & _). discriminate.
    + apply Forall_map. eapply Forall_impl; [|exact Hl]. cbn. intros p [H1 H2]. exists (fst p), (snd p). auto.
    + intros pre x post E. cbn. apply insert_ord_last.
      assert (Ho' : ForallOrdPairs (fun y x => vcmp (vfst y) (vfst x) = Lt) (map (fun p => VP (fst p) (snd p)) l)).
      { clear -Ho. induction l as [|p l IHl]; cbn in *; [constructor|]. inversion Ho as [|? ? Hp Ho']; subst. constructor; [|auto].
        apply Forall_map. apply (proj1 (Forall_map fst _ l)) in Hp. exact Hp. }
      rewrite E in Ho'. eapply pairs_split in Ho'. exact Ho'.
  - destruct Hv as (l & -> & Hs & Hl & Ho). cbn [write read]. rewrite <- app_assoc, read_size_ok by exact Hs. rewrite Nat2Z.id.
    rewrite (read_insert_ok _ _ _ _ _ IH (has_type_def t)); [reflexivity|assumption|].
    intros pre x post E. cbn. apply insert_hash_last. subst l. eapply pairs_split in Ho. exact Ho.
  - destruct Hv as (l & -> & Hs & Hl & Ho). cbn [write read]. rewrite <- app_assoc, read_size_ok by (rewrite map_length; exact Hs). rewrite Nat2Z.id.
    fold (rd_pair a b). fold (wr_pair a b).
    rewrite (read_insert_ok _ _ (ok_pair a b) _ _ (rd_pair_ok a b IHa IHb)); [reflexivity| | |].
    + intros ? (? & ? & -> & _). discriminate.
    + apply Forall_map. eapply Forall_impl; [|exact Hl]. cbn. intros p [H1 H2]. exists (fst p), (snd p). auto.
    + intros pre x post E. cbn. apply insert_hash_last.
      assert (Ho' : ForallOrdPairs (fun y x => vcmp (vfst y) (vfst x) <> Eq) (map (fun p => VP (fst p) (snd p)) l)).
      { clear -Ho. induction l as [|p l IHl]; cbn in *; [constructor|]. inversion Ho as [|? ? Hp Ho']; subst. constructor; [|auto].
        apply Forall_map. apply (proj1 (Forall_map fst _ l)) in Hp. exact Hp. }
      rewrite E in Ho'. eapply pairs_split in Ho'. exact Ho'.
Qed.

(** ** Truncated archives *)
(** On a failed stream a reader does nothing to the stream. *)
Definition FL (r : val -> st -> outcome (val * st)) : Prop := forall old s, exists x, r old (s, false) = Ok (x, (s, false)).
(** On a proper prefix of an encoding it ends with the failure flag. *)
Definition TR (w : val -> list Z) (r : val -> st -> outcome (val * st)) (ok : val -> Prop) : Prop :=
  forall v old p q, ok v -> w v = p ++ q -> q <> [] -> exists x, r old (p, true) = Ok (x, ([], false)).

Lemma read_each_fail r : FL r -> forall olds s, exists x, read_each r olds (s, false) = Ok (x, (s, false)).
Proof.
  intros HF. induction olds as [|o olds IH]; intros s; [eexists; reflexivity|].
  destruct (HF o s) as (x & E). destruct (IH s) as (xs & E2). cbn. rewrite E. cbn. rewrite E2. eexists. reflexivity.
Qed.
Lemma read_chars_fail : forall olds s, exists x, read_chars olds (s, false) = (x, (s, false)).
Proof. induction olds as [|o olds IH]; intros s; [eexists; reflexivity|]. destruct (IH s) as (xs & E). cbn. rewrite E. eexists. reflexivity. Qed.
Lemma read_insert_fail r start ins : FL r -> (forall s x s', r start s = Ok (x, s') -> x <> VUndef) ->
  forall n acc s, exists x, read_insert n r start ins acc (s, false) = Ok (x, (s, false)).
Proof.
  intros HF HU. induction n as [|n IH]; intros acc s; [eexists; reflexivity|].
  destruct (HF start s) as (x & E). cbn. rewrite E. cbn. destruct (IH (ins x acc) s) as (y & E2). exists y.
  destruct x; try exact E2. exfalso. apply (HU _ _ _ E). reflexivity.
Qed.

(** A prefix ends inside the first part or inside the second. *)
Lemma split_prefix {A} (a b p q : list A) : a ++ b = p ++ q -> q <> [] ->
  (exists q', a = p ++ q' /\ q' <> []) \/ (exists p', p = a ++ p' /\ b = p' ++ q).
Proof.
  revert p. induction a as [|x a IH]; intros p E Hq.
  - right. exists p. auto.
  - destruct p as [|y p]; [left; exists (x :: a); split; [reflexivity|discriminate]|].
    cbn in E. injection E as -> E. destruct (IH p E Hq) as [(q' & -> & H)|(p' & -> & H)]; [left; exists q'; auto|right; exists p'; auto].
Qed.

Lemma read_each_trunc w r ok : RT w r ok -> FL r -> TR w r ok -> forall vs olds p q, Forall ok vs -> length olds = length vs ->
  flat_map w vs = p ++ q -> q <> [] -> exists x, read_each r olds (p, true) = Ok (x, ([], false)).
Proof.
  intros HR HF HT. induction vs as [|v vs IH]; intros [|o olds] p q Hv L E Hq; try discriminate.
  - destruct p; [cbn in E; congruence|discriminate].
  - inversion Hv; subst. cbn [flat_map] in E. cbn [read_each].
    destruct (split_prefix _ _ _ _ E Hq) as [(q' & E' & H)|(p' & -> & E')].
    + destruct (HT v o p q' ltac:(assumption) E' H) as (x & ->). cbn [obind].
      destruct (read_each_fail r HF olds []) as (y & ->). eexists. reflexivity.
    + rewrite HR by assumption. cbn [obind]. destruct (IH olds p' q ltac:(assumption) ltac:(cbn in L; lia) E' Hq) as (y & ->). eexists. reflexivity.
Qed.
Lemma read_insert_trunc w r ok start ins : RT w r ok -> FL r -> TR w r ok ->
  (forall s x s', r start s = Ok (x, s') -> x <> VUndef) -> forall vs acc p q, Forall ok vs ->
  flat_map w vs = p ++ q -> q <> [] -> exists x, read_insert (length vs) r start ins acc (p, true) = Ok (x, ([], false)).
Proof.
  intros HR HF HT HU. induction vs as [|v vs IH]; intros acc p q Hv E Hq.
  - destruct p; [cbn in E; congruence|discriminate].
  - inversion Hv; subst. cbn [flat_map] in E. cbn [read_insert length].
    destruct (split_prefix _ _ _ _ E Hq) as [(q' & E' & H)|(p' & -> & E')].
    + destruct (HT v start p q' ltac:(assumption) E' H) as (x & Ex). rewrite Ex. cbn [obind].
      destruct (read_insert_fail r start ins HF HU (length vs) (ins x acc) []) as (y & Ey). exists y.
      destruct x; try exact Ey. exfalso. apply (HU _ _ _ Ex). reflexivity.
    + rewrite HR by assumption. cbn [obind]. destruct (IH (ins v acc) p' q ltac:(assumption) E' Hq) as (y & Ey). exists y.
      destruct v; try exact Ey. exfalso. pose proof (HR VUndef start p' ltac:(assumption)) as E1. apply (HU _ _ _ E1). reflexivity.
Qed.

Lemma read_chars_trunc : forall cs olds p q, length olds = length cs -> cs = p ++ q -> q <> [] ->
  exists x, read_chars olds (p, true) = (x, ([], false)).
Proof.
  induction cs as [|c cs IH]; intros [|o olds] p q L E Hq; try discriminate; [destruct p; [cbn in E; congruence|discriminate]|].
  destruct p as [|x p]; cbn [read_chars].
  - cbn. destruct (read_chars_fail olds []) as (y & ->). eexists. reflexivity.
  - cbn in E. injection E as <- E. destruct (IH olds p q ltac:(cbn in L; lia) E Hq) as (y & Ey).
    unfold read_char. change (c :: p) with ([c] ++ p). rewrite sread_ok by reflexivity. rewrite Ey. eexists. reflexivity.
Qed.
Lemma read_size_trunc old n p q : wsize n = p ++ q -> q <> [] -> read_size old (p, true) = (old, ([], false)).
Proof.
  intros E Hq. unfold read_size. rewrite sread_short; [reflexivity|]. apply (f_equal (@length Z)) in E. unfold wsize in E.
  rewrite le_bytes_len, app_length in E. destruct q; [congruence|cbn in E; lia].
Qed.

Lemma rd_pair_def a b o s x s' : rd_pair a b o s = Ok (x, s') -> x <> VUndef.
Proof.
  unfold rd_pair, read_pair. destruct (match o with VP x0 y0 => (x0, y0) | _ => (dflt a, dflt b) end) as [oa ob].
  destruct (read a oa s) as [[y s1]| | |]; cbn; try discriminate. destruct (read b ob s1) as [[z s2]| | |]; cbn; try discriminate.
  intros H. injection H as <- _. discriminate.
Qed.
Lemma read_def t o s x s' : arith t = false -> read t o s = Ok (x, s') -> x <> VUndef.
Proof.
  destruct t; cbn [arith]; intros Ha; try discriminate; cbn [read]; intros H.
  - destruct (read_size _ _) as [len s1]. destruct (read_chars _ _) as [cs s2]. injection H as <- _. discriminate.
  - destruct (read_size _ _) as [len s1]. rewrite two_loops in H. destruct (read_each _ _ _) as [[? ?]| | |]; cbn in H; try discriminate. injection H as <- _. discriminate.
  - destruct (read_each _ _ _) as [[? ?]| | |]; cbn in H; try discriminate. injection H as <- _. discriminate.
  - now apply (rd_pair_def _ _ _ _ _ _ H).
  - destruct (read_size _ _) as [len s1]. destruct (read_insert _ _ _ _ _ _) as [[? ?]| | |]; cbn in H; try discriminate. injection H as <- _. discriminate.
  - destruct (read_size _ _) as [len s1]. destruct (read_insert _ _ _ _ _ _) as [[? ?]| | |]; cbn in H; try discriminate. injection H as <- _. discriminate.
  - destruct (read_size _ _) as [len s1]. destruct (read_insert _ _ _ _ _ _) as [[? ?]| | |]; cbn in H; try discriminate. injection H as <- _. discriminate.
  - destruct (read_size _ _) as [len s1]. destruct (read_insert _ _ _ _ _ _) as [[? ?]| | |]; cbn in H; try discriminate. injection H as <- _. discriminate.
Qed.

Lemma rd_pair_fail a b : FL (read a) -> FL (read b) -> FL (rd_pair a b).
Proof.
  intros Ha Hb o s. unfold rd_pair, read_pair. destruct (match o with VP x0 y0 => (x0, y0) | _ => (dflt a, dflt b) end) as [oa ob].
  destruct (Ha oa s) as (x & ->). cbn [obind]. destruct (Hb ob s) as (y & ->). eexists. reflexivity.
Qed.
Lemma rd_pair_trunc a b : FL (read b) -> TR (write a) (read a) (has_type a) -> TR (write b) (read b) (has_type b) ->
  TR (wr_pair a b) (rd_pair a b) (ok_pair a b).
Proof.
  intros Fb Ta Tb v old p q (x & y & -> & Hx & Hy) E Hq. unfold rd_pair, wr_pair, read_pair, write_pair in *.
  destruct (match old with VP x0 y0 => (x0, y0) | _ => (dflt a, dflt b) end) as [oa ob].
  destruct (split_prefix _ _ _ _ E Hq) as [(q' & E' & H)|(p' & -> & E')].
  - destruct (Ta x oa p q' Hx E' H) as (z & ->). cbn [obind]. destruct (Fb ob []) as (z' & ->). eexists. reflexivity.
  - rewrite archive_roundtrip by assumption. cbn [obind]. destruct (Tb y ob p' q Hy E' Hq) as (z' & ->). eexists. reflexivity.
Qed.

Lemma read_fail t : no_arith_set t = true -> FL (read t).
Proof.
  induction t as [|n sg| |t IH|n t IH|a IHa b IHb|t IH|a IHa b IHb|t IH|a IHa b IHb]; cbn [no_arith_set]; intros Hn old s;
    rewrite ?andb_true_iff, ?negb_true_iff in Hn.
  - eexists. reflexivity.
  - eexists. reflexivity.
  - cbn [read]. cbn [read_size sread]. destruct (read_chars_fail (firstn (Z.to_nat (u32 (length (chars old)))) (chars old) ++ repeat 0 (Z.to_nat (u32 (length (chars old))) - length (chars old))) s) as (x & E).
    unfold read_size. cbn [sread]. rewrite E. eexists. reflexivity.
  - cbn [read]. unfold read_size. cbn [sread]. rewrite two_loops. match goal with |- context [read_each ?r ?o (s, false)] => destruct (read_each_fail r (IH Hn) o s) as (x & ->) end. eexists. reflexivity.
  - cbn [read]. match goal with |- context [read_each ?r ?o (s, false)] => destruct (read_each_fail r (IH Hn) o s) as (x & ->) end. eexists. reflexivity.
  - destruct Hn as [H1 H2]. apply (rd_pair_fail a b (IHa H1) (IHb H2)).
  - destruct Hn as [H1 H2]. cbn [read]. unfold read_size. cbn [sread].
    match goal with |- context [read_insert ?n ?r ?o ?i ?acc (s, false)] => destruct (read_insert_fail r o i (IH H2) (fun s x s' => read_def t o s x s' H1) n acc s) as (x & ->) end. eexists. reflexivity.
  - destruct Hn as [H1 H2]. cbn [read]. unfold read_size. cbn [sread]. fold (rd_pair a b).
    match goal with |- context [read_insert ?n ?r ?o ?i ?acc (s, false)] => destruct (read_insert_fail r o i (rd_pair_fail a b (IHa H1) (IHb H2)) (rd_pair_def a b o) n acc s) as (x & ->) end. eexists. reflexivity.
  - destruct Hn as [H1 H2]. cbn [read]. unfold read_size. cbn [sread].
    match goal with |- context [read_insert ?n ?r ?o ?i ?acc (s, false)] => destruct (read_insert_fail r o i (IH H2) (fun s x s' => read_def t o s x s' H1) n acc s) as (x & ->) end. eexists. reflexivity.
  - destruct Hn as [H1 H2]. cbn [read]. unfold read_size. cbn [sread]. fold (rd_pair a b).
    match goal with |- context [read_insert ?n ?r ?o ?i ?acc (s, false)] => destruct (read_insert_fail r o i (rd_pair_fail a b (IHa H1) (IHb H2)) (rd_pair_def a b o) n acc s) as (x & ->) end. eexists. reflexivity.
Qed.

Lemma map_ok_pair a b l : Forall (fun p : val * val => has_type a (fst p) /\ has_type b (snd p)) l -> Forall (ok_pair a b) (map (fun p => VP (fst p) (snd p)) l).
Proof. intros Hl. apply Forall_map. eapply Forall_impl; [|exact Hl]. cbn. intros p [H1 H2]. exists (fst p), (snd p). auto. Qed.

Theorem archive_truncated t : no_arith_set t = true -> TR (write t) (read t) (has_type t).
Proof.
  induction t as [|n sg| |t IH|n t IH|a IHa b IHb|t IH|a IHa b IHb|t IH|a IHa b IHb]; intros Hn v old p q Hv E Hq; pose proof (read_fail _ Hn) as HF; cbn [has_type] in Hv;
    cbn [no_arith_set] in Hn; rewrite ?andb_true_iff, ?negb_true_iff in Hn.
  - destruct Hv as (bb & ->). cbn in E. destruct p as [|x p]; [|destruct p; [cbn in E; congruence|discriminate]]. eexists. reflexivity.
  - destruct Hv as (Hp & z & -> & Hz). cbn [write] in E. cbn [read]. unfold read_num. rewrite sread_short; [eexists; reflexivity|].
    apply (f_equal (@length Z)) in E. rewrite le_bytes_len, app_length in E. destruct q; [congruence|cbn in E; lia].
  - destruct Hv as (s & -> & Hb & Hs). cbn [write] in E. cbn [read].
    destruct (split_prefix _ _ _ _ E Hq) as [(q' & E' & H)|(p' & -> & E')].
    + rewrite (read_size_trunc _ _ _ _ E' H). destruct (read_chars_fail (firstn (Z.to_nat (u32 (length (chars old)))) (chars old) ++ repeat 0 (Z.to_nat (u32 (length (chars old))) - length (chars old))) []) as (x & ->). eexists. reflexivity.
    + rewrite read_size_ok by exact Hs. rewrite Nat2Z.id. destruct (read_chars_trunc s (firstn (length s) (chars old) ++ repeat 0 (length s - length (chars old))) p' q (slots_len2 _ _ _) E' Hq) as (x & ->). eexists. reflexivity.
  - destruct Hv as (l & -> & Hs & Hl). cbn [write] in E. cbn [read].
    destruct (split_prefix _ _ _ _ E Hq) as [(q' & E' & H)|(p' & -> & E')].
    + rewrite (read_size_trunc _ _ _ _ E' H), two_loops.
      match goal with |- context [read_each ?r ?o ([], false)] => destruct (read_each_fail r (read_fail t Hn) o []) as (x & ->) end. eexists. reflexivity.
    + rewrite read_size_ok by exact Hs. rewrite Nat2Z.id, two_loops.
      destruct (read_each_trunc _ _ _ (archive_roundtrip t) (read_fail t Hn) (IH Hn) l (firstn (length l) (elems old) ++ repeat (dflt t) (length l - length (firstn (length l) (elems old)))) p' q Hl (slots_len _ _ _) E' Hq) as (x & ->). eexists. reflexivity.
  - destruct Hv as (l & -> & Hlen & Hl). cbn [write] in E. cbn [read].
    destruct (read_each_trunc _ _ _ (archive_roundtrip t) (read_fail t Hn) (IH Hn) l (firstn n (elems old ++ repeat (dflt t) n)) p q Hl) as (x & ->); auto; [|eexists; reflexivity].
    rewrite firstn_length, app_length, repeat_length. lia.
  - destruct Hn as [H1 H2]. apply (rd_pair_trunc a b (read_fail b H2) (IHa H1) (IHb H2) v old p q Hv); [|exact Hq].
    destruct Hv as (x & y & -> & _). exact E.
  - destruct Hn as [H1 H2], Hv as (l & -> & Hs & Hl & Ho). cbn [write] in E. cbn [read].
    destruct (split_prefix _ _ _ _ E Hq) as [(q' & E' & H)|(p' & -> & E')].
    + rewrite (read_size_trunc _ _ _ _ E' H).
      match goal with |- context [read_insert ?n ?r ?o ?i ?acc ([], false)] => destruct (read_insert_fail r o i (read_fail t H2) (fun s x s' => read_def t o s x s' H1) n acc []) as (x & ->) end. eexists. reflexivity.
    + rewrite read_size_ok by exact Hs. rewrite Nat2Z.id.
      match goal with |- context [read_insert ?n ?r ?o ?i ?acc (p', true)] => destruct (read_insert_trunc _ r _ o i (archive_roundtrip t) (read_fail t H2) (IH H2) (fun s x s' => read_def t o s x s' H1) l acc p' q Hl E' Hq) as (x & ->) end. eexists. reflexivity.
  - destruct Hn as [H1 H2], Hv as (l & -> & Hs & Hl & Ho). cbn [write] in E. cbn [read]. fold (rd_pair a b). fold (wr_pair a b) in E.
    destruct (split_prefix _ _ _ _ E Hq) as [(q' & E' & H)|(p' & -> & E')].
    + rewrite (read_size_trunc _ _ _ _ E' H).
      match goal with |- context [read_insert ?n ?r ?o ?i ?acc ([], false)] => destruct (read_insert_fail r o i (rd_pair_fail a b (read_fail a H1) (read_fail b H2)) (rd_pair_def a b o) n acc []) as (x & ->) end. eexists. reflexivity.
    + rewrite read_size_ok by (rewrite map_length; exact Hs). rewrite Nat2Z.id.
      match goal with |- context [read_insert ?n ?r ?o ?i ?acc (p', true)] => destruct (read_insert_trunc _ r _ o i (rd_pair_ok a b (archive_roundtrip a) (archive_roundtrip b)) (rd_pair_fail a b (read_fail a H1) (read_fail b H2)) (rd_pair_trunc a b (read_fail b H2) (IHa H1) (IHb H2)) (rd_pair_def a b o) _ acc p' q (map_ok_pair a b l Hl) E' Hq) as (x & ->) end. eexists. reflexivity.
  - destruct Hn as [H1 H2], Hv as (l & -> & Hs & Hl & Ho). cbn [write] in E. cbn [read].
    destruct (split_prefix _ _ _ _ E Hq) as [(q' & E' & H)|(p' & -> & E')].
    + rewrite (read_size_trunc _ _ _ _ E' H).
      match goal with |- context [read_insert ?n ?r ?o ?i ?acc ([], false)] => destruct (read_insert_fail r o i (read_fail t H2) (fun s x s' => read_def t o s x s' H1) n acc []) as (x & ->) end. eexists. reflexivity.
    + rewrite read_size_ok by exact Hs. rewrite Nat2Z.id.
      match goal with |- context [read_insert ?n ?r ?o ?i ?acc (p', true)] => destruct (read_insert_trunc _ r _ o i (archive_roundtrip t) (read_fail t H2) (IH H2) (fun s x s' => read_def t o s x s' H1) l acc p' q Hl E' Hq) as (x & ->) end. eexists. reflexivity.
  - destruct Hn as [H1 H2], Hv as (l & -> & Hs & Hl & Ho). cbn [write] in E. cbn [read]. fold (rd_pair a b). fold (wr_pair a b) in E.
    destruct (split_prefix _ _ _ _ E Hq) as [(q' & E' & H)|(p' & -> & E')].
    + rewrite (read_size_trunc _ _ _ _ E' H).
      match goal with |- context [read_insert ?n ?r ?o ?i ?acc ([], false)] => destruct (read_insert_fail r o i (rd_pair_fail a b (read_fail a H1) (read_fail b H2)) (rd_pair_def a b o) n acc []) as (x & ->) end. eexists. reflexivity.
    + rewrite read_size_ok by (rewrite map_length; exact Hs). rewrite Nat2Z.id.
      match goal with |- context [read_insert ?n ?r ?o ?i ?acc (p', true)] => destruct (read_insert_trunc _ r _ o i (rd_pair_ok a b (archive_roundtrip a) (archive_roundtrip b)) (rd_pair_fail a b (read_fail a H1) (read_fail b H2)) (rd_pair_trunc a b (read_fail b H2) (IHa H1) (IHb H2)) (rd_pair_def a b o) _ acc p' q (map_ok_pair a b l Hl) E' Hq) as (x & ->) end. eexists. reflexivity.
Qed.

(** ** Embedded streams *)
Lemma read_char_ok old c rest : read_char old (c :: rest, true) = (c, (rest, true)).
Proof. unfold read_char. change (c :: rest) with ([c] ++ rest). rewrite sread_ok by reflexivity. cbn [le_num]. f_equal. lia. Qed.
Lemma read_ios_ok : forall content fuel c0 c1 acc rest, (length content < fuel)%nat ->
  read_ios_loop fuel c0 c1 acc (write_ios content ++ rest, true) = Ok (rev acc ++ content, (rest, true)).
Proof.
  induction content as [|c content IH]; intros [|f] c0 c1 acc rest Hf; try (cbn in Hf; lia).
  - cbn [write_ios app read_ios_loop]. rewrite read_char_ok. change (255 =? 255) with true. cbv iota. rewrite read_char_ok. cbn. now rewrite app_nil_r.
  - cbn [write_ios]. destruct (Z.eqb_spec c 255) as [->|Hc].
    + cbn [app read_ios_loop]. rewrite read_char_ok. change (255 =? 255) with true. cbv iota. rewrite read_char_ok. change (255 =? 0) with false. cbv iota.
      rewrite IH by (cbn in Hf; lia). cbn [rev]. now rewrite <- app_assoc.
    + cbn [app read_ios_loop]. rewrite read_char_ok. destruct (Z.eqb_spec c 255); [congruence|].
      rewrite IH by (cbn in Hf; lia). cbn [rev]. now rewrite <- app_assoc.
Qed.
Theorem ios_roundtrip content rest : exists fuel0, forall fuel, (fuel0 <= fuel)%nat ->
  read_ios fuel (write_ios content ++ rest, true) = Ok (content, (rest, true)).
Proof. exists (S (length content)). intros fuel Hf. unfold read_ios. now rewrite read_ios_ok by lia. Qed.

Lemma read_ios_stuck : forall fuel c0 c1 acc s, c0 <> 255 -> read_ios_loop fuel c0 c1 acc (s, false) = Fuel.
Proof.
  induction fuel as [|f IH]; intros c0 c1 acc s Hc; [reflexivity|]. cbn [read_ios_loop]. unfold read_char. cbn [sread].
  destruct (Z.eqb_spec c0 255); [congruence|]. now apply IH.
Qed.
(** Any content that ends before the terminator, unless it ends in the middle of the
    terminator, makes the reader loop forever. *)
Theorem ios_diverges content : Forall (fun c => c <> 255) content -> forall fuel, read_ios fuel (content, true) = Fuel.
Proof.
  intros H fuel. unfold read_ios. assert (G : forall c0 c1 acc, c0 <> 255 -> read_ios_loop fuel c0 c1 acc (content, true) = Fuel); [|apply G; lia].
  revert fuel. induction H as [|c content Hc _ IH]; intros fuel c0 c1 acc Hc0; destruct fuel as [|f]; try reflexivity.
  - cbn [read_ios_loop]. unfold read_char. cbn [sread]. cbn. destruct (Z.eqb_spec c0 255); [congruence|]. now apply read_ios_stuck.
  - cbn [read_ios_loop]. rewrite read_char_ok. destruct (Z.eqb_spec c 255); [congruence|]. now apply IH.
Qed.
