From Verif Require Import Common CommonLemmas Csv_Model Csv_Spec.
Local Open Scope Z_scope.

Definition pow_size (z : Z) : Prop := exists k, 0 <= k /\ z = 1024 * 2 ^ k.
Lemma pow_double z : pow_size z -> pow_size (z * 2).
Proof. intros (k & Hk & ->). exists (k + 1). split; [lia|]. rewrite Z.pow_add_r by lia. lia. Qed.
Lemma pow_pos z : pow_size z -> 0 < z.
Proof. intros (k & Hk & ->). pose proof (Z.pow_pos_nonneg 2 k). lia. Qed.

Definition okst (st : fst_t) : Prop := pow_size (size st) /\ 0 <= cnt st <= size st.

Lemma store_ok st c r : okst st -> exists sz, store st c r = Ok (mkF r (fld st ++ [c]) (cnt st + 1) sz) /\ okst (mkF r (fld st ++ [c]) (cnt st + 1) sz).
Proof.
  intros [H1 H2]. unfold store. pose proof (pow_pos _ H1).
  destruct (Z.leb_spec (size st) (cnt st)).
  - replace (cnt st <? size st * 2) with true by lia. eexists. split; [reflexivity|]. split; cbn; [now apply pow_double|lia].
  - replace (cnt st <? size st) with true by lia. eexists. split; [reflexivity|]. split; cbn; [assumption|lia].
Qed.

Lemma plain_ok s r st : Forall (fun c => ~ special c) s -> (forall c q, r = c :: q -> c = 44 \/ c = 13 \/ c = 10) -> okst st -> rest st = s ++ r ->
  exists sz, plain (s ++ r) st = Ok (mkF r (fld st ++ s) (cnt st + Z.of_nat (length s)) sz) /\ okst (mkF r (fld st ++ s) (cnt st + Z.of_nat (length s)) sz).
Proof.
  revert st. induction s as [|c s IH]; intros st Hs Hr Hst Er.
  - cbn [app length] in *. exists (size st). rewrite app_nil_r. replace (cnt st + Z.of_nat 0) with (cnt st) by lia.
    destruct st as [rs fl cn sz]; cbn [rest fld cnt size] in *. subst rs. split; [|exact Hst].
    destruct r as [|c q]; [reflexivity|]. specialize (Hr c q eq_refl). cbn [plain]. replace (_ || _ || _) with true by lia. reflexivity.
  - inversion Hs as [|? ? Hc Hs']; subst. cbn [app plain]. replace (_ || _ || _) with false by (unfold special in Hc; lia).
    destruct (store_ok st c (s ++ r) Hst) as (sz & -> & H2). cbn [obind].
    destruct (IH _ Hs' Hr H2 eq_refl) as (sz' & E & H3). cbn [fld cnt] in E, H3. rewrite <- app_assoc in E, H3. cbn [app] in E, H3.
    exists sz'. replace (cnt st + Z.of_nat (length (c :: s))) with (cnt st + 1 + Z.of_nat (length s)) by (cbn [length]; lia). auto.
Qed.

Lemma quoted_ok s : forall f d r st, d <> 34 -> okst st -> rest st = doubled s ++ [34] ++ d :: r -> (length s < f)%nat ->
  exists sz, quoted f st = Ok (mkF (d :: r) (fld st ++ s) (cnt st + Z.of_nat (length s)) sz) /\ okst (mkF (d :: r) (fld st ++ s) (cnt st + Z.of_nat (length s)) sz).
Proof.
  induction s as [|c s IH]; intros f d r st Hd Hst Er Hf; (destruct f as [|f]; [cbn [length] in Hf; lia|]); cbn [quoted]; rewrite Er; cbn [doubled app].
  - cbn [rd obind tl]. rewrite Z.eqb_refl. cbn [rd obind]. replace (d =? 34) with false by lia. cbn [negb]. exists (size st).
    rewrite app_nil_r. cbn [length]. replace (cnt st + Z.of_nat 0) with (cnt st) by lia. split; [reflexivity|exact Hst].
  - destruct (Z.eqb_spec c 34) as [->|Hc]; cbn [app rd obind tl].
    + cbn [Z.eqb Pos.eqb rd obind tl negb].
      destruct (store_ok st 34 (doubled s ++ 34 :: d :: r) Hst) as (sz & -> & H2). cbn [obind].
      destruct (IH f d r _ Hd H2 eq_refl ltac:(cbn [length] in Hf; lia)) as (sz' & E & H3). cbn [fld cnt] in E, H3. rewrite <- app_assoc in E, H3. cbn [app] in E, H3.
      exists sz'. replace (cnt st + Z.of_nat (length (34 :: s))) with (cnt st + 1 + Z.of_nat (length s)) by (cbn [length]; lia). auto.
    + replace (c =? 34) with false by lia.
      destruct (store_ok st c (doubled s ++ 34 :: d :: r) Hst) as (sz & -> & H2). cbn [obind].
      destruct (IH f d r _ Hd H2 eq_refl ltac:(cbn [length] in Hf; lia)) as (sz' & E & H3). cbn [fld cnt] in E, H3. rewrite <- app_assoc in E, H3. cbn [app] in E, H3.
      exists sz'. replace (cnt st + Z.of_nat (length (c :: s))) with (cnt st + 1 + Z.of_nat (length s)) by (cbn [length]; lia). auto.
Qed.

Lemma doubled_len s : (length s <= length (doubled s))%nat.
Proof. induction s as [|c s IH]; cbn; [lia|]. destruct (c =? 34); cbn; lia. Qed.

(** What may follow a field: a comma, a line break, or (after a plain one) the end. *)
Definition follows (r : list Z) : Prop := match r with c :: q => c = 44 \/ c = 10 \/ (c = 13 /\ exists q', q = 10 :: q') | [] => True end.

(** Reading one field. *)
Definition read_field (s : list Z) (n z : Z) : outcome fst_t :=
  let* c := rd s in
  if c =? 34 then let* st := quoted (length s) (mkF (tl s) [] n z) in Ok (mkF (skip (rest st)) (fld st) (cnt st) (size st))
  else plain s (mkF s [] n z).

Lemma field_ok s t r n z : field_text s t -> follows r -> (r = [] -> exists c p, t = p ++ [c] /\ ~ special c) -> okst (mkF [] [] n z) ->
  exists r' sz, read_field (t ++ r) n z = Ok (mkF r' s (n + Z.of_nat (length s)) sz) /\ okst (mkF [] [] (n + Z.of_nat (length s)) sz) /\
    (r' = r \/ (exists q, r = 13 :: 10 :: q /\ r' = 10 :: q)).
Proof.
  intros Ht Hf Hne Hok. destruct Ht as [s Hs|s].
  - assert (E1 : exists c, rd (s ++ r) = Ok c /\ c <> 34).
    { destruct s as [|c s]; [|inversion Hs; subst; exists c; split; [reflexivity|unfold special in *; lia]].
      destruct r as [|c q]; [destruct (Hne eq_refl) as (c & p & E & _); destruct p; discriminate|]. exists c. split; [reflexivity|]. cbn in Hf. lia. }
    destruct E1 as (c & E1 & Hc). unfold read_field. rewrite E1. cbn [obind]. replace (c =? 34) with false by lia.
    destruct (plain_ok s r (mkF (s ++ r) [] n z) Hs) as (sz & E & H2); [|exact Hok|reflexivity|].
    { intros d q ->. cbn in Hf. lia. }
    cbn [fld cnt app] in E, H2. exists r, sz. auto.
  - assert (Hr : exists d q, r = d :: q /\ d <> 34).
    { destruct r as [|d q]; [destruct (Hne eq_refl) as (c & p & E & Hc)|exists d, q; split; [reflexivity|cbn in Hf; lia]].
      rewrite app_assoc in E. apply app_inj_tail in E. destruct E as [_ <-]. exfalso. apply Hc. unfold special. lia. }
    destruct Hr as (d & q & -> & Hd). unfold read_field. cbn [app rd obind]. rewrite Z.eqb_refl. cbn [tl].
    destruct (quoted_ok s (length (34 :: (doubled s ++ [34]) ++ d :: q)) d q (mkF ((doubled s ++ [34]) ++ d :: q) [] n z) Hd) as (sz & E & H2).
    + exact Hok.
    + cbn [rest]. rewrite <- app_assoc. reflexivity.
    + cbn [length]. rewrite !app_length. pose proof (doubled_len s). lia.
    + cbn [fld cnt app] in E, H2. rewrite E. cbn [obind rest fld cnt size].
      cbn in Hf. destruct Hf as [->|[->|(-> & q' & ->)]].
      * exists (44 :: q), sz. cbn [skip]. auto.
      * exists (10 :: q), sz. cbn [skip]. auto.
      * exists (10 :: q'), sz. cbn [skip Z.eqb Pos.eqb orb]. split; [reflexivity|]. split; [exact H2|]. right. eauto.
Qed.

Lemma row_S f s n z cur : row (S f) s n z cur =
  let* st := read_field s n z in
  if negb (cnt st <? size st) then UB else
  match rest st with
  | [] => Ok (cur ++ [fld st], [], size st)
  | c :: r => let p := if c =? 13 then r else rest st in
              let* d := rd p in if d =? 10 then Ok (cur ++ [fld st], tl p, size st) else row f (tl p) (cnt st + 1) (size st) (cur ++ [fld st])
  end.
Proof. cbn [row]. unfold read_field. destruct (rd s); reflexivity. Qed.

Lemma line_nonempty r t : line r t -> r <> [].
Proof. intros []; discriminate. Qed.

Lemma row_ok r t : line r t -> forall e u n z cur f, (e = [] /\ u = [] /\ (exists c p, t = p ++ [c] /\ ~ special c)) \/ eol e ->
  okst (mkF [] [] n z) -> Forall (fun p => forall k, 0 <= k -> p <> 1024 * 2 ^ k) (ends n r) -> (length r <= f)%nat ->
  exists sz, row f (t ++ e ++ u) n z cur = Ok (cur ++ r, u, sz) /\ pow_size sz.
Proof.
  intros H. induction H as [s t Ht|s t r t2 Ht Hl IH]; intros e u n z cur f He Hok Hg Hf; (destruct f as [|f]; [cbn [length] in Hf; lia|]); rewrite row_S.
  - destruct (field_ok s t (e ++ u) n z Ht) as (r' & sz & -> & [HP Hc] & Hr').
    + destruct He as [(-> & -> & _)|[]]; cbn; eauto.
    + destruct He as [(-> & -> & Hx)|[]]; [auto|discriminate|discriminate].
    + exact Hok.
    + cbn [obind cnt size rest fld] in *. cbn [ends] in Hg. inversion Hg as [|? ? Hp _]; subst.
      assert (Hlt : n + Z.of_nat (length s) < sz) by (destruct HP as (k & Hk & ->); specialize (Hp k Hk); lia).
      replace (_ <? sz) with true by lia. cbn [negb]. exists sz. split; [|exact HP].
      destruct He as [(-> & -> & _)|He]; [|inversion He; subst e]; cbn [app] in *.
      * destruct Hr' as [->|(q & E & _)]; [reflexivity|discriminate].
      * destruct Hr' as [->|(q & E & _)]; [reflexivity|discriminate].
      * destruct Hr' as [->|(q & E & ->)]; [reflexivity|]. injection E as ->. reflexivity.
  - rewrite <- !app_assoc. cbn [app].
    destruct (field_ok s t (44 :: t2 ++ e ++ u) n z Ht) as (r' & sz & -> & [HP Hc] & Hr').
    + cbn. auto.
    + discriminate.
    + exact Hok.
    + destruct Hr' as [->|(q & E & _)]; [|discriminate].
      cbn [obind cnt size rest fld] in *. cbn [ends] in Hg. inversion Hg as [|? ? Hp Hg']; subst.
      assert (Hlt : n + Z.of_nat (length s) < sz) by (destruct HP as (k & Hk & ->); specialize (Hp k Hk); lia).
      replace (_ <? sz) with true by lia. cbn [negb]. cbn [Z.eqb Pos.eqb rd obind tl].
      destruct (IH e u (n + Z.of_nat (length s) + 1) sz (cur ++ [s]) f) as (sz2 & E & H2).
      * destruct He as [(-> & -> & c & p & E & Hsp)|He]; [left|auto]. repeat split. clear IH Hg Hg'. pose proof (line_nonempty _ _ Hl).
        (* the last character of t ++ , ++ t2 is that of t2 unless t2 is empty *)
        destruct (@exists_last _ t2) as (p' & c' & ->).
        -- intros ->. cbn [app] in E. apply app_inj_tail in E. destruct E as [_ <-]. apply Hsp. unfold special. lia.
        -- cbn [app] in E. rewrite (app_comm_cons p' [c'] 44), app_assoc in E. apply app_inj_tail in E. destruct E as [_ <-]. eauto.
      * split; cbn in *; [exact HP|lia].
      * exact Hg'.
      * cbn [length] in Hf. lia.
      * rewrite E. exists sz2. rewrite <- app_assoc. auto.
Qed.

Lemma line_len r t : line r t -> (length r <= S (length t))%nat.
Proof. intros H. induction H; cbn [length]; [lia|]. rewrite app_length. cbn [app length]. lia. Qed.
Lemma c_string_id s : ~ In 0 s -> c_string s = s.
Proof. induction s as [|c s IH]; intros H; [reflexivity|]. cbn [c_string]. replace (c =? 0) with false by (assert (c <> 0) by (intros ->; apply H; now left); lia). f_equal. apply IH. intros HI. apply H. now right. Qed.

Theorem parse_ok rs s : table rs s -> Forall roomy rs -> Forall (Forall (fun f => ~ In 0 f)) rs -> parse_csv s = Ok rs.
Proof.
  intros H Hg Hz. unfold parse_csv. assert (HS : pow_size 1024) by (exists 0; split; [lia|reflexivity]).
  revert HS. generalize 1024 as z. assert (HF : (length s < S (length s))%nat) by lia. revert HF. generalize (S (length s)) as f.
  induction H as [|r t e rs u Hl He Ht IH|r t c Hl Hc]; intros f HF z HS; (destruct f as [|f]; [lia|]).
  - reflexivity.
  - inversion Hg as [|? ? G1 G2]; subst. inversion Hz as [|? ? Z1 Z2]; subst.
    assert (HE : exists d q, t ++ e ++ u = d :: q) by (destruct t, He; cbn; eauto).
    destruct (row_ok r t Hl e u 0 z [] (S (length (t ++ e ++ u)))) as (sz & E & H2); auto.
    + split; cbn; [exact HS|]. pose proof (pow_pos _ HS). lia.
    + pose proof (line_len r t Hl). rewrite app_length. lia.
    + cbn [app] in E. cbn [rows]. destruct HE as (d & q & HE). rewrite HE in *. rewrite E. cbn [obind].
      rewrite (IH G2 Z2 f); [|apply (f_equal (@length Z)) in HE; rewrite !app_length in HE; destruct He; cbn [length] in *; lia|exact H2]. cbn [obind].
      f_equal. f_equal. rewrite (map_ext_in _ (fun x => x)), map_id; [reflexivity|]. intros x Hx. apply c_string_id. rewrite Forall_forall in Z1. auto.
  - inversion Hg as [|? ? G1 G2]; subst. inversion Hz as [|? ? Z1 Z2]; subst.
    assert (HE : exists d q, t ++ [c] = d :: q) by (destruct t; cbn; eauto).
    destruct (row_ok r (t ++ [c]) Hl [] [] 0 z [] (S (length (t ++ [c])))) as (sz & E & H4); auto.
    + left. repeat split. eauto.
    + split; cbn; [exact HS|]. pose proof (pow_pos _ HS). lia.
    + exact (line_len r _ Hl).
    + rewrite app_nil_r in E. cbn [app] in E. cbn [rows]. destruct HE as (d & q & HE). rewrite HE in *. rewrite E. cbn [obind].
      destruct f as [|f]; [cbn [length] in HF; lia|]. cbn [rows obind]. f_equal. f_equal.
      rewrite (map_ext_in _ (fun x => x)), map_id; [reflexivity|]. intros x Hx. apply c_string_id. rewrite Forall_forall in Z1. auto.
Qed.

(** Rows of at most 1023 bytes (with one for each field) are always roomy. *)
Lemma small_roomy r : Z.of_nat (length (concat r)) + Z.of_nat (length r) <= 1024 -> roomy r.
Proof.
  intros H. unfold roomy. assert (G : forall r pos, 0 <= pos -> Forall (fun p => p < pos + Z.of_nat (length (concat r)) + Z.of_nat (length r)) (ends pos r)).
  { induction r0 as [|s r0 IH]; intros pos Hp; cbn [ends]; constructor; cbn [concat length] in *; rewrite app_length.
    - lia.
    - eapply Forall_impl; [|apply IH; lia]. cbn beta. intros a Ha. lia. }
  eapply Forall_impl; [|apply (G r 0); lia]. cbn beta. intros p Hp k Hk ->. pose proof (Z.pow_pos_nonneg 2 k). lia.
Qed.

(** ** Arbitrary input *)
Lemma store_rest st c r st' : store st c r = Ok st' -> rest st' = r.
Proof. unfold store. destruct (_ <? _); intros [= <-]; reflexivity. Qed.
Lemma store_fuel st c r : store st c r <> Fuel /\ store st c r <> Throw.
Proof. unfold store. destruct (_ <? _); split; discriminate. Qed.

Lemma quoted_fuel f : forall st, (length (rest st) < f)%nat -> quoted f st <> Fuel /\ quoted f st <> Throw /\ (forall st', quoted f st = Ok st' -> (length (rest st') <= length (rest st))%nat).
Proof.
  induction f as [|f IH]; intros st Hf; [lia|]. cbn [quoted]. destruct (rest st) as [|c r] eqn:E; cbn [rd obind tl length] in *; [repeat split; discriminate|].
  assert (G : forall d q, (length q < f)%nat -> (length q <= length r)%nat ->
    (let* st' := store st d q in quoted f st') <> Fuel /\ (let* st' := store st d q in quoted f st') <> Throw /\
    (forall st', (let* st' := store st d q in quoted f st') = Ok st' -> (length (rest st') <= S (length r))%nat)).
  { intros d q H1 H2. destruct (store st d q) as [st1| | |] eqn:E1; cbn [obind]; try (repeat split; discriminate).
    - apply store_rest in E1. specialize (IH st1). rewrite E1 in IH. destruct (IH H1) as (A & B & C). split; [|split]; try assumption. intros st' H. specialize (C st' H). lia.
    - exfalso. exact (proj2 (store_fuel st d q) E1).
    - exfalso. exact (proj1 (store_fuel st d q) E1). }
  destruct (c =? 34).
  - destruct r as [|d q]; cbn [rd obind tl length] in *; [repeat split; discriminate|]. destruct (negb (d =? 34)).
    + repeat split; try discriminate. intros st' [= <-]. cbn. lia.
    + apply G; lia.
  - apply G; lia.
Qed.
Lemma plain_fuel s : forall st, rest st = s -> plain s st <> Fuel /\ plain s st <> Throw /\ (forall st', plain s st = Ok st' -> (length (rest st') <= length s)%nat).
Proof.
  induction s as [|c s IH]; intros st Hr; cbn [plain length].
  - repeat split; try discriminate. intros st' [= <-]. rewrite Hr. cbn. lia.
  - destruct (_ || _); [repeat split; try discriminate; intros st' [= <-]; rewrite Hr; cbn [length]; lia|].
    destruct (store st c s) as [st1| | |] eqn:E1; cbn [obind]; try (repeat split; discriminate).
    + apply store_rest in E1. destruct (IH st1 E1) as (A & B & C). split; [|split]; try assumption. intros st' H. specialize (C st' H). lia.
    + exfalso. exact (proj2 (store_fuel st c s) E1).
    + exfalso. exact (proj1 (store_fuel st c s) E1).
Qed.
Lemma skip_len s : (length (skip s) <= length s)%nat.
Proof. induction s as [|c s IH]; cbn; [lia|]. destruct (_ || _); cbn [length]; lia. Qed.
Lemma field_fuel s n z : read_field s n z <> Fuel /\ read_field s n z <> Throw /\ (forall st', read_field s n z = Ok st' -> (length (rest st') <= length s)%nat).
Proof.
  unfold read_field. destruct s as [|c s]; cbn [rd obind]; [repeat split; discriminate|]. destruct (c =? 34).
  - cbn [tl]. destruct (quoted_fuel (length (c :: s)) (mkF s [] n z)) as (A & B & C); [cbn; lia|]. cbn [rest] in C.
    destruct (quoted _ _) as [st| | |]; cbn [obind]; try (repeat split; congruence).
    repeat split; try discriminate. intros st' [= <-]. cbn [rest length]. pose proof (skip_len (rest st)). specialize (C st eq_refl). lia.
  - apply plain_fuel. reflexivity.
Qed.
Lemma row_fuel f : forall s n z cur, (length s < f)%nat -> row f s n z cur <> Fuel /\ row f s n z cur <> Throw /\
  (forall c r sz, row f s n z cur = Ok (c, r, sz) -> s = [] \/ (length r < length s)%nat).
Proof.
  induction f as [|f IH]; intros s n z cur Hf; [lia|]. rewrite row_S. destruct (field_fuel s n z) as (A & B & C).
  destruct (read_field s n z) as [st| | |] eqn:ER; cbn [obind]; try (repeat split; congruence). specialize (C st eq_refl).
  destruct (negb _); [repeat split; discriminate|]. destruct (rest st) as [|c r] eqn:E.
  - repeat split; try discriminate. intros ? ? ? [= <- <- <-]. destruct s; [now left|right; cbn; lia].
  - cbn zeta. cbn [length] in C. assert (Hp : forall p, p = r \/ p = c :: r ->
      let o := (let* d := rd p in if d =? 10 then Ok (cur ++ [fld st], tl p, size st) else row f (tl p) (cnt st + 1) (size st) (cur ++ [fld st])) in
      o <> Fuel /\ o <> Throw /\ (forall c r sz, o = Ok (c, r, sz) -> s = [] \/ (length r < length s)%nat)).
    { intros p Hp. destruct p as [|d p]; [repeat split; discriminate|]. cbn [rd obind tl].
      assert (HL : (length p < length s)%nat) by (destruct Hp as [<-|[= -> <-]]; cbn [length] in *; lia).
      destruct (d =? 10); [repeat split; try discriminate; intros ? ? ? [= <- <- <-]; now right|].
      destruct (IH p (cnt st + 1) (size st) (cur ++ [fld st]) ltac:(lia)) as (A' & B' & C'). repeat split; auto.
      intros ? ? ? H. destruct (C' _ _ _ H) as [->|]; right; [|lia]. destruct f; [lia|]. rewrite row_S in H. discriminate H. }
    destruct (c =? 13); apply Hp; auto.
Qed.
Theorem parse_terminates s : parse_csv s <> Fuel /\ parse_csv s <> Throw.
Proof.
  unfold parse_csv. generalize 1024 as z. intros z. remember (S (length s)) as f eqn:Ef. assert (HF : (length s < f)%nat) by lia. clear Ef. revert s HF.
  revert z. induction f as [|f IH]; intros z s HF; [lia|]. cbn [rows]. destruct s as [|c s]; [split; discriminate|].
  destruct (row_fuel (S (length (c :: s))) (c :: s) 0 z [] ltac:(lia)) as (A & B & C).
  destruct (row _ _ _ _ _) as [[[cur r] sz]| | |]; cbn [obind]; try (split; congruence).
  destruct (C _ _ _ eq_refl) as [|HL]; [discriminate|]. destruct (IH sz r ltac:(lia)) as [D1 D2].
  destruct (rows f r sz); cbn [obind]; split; congruence.
Qed.

(** Text without quotes *)
Lemma plain_gen s : forall st, rest st = s -> okst st -> exists a r sz, s = a ++ r /\ ~ In 10 a /\ (forall c q, r = c :: q -> c = 44 \/ c = 13 \/ c = 10) /\
  plain s st = Ok (mkF r (fld st ++ a) (cnt st + Z.of_nat (length a)) sz) /\ pow_size sz /\ cnt st + Z.of_nat (length a) <= sz /\ size st <= sz.
Proof.
  induction s as [|c s IH]; intros st Hr [H1 H2].
  - exists [], [], (size st). rewrite (app_nil_r (fld st)). cbn [plain length]. replace (cnt st + Z.of_nat 0) with (cnt st) by lia. destruct st; cbn in *. subst. split; [reflexivity|]. split; [tauto|]. split; [discriminate|]. repeat split; auto; lia.
  - cbn [plain]. destruct ((c =? 44) || (c =? 13) || (c =? 10)) eqn:Ec.
    + exists [], (c :: s), (size st). rewrite (app_nil_r (fld st)). cbn [length]. replace (cnt st + Z.of_nat 0) with (cnt st) by lia. destruct st; cbn in *. subst.
      split; [reflexivity|]. split; [tauto|]. split; [intros d q [= <- <-]; lia|]. repeat split; auto; lia.
    + unfold store. pose proof (pow_pos _ H1). set (sz := if size st <=? cnt st then size st * 2 else size st).
      assert (Hsz : pow_size sz /\ cnt st < sz /\ size st <= sz) by (unfold sz; destruct (Z.leb_spec (size st) (cnt st)); repeat split; auto using pow_double; lia).
      replace (cnt st <? sz) with true by lia. cbn [obind].
      destruct (IH (mkF s (fld st ++ [c]) (cnt st + 1) sz) eq_refl) as (a & r & sz' & -> & Ha & Hr' & E & HP & HL & HM).
      { split; cbn; [tauto|lia]. }
      cbn [fld cnt size] in *. exists (c :: a), r, sz'. rewrite E, <- app_assoc. cbn [app length].
      split; [reflexivity|]. split; [intros [->|HI]; [lia|auto]|]. split; [exact Hr'|]. split; [f_equal; f_equal; lia|]. repeat split; auto; lia.
Qed.

Definition ends_lf (s : list Z) : Prop := s = [] \/ exists a, s = a ++ [10].
Lemma ends_tail a s : ends_lf (a ++ s) -> ends_lf s.
Proof. intros [H|[b H]]; [left; now destruct a|]. destruct s as [|c s] using rev_ind; [now left|]. right. rewrite app_assoc in H. apply app_inj_tail in H. destruct H as [_ ->]. eauto. Qed.

Lemma row_safe f : forall l s n z cur, (length s < f)%nat -> s <> [] -> ~ In 34 s -> ends_lf s ->
  ~ In 10 l -> (forall a b, s = a ++ b -> ~ In 10 a -> Z.of_nat (length l + length a) < 1024) -> 0 <= n <= Z.of_nat (length l) -> pow_size z -> 1024 <= z ->
  exists c a r sz, row f s n z cur = Ok (c, r, sz) /\ s = a ++ r /\ pow_size sz /\ 1024 <= sz.
Proof.
  induction f as [|f IH]; intros l s n z cur Hf Hne Hq He Hl Hg Hn HP Hz; [lia|]. rewrite row_S. unfold read_field.
  destruct s as [|c s]; [contradiction|]. cbn [rd obind]. replace (c =? 34) with false by (assert (c <> 34) by (intros ->; apply Hq; now left); lia).
  specialize (Hg) as Hg0. assert (Hn0 : n < 1024) by (specialize (Hg0 [] (c :: s) eq_refl (fun x => x)); cbn [length] in Hg0; lia).
  destruct (plain_gen (c :: s) (mkF (c :: s) [] n z) eq_refl) as (a & r & sz & Es & Ha & Hr & E & HP' & HL & HM).
  { split; cbn; [exact HP|lia]. }
  rewrite E. cbn [obind cnt size rest fld] in *. specialize (Hg a r Es Ha) as Hga. replace (_ <? sz) with true by lia. cbn [negb].
  assert (Hr0 : r <> []). { intros ->. rewrite app_nil_r in Es. destruct He as [|[b Hb]]; [discriminate|]. apply Ha. rewrite <- Es, Hb. apply in_or_app. right. now left. }
  destruct r as [|d r]; [contradiction|]. cbn zeta. rewrite Es in *. apply ends_tail in He as He'.
  assert (Hlen : (length r < f)%nat) by (rewrite app_length in Hf; cbn [length] in Hf; lia).
  assert (K : forall p w e q, p = e :: q -> d :: r = w ++ p -> ~ In 10 w -> (length w <= 1)%nat ->
    exists c a' r' sz', (let* d0 := rd p in if d0 =? 10 then Ok (cur ++ [a], tl p, sz) else row f (tl p) (n + Z.of_nat (length a) + 1) sz (cur ++ [a])) = Ok (c, r', sz') /\ a ++ d :: r = a' ++ r' /\ pow_size sz' /\ 1024 <= sz').
  { intros p w e q -> Ew Hw Hlw. cbn [rd obind tl]. destruct (Z.eqb_spec e 10) as [->|He10].
    - exists (cur ++ [a]), (a ++ w ++ [10]), q, sz. rewrite Ew, <- !app_assoc. cbn [app]. repeat split; auto; lia.
    - destruct (IH (l ++ a ++ w ++ [e]) q (n + Z.of_nat (length a) + 1) sz (cur ++ [a])) as (c' & a' & r' & sz' & E' & Eq & HP2 & Hz2); try assumption; try lia.
      + assert (length (d :: r) = length (w ++ e :: q)) by now rewrite Ew. rewrite app_length in H. cbn [length] in H. lia.
      + intros ->. rewrite Ew in He'. apply ends_tail in He'. destruct He' as [|[b Hb]]; [discriminate|]. destruct b as [|? [|]]; [injection Hb as Hb; lia|discriminate|discriminate].
      + intros HI. apply Hq. rewrite Ew. apply in_or_app. right. apply in_or_app. right. now right.
      + rewrite Ew in He'. apply ends_tail in He'. exact (ends_tail [e] q He').
      + rewrite !in_app_iff. cbn [In]. intros [|[|[|[|[]]]]]; auto.
      + intros x y -> Hx. specialize (Hg (a ++ w ++ [e] ++ x) y). rewrite !app_length in *. cbn [length] in *.
        assert (~ In 10 (a ++ w ++ [e] ++ x)) by (rewrite !in_app_iff; cbn [In]; intros [|[|[[|[]]|]]]; auto).
        specialize (Hg ltac:(rewrite Ew, <- !app_assoc; reflexivity) H). lia.
      + rewrite !app_length. cbn [length]. lia.
      + exists c', (a ++ w ++ [e] ++ a'), r', sz'. rewrite E', Ew, Eq, <- !app_assoc. cbn [app]. repeat split; auto. }
  destruct (Z.eqb_spec d 13) as [->|Hd].
  - destruct r as [|e q].
    + destruct He' as [|[b Hb]]; [discriminate|]. destruct b as [|? [|]]; [discriminate|discriminate|discriminate].
    + apply (K (e :: q) [13] e q); auto. intros [|[]]; discriminate.
  - apply (K (d :: r) [] d r); auto; cbn; lia.
Qed.

Theorem parse_plain_safe s : ~ In 34 s -> ends_lf s -> (forall a l b, s = a ++ l ++ b -> ~ In 10 l -> Z.of_nat (length l) < 1024) ->
  exists t, parse_csv s = Ok t.
Proof.
  intros Hq He Hg. unfold parse_csv. assert (HS : pow_size 1024) by (exists 0; split; [lia|reflexivity]). assert (HZ : 1024 <= 1024) by lia.
  revert HS HZ. generalize 1024 at 1 3 4 as z. remember (S (length s)) as f eqn:Ef. assert (HF : (length s < f)%nat) by lia. clear Ef. revert s Hq He Hg HF.
  induction f as [|f IH]; intros s Hq He Hg HF z HP HZ; [lia|]. cbn [rows]. destruct s as [|c s]; [eauto|].
  destruct (row_safe (S (length (c :: s))) [] (c :: s) 0 z []) as (cu & a & r & sz & E & Es & HP2 & HZ2); auto; try (cbn [length]; lia); try discriminate.
  { intros a b H H2. exact (Hg [] a b H H2). }
  rewrite E. cbn [obind]. destruct (row_fuel (S (length (c :: s))) (c :: s) 0 z [] ltac:(lia)) as (_ & _ & C). destruct (C _ _ _ E) as [|HL]; [discriminate|].
  destruct (IH r) with (z := sz) as (t & ->); auto; try lia.
  - intros HI. apply Hq. rewrite Es. apply in_or_app. now right.
  - rewrite Es in He. exact (ends_tail a r He).
  - intros x l y -> Hl. apply (Hg (a ++ x) l y); auto. rewrite Es, <- app_assoc. reflexivity.
  - cbn [obind]. eauto.
Qed.
