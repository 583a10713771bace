From Verif Require Import Common CommonLemmas Code_Model Sparse_Spec Sparse_Model.
From Coq Require FinFun.
From Verif Require Random_Model Random_Proof.
Local Open Scope Z_scope.
Ltac Zify.zify_post_hook ::= Z.div_mod_to_equations.

(** * The codes of one row *)
Fixpoint pbytes (n : nat) (v : Z) : list Z :=
  match n with O => [] | S n => if 128 <=? v then Z.land v 127 :: pbytes n (Z.shiftr v 7) else [v + 128] end.
Lemma land127 v : Z.land v 127 = v mod 128.
Proof. change 127 with (Z.ones 7). rewrite Z.land_ones by lia. reflexivity. Qed.
Lemma shiftr7 v : Z.shiftr v 7 = v / 128.
Proof. rewrite Z.shiftr_div_pow2 by lia. reflexivity. Qed.
Lemma prefix_loop_pbytes n : forall v rb, 0 <= v < 2 ^ (7 * Z.of_nat n) -> (0 < n)%nat -> prefix_loop n v rb = Ok (rev (pbytes n v) ++ rb).
Proof.
  induction n as [|n IH]; intros v rb Hv Hn; [lia|]. cbn [prefix_loop pbytes]. destruct (Z.leb_spec 128 v) as [H|H].
  - rewrite Nat2Z.inj_succ in Hv. replace (7 * Z.succ (Z.of_nat n)) with (7 + 7 * Z.of_nat n) in Hv by lia. rewrite Z.pow_add_r in Hv by lia. change (2 ^ 7) with 128 in Hv.
    assert (0 < n)%nat. { destruct n; [cbn in Hv; lia|lia]. }
    rewrite IH; [|rewrite shiftr7; lia|assumption]. cbn [rev]. rewrite <- app_assoc. reflexivity.
  - rewrite Z.mod_small by lia. reflexivity.
Qed.
Lemma pbytes_len n v : (length (pbytes n v) <= n)%nat.
Proof. revert v; induction n as [|n IH]; intros v; cbn [pbytes]; [cbn; lia|]. destruct (128 <=? v); cbn [length]; [specialize (IH (Z.shiftr v 7)); lia|lia]. Qed.
Lemma rd1_at pre b post bit pos : rd1 (mkDec (pre ++ b :: post) pos bit) (Z.of_nat (length pre)) = Ok b.
Proof.
  unfold rd1. cbn [dbuf]. rewrite app_length. cbn [length]. rewrite (proj2 (Z.leb_le _ _)), (proj2 (Z.ltb_lt _ _)) by lia. cbn [andb].
  rewrite Nat2Z.id, app_nth2 by lia. now rewrite Nat.sub_diag.
Qed.
Lemma land128_lo b : 0 <= b < 128 -> Z.land b 128 = 0.
Proof.
  intros H. apply Z.bits_inj'. intros i Hi. rewrite Z.land_spec, Z.bits_0. change 128 with (2 ^ 7). rewrite Z.pow2_bits_eqb by lia.
  destruct (Z.eqb_spec 7 i) as [<-|]; [|now rewrite andb_false_r]. rewrite andb_true_r. destruct (Z.eq_dec b 0) as [->|]; [reflexivity|].
  apply Z.bits_above_log2; [lia|]. apply Z.log2_lt_pow2; lia.
Qed.
Lemma land128_hi b : 128 <= b < 256 -> Z.land b 128 <> 0.
Proof.
  intros H E. assert (T : Z.testbit (Z.land b 128) 7 = true).
  { rewrite Z.land_spec. change 128 with (2 ^ 7). rewrite Z.pow2_bits_true by lia. rewrite andb_true_r.
    replace 7 with (Z.log2 b); [apply Z.bit_log2; lia|]. apply Z.log2_unique; lia. }
  rewrite E, Z.bits_0 in T. discriminate.
Qed.
Lemma dprefix_pbytes n : forall v pre post res k fuel pos bit, 0 <= v < 2 ^ (7 * Z.of_nat n) -> (0 < n <= fuel)%nat -> 0 <= k < 2 ^ 32 -> 0 <= res -> res + v * k < 2 ^ 32 ->
  (128 <= v -> k * 128 < 2 ^ 32) ->
  dprefix_loop fuel res k (mkDec (pre ++ pbytes n v ++ post) pos bit) (Z.of_nat (length pre)) = Ok (res + v * k, Z.of_nat (length pre + length (pbytes n v))).
Proof.
  induction n as [|n IH]; intros v pre post res k fuel pos bit Hv Hn Hk Hr Hs H128; [lia|]. destruct fuel as [|fuel]; [lia|]. cbn [dprefix_loop pbytes].
  destruct (Z.leb_spec 128 v) as [H|H].
  - rewrite Nat2Z.inj_succ in Hv. replace (7 * Z.succ (Z.of_nat n)) with (7 + 7 * Z.of_nat n) in Hv by lia. rewrite Z.pow_add_r in Hv by lia. change (2 ^ 7) with 128 in Hv.
    assert (Hn0 : (0 < n)%nat) by (destruct n; [cbn in Hv; lia|lia]).
    cbn [app]. rewrite rd1_at. cbn [obind]. rewrite land127, shiftr7. rewrite land128_lo by lia. cbn [Z.eqb].
    rewrite Z.shiftl_mul_pow2 by lia. change (2 ^ 7) with 128.
    assert (Hm : v mod 128 * k <= v * k) by (apply Z.mul_le_mono_nonneg_r; lia).
    assert (Hp : 0 <= v mod 128 * k) by (apply Z.mul_nonneg_nonneg; lia).
    unfold u32. rewrite (Z.mod_small (res + _)) by lia. rewrite (Z.mod_small (k * 128)) by lia.
    assert (Hval : v mod 128 * k + v / 128 * (k * 128) = v * k). { transitivity ((128 * (v / 128) + v mod 128) * k); [ring|]. now rewrite <- Z.div_mod. }
    assert (HH := IH (v / 128) (pre ++ [v mod 128]) post (res + v mod 128 * k) (k * 128) fuel pos bit). rewrite <- app_assoc in HH. cbn [app] in HH.
    rewrite app_length in HH. cbn [length] in HH. replace (Z.of_nat (length pre) + 1) with (Z.of_nat (length pre + 1)) by lia. rewrite HH.
    + cbn [length]. f_equal. f_equal; lia.
    + lia.
    + lia.
    + lia.
    + lia.
    + lia.
    + intros Hq. assert (1 * (k * 128 * 128) <= v / 128 / 128 * (k * 128 * 128)) by (apply Z.mul_le_mono_nonneg_r; lia).
      assert (v / 128 / 128 * (k * 128 * 128) <= v * k). { replace (v / 128 / 128 * (k * 128 * 128)) with ((v / 128 / 128 * 128 * 128) * k) by ring. apply Z.mul_le_mono_nonneg_r; lia. }
      lia.
  - cbn [app]. rewrite rd1_at. cbn [obind]. assert (Hb := land128_hi (v + 128)). rewrite (proj2 (Z.eqb_neq _ _)) by (apply Hb; lia).
    unfold u32. replace (v + 128 - 128) with v by lia. rewrite Z.mod_small by (split; [apply Z.add_nonneg_nonneg; [lia|apply Z.mul_nonneg_nonneg; lia]|lia]).
    cbn [length]. f_equal. f_equal. lia.
Qed.
Lemma dec_prefix_at v pre post : 0 <= v < 2 ^ 32 ->
  dec_prefix (mkDec (pre ++ pbytes 5 v ++ post) (Z.of_nat (length pre)) 0) =
  Ok (v, mkDec (pre ++ pbytes 5 v ++ post) (Z.of_nat (length (pre ++ pbytes 5 v))) 0).
Proof.
  intros Hv. unfold dec_prefix. cbn [dbit dpos dbuf]. rewrite Z.eqb_refl.
  assert (Hl : (5 <= S (length (pre ++ pbytes 5 v ++ post)))%nat \/ (S (length (pre ++ pbytes 5 v ++ post)) < 5)%nat) by lia.
  assert (Hf : forall n w, (length (pbytes n w) <= n)%nat) by apply pbytes_len.
  (* fewer bytes than fuel *)
  assert (HX : exists n, (0 < n <= S (length (pre ++ pbytes 5 v ++ post)))%nat /\ v < 2 ^ (7 * Z.of_nat n) /\ pbytes n v = pbytes 5 v).
  { destruct (Z.ltb_spec v 128). { exists 1%nat. cbn [pbytes]. rewrite (proj2 (Z.leb_gt 128 v)) by lia. repeat split; lia || reflexivity. }
    destruct (Z.ltb_spec v (128 * 128)).
    { exists 2%nat. cbn [pbytes]. rewrite (proj2 (Z.leb_le 128 v)) by lia. rewrite shiftr7. rewrite (proj2 (Z.leb_gt 128 (v / 128))) by lia. rewrite app_length. cbn [app length]. repeat split; lia || reflexivity. }
    destruct (Z.ltb_spec v (128 * 128 * 128)).
    { exists 3%nat. cbn [pbytes]. rewrite (proj2 (Z.leb_le 128 v)) by lia. rewrite !shiftr7. rewrite (proj2 (Z.leb_le 128 (v / 128))) by lia. rewrite (proj2 (Z.leb_gt 128 (v / 128 / 128))) by lia. rewrite app_length. cbn [app length]. repeat split; lia || reflexivity. }
    destruct (Z.ltb_spec v (128 * 128 * 128 * 128)).
    { exists 4%nat. cbn [pbytes]. rewrite (proj2 (Z.leb_le 128 v)) by lia. rewrite !shiftr7. rewrite (proj2 (Z.leb_le 128 (v / 128))) by lia. rewrite (proj2 (Z.leb_le 128 (v / 128 / 128))) by lia.
      rewrite (proj2 (Z.leb_gt 128 (v / 128 / 128 / 128))) by lia. rewrite app_length. cbn [app length]. repeat split; lia || reflexivity. }
    exists 5%nat. split; [|split; [lia|reflexivity]]. split; [lia|]. cbn [pbytes]. rewrite (proj2 (Z.leb_le 128 v)) by lia. rewrite !shiftr7.
    rewrite (proj2 (Z.leb_le 128 (v / 128))) by lia. rewrite (proj2 (Z.leb_le 128 (v / 128 / 128))) by lia. rewrite (proj2 (Z.leb_le 128 (v / 128 / 128 / 128))) by lia.
    rewrite app_length. cbn [app length]. lia. }
  destruct HX as [n [Hn [Hvn Hp]]]. assert (HH := dprefix_pbytes n v pre post 0 1 (S (length (pre ++ pbytes 5 v ++ post))) (Z.of_nat (length pre)) 0).
  rewrite Hp in HH. rewrite HH; [|lia|exact Hn|lia|lia|lia|lia]. cbn [obind]. rewrite app_length. f_equal. f_equal. lia.
Qed.
Lemma dec_byte_at b pre post bit : dec_byte (mkDec (pre ++ b :: post) (Z.of_nat (length pre)) bit) = Ok (b, mkDec (pre ++ b :: post) (Z.of_nat (length (pre ++ [b]))) bit).
Proof. unfold dec_byte. cbn [dpos]. rewrite rd1_at. cbn [obind dbuf dbit]. rewrite app_length. cbn [length]. f_equal. f_equal. f_equal. lia. Qed.

Fixpoint row_bytes (prev : Z) (r : row) : list Z :=
  match r with [] => [] | (c, v) :: r => pbytes 5 (u32 (c - prev)) ++ v :: row_bytes c r end.
Lemma row_bytes_len r : forall prev, (length (row_bytes prev r) <= 6 * length r)%nat.
Proof. induction r as [|[c v] r IH]; intros prev; cbn [row_bytes length]; [lia|]. rewrite app_length. cbn [length]. specialize (IH c). assert (H := pbytes_len 5 (u32 (c - prev))). lia. Qed.
Lemma u32_range x : 0 <= u32 x < 2 ^ 32.
Proof. unfold u32. lia. Qed.
Lemma put_row_ok r : forall prev rb, row_ok r -> -1 <= prev < 2 ^ 31 - 1 -> put_row prev r (mkEnc 0 rb) = Ok (mkEnc 0 (rev (row_bytes prev r) ++ rb)).
Proof.
  induction r as [|[c v] r IH]; intros prev rb H Hp; cbn [put_row row_bytes]; [reflexivity|]. inversion H as [|? ? [H1 H2] H3]; subst. cbn [fst snd] in *.
  unfold i32. rewrite (proj2 (Z.leb_le _ _)), (proj2 (Z.ltb_lt _ _)) by lia. cbn [andb obind]. unfold enc_prefix. cbn [rbytes].
  rewrite prefix_loop_pbytes; [|assert (HH := u32_range (c - prev)); change (2 ^ (7 * Z.of_nat 5)) with (2 ^ 35); lia|lia].
  cbn [obind]. unfold enc_byte. cbn [rbytes]. rewrite IH by (assumption || lia). rewrite rev_app_distr. cbn [rev app]. rewrite <- !app_assoc. reflexivity.
Qed.
Lemma int_of_add prev c : - 2 ^ 31 <= c < 2 ^ 31 -> int_of (prev + u32 (c - prev)) = c.
Proof. intros H. unfold int_of, u32. lia. Qed.
Lemma read_row_ok r : forall prev pre post, row_ok r ->
  read_row (length r) prev (mkDec (pre ++ row_bytes prev r ++ post) (Z.of_nat (length pre)) 0) = Ok r.
Proof.
  induction r as [|[c v] r IH]; intros prev pre post H; cbn [read_row row_bytes length]; [reflexivity|]. inversion H as [|? ? [H1 H2] H3]; subst. cbn [fst snd] in *.
  rewrite <- app_assoc. cbn [app]. rewrite dec_prefix_at by apply u32_range. cbn [obind]. rewrite int_of_add by lia.
  rewrite app_assoc. rewrite dec_byte_at. cbn [obind].
  assert (HH := IH c ((pre ++ pbytes 5 (u32 (c - prev))) ++ [v]) post H3). rewrite <- !app_assoc in HH. cbn [app] in HH. rewrite <- !app_assoc. cbn [app]. rewrite HH. reflexivity.
Qed.

(** * The files *)
Definition rb (r : row) : list Z := row_bytes (-1) r.
Definition all_data (m : list row) : list Z := concat (map rb m).
Definition info (r : row) : Z * Z := (Z.of_nat (length r), Z.of_nat (length (rb r))).
Definition infos_of (m : list row) : list (Z * Z) := map info m.
Definition files_of (m : list row) : files := (all_data m, le4 (Z.of_nat (length m)) ++ concat (map (fun i => le4 (fst i) ++ le4 (snd i)) (infos_of m))).
Definition entries (m : list row) : Z := Z.of_nat (length (concat m)).
Lemma data_len m : Z.of_nat (length (all_data m)) <= 6 * entries m.
Proof.
  unfold all_data, entries. induction m as [|r m IH]; cbn [map concat]; [cbn; lia|]. rewrite !app_length. assert (H := row_bytes_len r (-1)). unfold rb at 1. lia.
Qed.
Lemma int_of_id x : - 2 ^ 31 <= x < 2 ^ 31 -> int_of x = x.
Proof. intros H. unfold int_of. rewrite Z.mod_small; lia. Qed.
Definition offs_ok (pre : list row) (o : option Z) : Prop := match o with None => True | Some o => 0 <= o <= Z.of_nat (length (all_data pre)) end.
Lemma all_data_app a b : all_data (a ++ b) = all_data a ++ all_data b.
Proof. unfold all_data. now rewrite map_app, concat_app. Qed.
Lemma append_rows_ok m : forall pre w, Forall row_ok m -> 6 * entries (pre ++ m) < 2 ^ 31 -> data w = all_data pre -> infos w = infos_of pre -> offs_ok pre (last_offset w) ->
  exists o, append_rows m w = Ok (mkW (all_data (pre ++ m)) (infos_of (pre ++ m)) o) /\ offs_ok (pre ++ m) o.
Proof.
  induction m as [|r m IH]; intros pre w H Hs Hd Hi Ho.
  - exists (last_offset w). rewrite app_nil_r. cbn [append_rows]. destruct w as [wd wi wo]; cbn [data infos last_offset] in *; subst. auto.
  - inversion H as [|? ? H1 H2]; subst. cbn [append_rows]. unfold append_row, enc_init.
    rewrite put_row_ok by (assumption || lia). cbn [obind]. unfold get_bytes. cbn [rbytes]. rewrite app_nil_r, rev_involutive. fold (rb r).
    assert (E1 := data_len (pre ++ [r])). assert (E2 : entries (pre ++ [r]) <= entries (pre ++ r :: m)).
    { unfold entries. rewrite !concat_app. cbn [concat]. rewrite !app_length. cbn [length]. lia. }
    assert (E3 : Z.of_nat (length r) <= entries (pre ++ r :: m)). { unfold entries. rewrite !concat_app. cbn [concat]. rewrite !app_length. lia. }
    rewrite all_data_app, app_length in E1. replace (all_data [r]) with (rb r) in E1 by (unfold all_data; cbn; now rewrite app_nil_r).
    rewrite !int_of_id by lia.
    set (o' := match last_offset w with None => Ok 0 | Some o => i32 (o + Z.of_nat (length (rb r))) end).
    assert (Ho' : exists o2, o' = Ok o2 /\ offs_ok (pre ++ [r]) (Some o2)).
    { unfold o'. destruct (last_offset w) as [o|]; cbn [offs_ok] in *; rewrite all_data_app, app_length; replace (all_data [r]) with (rb r) by (unfold all_data; cbn; now rewrite app_nil_r).
      - exists (o + Z.of_nat (length (rb r))). unfold i32. rewrite (proj2 (Z.leb_le _ _)), (proj2 (Z.ltb_lt _ _)) by lia. split; [reflexivity|lia].
      - exists 0. split; [reflexivity|lia]. }
    destruct Ho' as [o2 [-> Ho2]]. cbn [obind].
    replace (pre ++ r :: m) with ((pre ++ [r]) ++ m) by (rewrite <- app_assoc; reflexivity).
    apply IH; cbn [data infos last_offset].
    + assumption.
    + rewrite <- app_assoc. exact Hs.
    + rewrite Hd, all_data_app. f_equal. unfold all_data. cbn. now rewrite app_nil_r.
    + rewrite Hi. unfold infos_of. rewrite map_app. reflexivity.
    + exact Ho2.
Qed.
Lemma write_ok m : Forall row_ok m -> 6 * entries m < 2 ^ 31 -> write m = Ok (files_of m).
Proof.
  intros H Hs. unfold write. destruct (append_rows_ok m [] open_w H Hs eq_refl eq_refl I) as [o [E _]]. cbn [app] in E. rewrite E. cbn [obind]. unfold close_w, files_of. cbn [data infos].
  unfold infos_of. now rewrite map_length.
Qed.

(** * Opening *)
Lemma le_val4 z : le_val (le4 z) = z mod 2 ^ 32.
Proof. unfold le4. cbn [le_val]. lia. Qed.
Lemma rd4_le4 z l : - 2 ^ 31 <= z < 2 ^ 31 -> rd4 (le4 z ++ l) = z.
Proof. intros H. unfold rd4. replace (firstn 4 (le4 z ++ l)) with (le4 z) by reflexivity. rewrite le_val4. unfold int_of. lia. Qed.
Lemma read_infos_ok is : Forall (fun i => 0 <= fst i < 2 ^ 31 /\ 0 <= snd i < 2 ^ 31) is ->
  read_infos (length is) (concat (map (fun i => le4 (fst i) ++ le4 (snd i)) is)) = is.
Proof.
  induction is as [|[a b] is IH]; intros H; cbn [read_infos length map concat]; [reflexivity|]. inversion H as [|? ? [H1 H2] H3]; subst. cbn [fst snd] in *.
  rewrite <- app_assoc. rewrite rd4_le4 by lia.
  replace (skipn 4 (le4 a ++ le4 b ++ concat (map (fun i => le4 (fst i) ++ le4 (snd i)) is))) with (le4 b ++ concat (map (fun i => le4 (fst i) ++ le4 (snd i)) is)) by reflexivity.
  rewrite rd4_le4 by lia.
  replace (skipn 8 (le4 a ++ le4 b ++ concat (map (fun i => le4 (fst i) ++ le4 (snd i)) is))) with (concat (map (fun i => le4 (fst i) ++ le4 (snd i)) is)) by reflexivity.
  now rewrite IH.
Qed.
Fixpoint offs (o : Z) (m : list row) : list Z := match m with [] => [] | r :: m => o :: offs (o + Z.of_nat (length (rb r))) m end.
Lemma sum_up_ok m : forall o, 0 <= o -> o + Z.of_nat (length (all_data m)) < 2 ^ 31 -> sum_up o (infos_of m) = Ok (offs o m).
Proof.
  induction m as [|r m IH]; intros o Ho H; [reflexivity|]. unfold all_data in H. cbn [map concat] in H. rewrite app_length in H. fold (all_data m) in H.
  destruct m as [|r2 m]; [reflexivity|]. change (sum_up o (infos_of (r :: r2 :: m))) with (let* o' := i32 (o + Z.of_nat (length (rb r))) in let* os := sum_up o' (infos_of (r2 :: m)) in Ok (o :: os)).
  unfold i32. rewrite (proj2 (Z.leb_le _ _)), (proj2 (Z.ltb_lt _ _)) by lia. cbn [andb obind]. rewrite IH by lia. reflexivity.
Qed.
Definition reader_of (m : list row) : reader := mkR (attach_stream (all_data m)) (infos_of m) (offs 0 m).
Lemma infos_range m : 6 * entries m < 2 ^ 31 -> Forall (fun i => 0 <= fst i < 2 ^ 31 /\ 0 <= snd i < 2 ^ 31) (infos_of m).
Proof.
  unfold entries. induction m as [|r m IH]; intros H; cbn; constructor; cbn [concat] in H; rewrite app_length in H.
  - unfold info. cbn [fst snd]. assert (HH := row_bytes_len r (-1)). fold (rb r) in HH. lia.
  - apply IH. lia.
Qed.
Lemma open_ok m : fits m -> open_r (files_of m) = Ok (reader_of m).
Proof.
  intros [H1 H2]. unfold open_r, files_of. cbn [fst snd]. rewrite rd4_le4 by lia. rewrite (proj2 (Z.ltb_ge _ _)) by lia.
  replace (Nat.ltb (length (le4 (Z.of_nat (length m)) ++ concat (map (fun i => le4 (fst i) ++ le4 (snd i)) (infos_of m)))) 4) with false
    by (symmetry; apply Nat.ltb_ge; rewrite app_length; cbn [le4 length]; lia).
  replace (skipn 4 (le4 (Z.of_nat (length m)) ++ concat (map (fun i => le4 (fst i) ++ le4 (snd i)) (infos_of m)))) with (concat (map (fun i => le4 (fst i) ++ le4 (snd i)) (infos_of m))) by reflexivity.
  rewrite Nat2Z.id. assert (E := read_infos_ok (infos_of m) (infos_range m H1)). replace (length (infos_of m)) with (length m) in E by (symmetry; unfold infos_of; apply map_length). rewrite E.
  rewrite sum_up_ok; [|lia|assert (HH := data_len m); unfold entries in HH; lia]. reflexivity.
Qed.
Lemma offs_nth m : forall i o r, nth_error m i = Some r -> nth_error (offs o m) i = Some (o + Z.of_nat (length (all_data (firstn i m)))).
Proof.
  induction m as [|r0 m IH]; intros i o r H; [destruct i; discriminate|]. destruct i as [|i]; cbn [nth_error offs firstn].
  - cbn. f_equal. lia.
  - cbn [nth_error] in H. rewrite (IH _ _ _ H). unfold all_data at 2. cbn [map concat]. rewrite app_length. fold (all_data (firstn i m)). f_equal. lia.
Qed.
Lemma offs_len m o : length (offs o m) = length m.
Proof. revert o; induction m; intros o; cbn [offs length]; [reflexivity|]. now rewrite IHm. Qed.
Lemma row_num_ok m : row_num (reader_of m) = Z.of_nat (length m).
Proof. unfold row_num, reader_of, infos_of. cbn [r_infos]. now rewrite map_length. Qed.
Lemma num_ok m i r : 0 <= i -> nth_error m (Z.to_nat i) = Some r -> num (reader_of m) i = Ok (Z.of_nat (length r)).
Proof.
  intros Hi H. unfold num. rewrite row_num_ok. assert (Hl : (Z.to_nat i < length m)%nat) by (apply nth_error_Some; congruence).
  rewrite (proj2 (Z.leb_gt _ _)), (proj2 (Z.ltb_ge _ _)) by lia. unfold reader_of, infos_of. cbn [r_infos]. now rewrite (map_nth_error info _ _ H).
Qed.
Lemma firstn_nth_split {A} (m : list A) i r : nth_error m i = Some r -> m = firstn i m ++ r :: skipn (S i) m.
Proof.
  revert i; induction m as [|x m IH]; intros i H; [destruct i; discriminate|]. destruct i as [|i]; cbn in *; [congruence|]. f_equal. now apply IH.
Qed.
Lemma get_row_ok m i r : Forall row_ok m -> 0 <= i -> nth_error m (Z.to_nat i) = Some r -> get_row (reader_of m) i = Ok (Some r).
Proof.
  intros Hm Hi H. unfold get_row. rewrite (num_ok m i r Hi H). cbn [obind]. rewrite (proj2 (Z.ltb_ge _ _)) by lia.
  unfold offset. unfold reader_of at 1 2 3. cbn [r_offsets]. rewrite offs_len. assert (Hl : (Z.to_nat i < length m)%nat) by (apply nth_error_Some; congruence).
  rewrite (proj2 (Z.leb_gt _ _)), (proj2 (Z.ltb_ge _ _)) by lia. rewrite (offs_nth m _ 0 r H). cbn [obind]. rewrite Nat2Z.id, Z.add_0_l.
  unfold reader_of. cbn [dc]. unfold attach_stream. cbn [dbuf]. rewrite (firstn_nth_split m _ r H) at 1. rewrite all_data_app. unfold all_data at 2. cbn [map concat]. fold (all_data (skipn (S (Z.to_nat i)) m)).
  rewrite <- !app_assoc. unfold rb at 1. rewrite read_row_ok; [reflexivity|]. rewrite Forall_forall in Hm. apply Hm. eapply nth_error_In; eassumption.
Qed.
Lemma get_row_past m i : Z.of_nat (length m) <= i -> get_row (reader_of m) i = Ok None.
Proof. intros H. unfold get_row, num. rewrite row_num_ok. rewrite (proj2 (Z.leb_le _ _)) by lia. reflexivity. Qed.
Lemma skipn_cons {A} (m : list A) : forall i r, nth_error m i = Some r -> skipn i m = r :: skipn (S i) m.
Proof.
  induction m as [|x m IH]; intros i r H; [destruct i; discriminate|]. destruct i as [|i]; [cbn in *; congruence|]. cbn [skipn nth_error] in *. now apply IH.
Qed.
Lemma get_rows_ok m n : forall i, Forall row_ok m -> 0 <= i -> (Z.to_nat i + n)%nat = length m -> get_rows (reader_of m) i n = Ok (skipn (Z.to_nat i) m).
Proof.
  induction n as [|n IH]; intros i Hm Hi H; cbn [get_rows].
  - rewrite skipn_all2 by lia. reflexivity.
  - destruct (nth_error m (Z.to_nat i)) as [r|] eqn:E; [|apply nth_error_None in E; lia]. rewrite (get_row_ok m i r Hm Hi E). cbn [obind]. rewrite IH by (assumption || lia). cbn [obind].
    rewrite (skipn_cons m _ r E). replace (Z.to_nat (i + 1)) with (S (Z.to_nat i)) by lia. reflexivity.
Qed.

(** * Transposing *)
Notation lookup := Random_Model.lookup. Notation insert := Random_Model.insert.
Fixpoint zsum (l : list Z) : Z := match l with [] => 0 | x :: l => x + zsum l end.
Lemma zsum_app a b : zsum (a ++ b) = zsum a + zsum b.
Proof. induction a; cbn [app zsum]; lia. Qed.
Lemma zsum_nonneg l : Forall (fun x => 0 <= x) l -> 0 <= zsum l.
Proof. induction 1; cbn [zsum]; lia. Qed.
Lemma zsum_repeat n : zsum (repeat 0 n) = 0.
Proof. induction n; cbn [repeat zsum]; lia. Qed.
Lemma nth_repeat0 n i : nth i (repeat 0 n) 0 = 0.
Proof. revert i; induction n as [|n IH]; intros [|i]; cbn; auto. Qed.
Record counts (seen t : list Z) : Prop := mkCounts {
  c_nonneg : Forall (fun x => 0 <= x) t;
  c_sum : zsum t = Z.of_nat (length seen);
  c_in : forall c, In c seen -> 0 <= c < Z.of_nat (length t);
  c_last : t <> [] -> In (Z.of_nat (length t) - 1) seen /\ 0 < last t 0 }.
Lemma last_app_cons {A} (a : list A) x d : last (a ++ [x]) d = x.
Proof. apply last_last. Qed.
Lemma count_one seen t c : counts seen t -> 0 <= c ->
  let t1 := if Z.of_nat (length t) <=? c then t ++ repeat 0 (Z.to_nat (c + 1) - length t) else t in
  0 <= nth (Z.to_nat c) t1 0 <= Z.of_nat (length seen) /\ counts (c :: seen) (firstn (Z.to_nat c) t1 ++ (nth (Z.to_nat c) t1 0 + 1) :: skipn (S (Z.to_nat c)) t1).
Proof.
  intros [H1 H2 H3 H4] Hc. cbn zeta. destruct (Z.leb_spec (Z.of_nat (length t)) c) as [L|L].
  - set (k := (Z.to_nat (c + 1) - length t)%nat). assert (Hk : k = S (Z.to_nat c - length t)) by lia.
    rewrite app_nth2 by lia. replace (nth (Z.to_nat c - length t) (repeat 0 k) 0) with 0 by (symmetry; apply nth_repeat0).
    rewrite firstn_app, firstn_all2 by lia. replace (firstn (Z.to_nat c - length t) (repeat 0 k)) with (repeat 0 (Z.to_nat c - length t)).
    2:{ rewrite Hk. clear. induction (Z.to_nat c - length t)%nat as [|n IH]; [reflexivity|]. cbn [repeat firstn] in *. now rewrite <- IH. }
    rewrite (skipn_all2 (n := S (Z.to_nat c))) by (rewrite app_length, repeat_length; lia). split; [lia|]. split.
    + apply Forall_app; split; [apply Forall_app; split; [assumption|]|repeat constructor; lia]. apply Forall_forall. intros x Hx. apply repeat_spec in Hx. lia.
    + rewrite !zsum_app. cbn [zsum length]. rewrite zsum_repeat. lia.
    + intros d. rewrite !app_length, repeat_length. cbn [length]. intros [<-|Hd]; [lia|]. apply H3 in Hd. lia.
    + intros _. rewrite last_last. split; [|lia]. left. rewrite !app_length, repeat_length. cbn [length]. lia.
  - assert (Hn : (Z.to_nat c < length t)%nat) by lia. destruct (nth_error t (Z.to_nat c)) as [x|] eqn:E; [|apply nth_error_None in E; lia].
    assert (E0 := firstn_nth_split t _ x E). assert (En : nth (Z.to_nat c) t 0 = x) by (apply nth_error_nth with (d := 0) in E; exact E).
    rewrite En. set (a := firstn (Z.to_nat c) t) in *. set (b := skipn (S (Z.to_nat c)) t) in *. clearbody a b.
    assert (La : length a = Z.to_nat c \/ True) by auto. rewrite E0 in H1, H2, H3, H4. rewrite Forall_app in H1. destruct H1 as [Ha H1]. inversion H1 as [|? ? Hx Hb]; subst x0 l.
    rewrite zsum_app in H2. cbn [zsum] in H2. assert (Pa := zsum_nonneg a Ha). assert (Pb := zsum_nonneg b Hb). split; [lia|].
    rewrite app_length in H3, H4. cbn [length] in H3, H4. split.
    + apply Forall_app; split; [assumption|]. constructor; [lia|assumption].
    + rewrite zsum_app. cbn [zsum length]. lia.
    + intros d. rewrite app_length. cbn [length]. intros [<-|Hd]; [|now apply H3]. rewrite E0, app_length in L. cbn [length] in L. lia.
    + intros _. destruct H4 as [H4 H5]; [intros Hf; destruct a; discriminate|]. rewrite app_length. cbn [length]. split; [right; exact H4|].
      destruct b as [|y b] using rev_ind; [rewrite last_last in *; lia|].
      replace (a ++ (x + 1) :: b ++ [y]) with ((a ++ (x + 1) :: b) ++ [y]) by (rewrite <- app_assoc; reflexivity). rewrite last_last.
      replace (a ++ x :: b ++ [y]) with ((a ++ x :: b) ++ [y]) in H5 by (rewrite <- app_assoc; reflexivity). rewrite last_last in H5. exact H5.
Qed.

Definition cols (m : list row) : list Z := map fst (concat m).
Lemma count_row_ok l : forall seen t, Forall (fun e => 0 <= fst e) l -> counts seen t -> Z.of_nat (length seen + length l) < 2 ^ 31 ->
  exists t', count_row l t = Ok t' /\ counts (rev (map fst l) ++ seen) t'.
Proof.
  induction l as [|[c v] l IH]; intros seen t Hl Ht Hs; cbn [count_row].
  - exists t. split; [reflexivity|exact Ht].
  - inversion Hl as [|? ? Hc Hl']; subst. cbn [fst length] in *. rewrite (proj2 (Z.ltb_ge c 0)) by lia.
    destruct (count_one seen t c Ht Hc) as [E1 E2].
    set (t1 := if Z.of_nat (length t) <=? c then t ++ repeat 0 (Z.to_nat (c + 1) - length t) else t) in *.
    unfold i32. rewrite (proj2 (Z.leb_le _ _)), (proj2 (Z.ltb_lt _ _)) by lia. cbn [andb obind].
    destruct (IH (c :: seen) _ Hl' E2 ltac:(cbn [length]; lia)) as [t' [F1 F2]]. exists t'. split; [exact F1|]. cbn [map fst rev]. rewrite <- app_assoc. exact F2.
Qed.
Lemma count_rows_ok ls : forall seen t, Forall (Forall (fun e : Z * Z => 0 <= fst e)) ls -> counts seen t -> Z.of_nat (length seen) + entries ls < 2 ^ 31 ->
  exists t', count_rows ls t = Ok t' /\ counts (rev (cols ls) ++ seen) t'.
Proof.
  unfold entries, cols. induction ls as [|l ls IH]; intros seen t Hl Ht Hs; cbn [count_rows].
  - exists t. split; [reflexivity|exact Ht].
  - inversion Hl as [|? ? H1 H2]; subst. cbn [concat] in Hs. rewrite app_length in Hs. destruct (count_row_ok l seen t H1 Ht ltac:(lia)) as [t1 [E1 E2]]. rewrite E1. cbn [obind].
    destruct (IH _ _ H2 E2) as [t' [F1 F2]]. { rewrite app_length, rev_length, map_length. lia. }
    exists t'. split; [exact F1|]. cbn [concat]. rewrite map_app, rev_app_distr, <- app_assoc. exact F2.
Qed.
Fixpoint chain (st : Z) (bs : list Z) (e : Z) : Prop := match bs with [] => st = e | b :: bs => st <= b <= e /\ chain b bs e end.
Lemma bounds_chain limit t : forall i st sum, st <= i -> 0 <= sum -> Forall (fun x => 0 <= x) t -> sum + zsum t < 2 ^ 64 -> (t = [] -> 0 < sum \/ st = i) -> (t <> [] -> 0 < last t 0) ->
  chain st (bounds limit t i sum) (i + Z.of_nat (length t)).
Proof.
  induction t as [|n t IH]; intros i st sum Hst Hs Ht Hz H1 H2; cbn [bounds length].
  - rewrite Z.add_0_r. destruct (Z.ltb_spec 0 sum) as [H|H]; cbn [chain]; [lia|]. destruct (H1 eq_refl); lia.
  - inversion Ht as [|? ? Hn Ht']; subst. cbn [zsum] in Hz. assert (Pz := zsum_nonneg t Ht'). rewrite Z.mod_small by lia.
    assert (HL : t <> [] -> 0 < last t 0). { intros Ne. destruct t; [congruence|]. exact (H2 ltac:(discriminate)). }
    replace (i + Z.of_nat (S (length t))) with (i + 1 + Z.of_nat (length t)) by lia.
    destruct (limit <=? sum + n).
    + cbn [chain]. split; [lia|]. apply IH; [lia|lia|assumption|lia|lia|exact HL].
    + apply IH; [lia|lia|assumption|lia| |exact HL]. intros ->. left. specialize (H2 ltac:(discriminate)). cbn in H2. lia.
Qed.

(** a column of the matrix *)
Fixpoint col (j : Z) (m : list row) (c : Z) : row :=
  match m with [] => [] | l :: m => match lookup l c with Some v => (j, v) :: col (j + 1) m c | None => col (j + 1) m c end end.
Lemma insert_end (m : row) j v : Forall (fun e => fst e < j) m -> insert m j v = m ++ [(j, v)].
Proof.
  induction m as [|[k w] m IH]; intros H; cbn [insert app]; [reflexivity|]. inversion H as [|? ? H1 H2]; subst. cbn [fst] in H1.
  rewrite (proj2 (Z.ltb_ge _ _)), (proj2 (Z.eqb_neq _ _)) by lia. now rewrite IH.
Qed.
Definition upd {A} (k : nat) (x : A) (h : list A) : list A := firstn k h ++ x :: skipn (S k) h.
Ltac fold_upd := match goal with |- context[?a ++ ?x :: skipn (S ?k) ?h] => change (a ++ x :: skipn (S k) h) with (upd k (x : row) h) end.
Lemma upd_len {A} k (x : A) h : (k < length h)%nat -> length (upd k x h) = length h.
Proof. intros H. unfold upd. rewrite app_length, firstn_length. cbn [length]. rewrite skipn_length. lia. Qed.
Lemma upd_nth {A} (x d : A) h : forall k i, (k < length h)%nat -> nth i (upd k x h) d = if Nat.eqb i k then x else nth i h d.
Proof.
  unfold upd. induction h as [|y h IH]; intros k i H; cbn [length] in H; [lia|]. destruct k as [|k], i as [|i]; cbn [firstn skipn app nth Nat.eqb]; try reflexivity.
  apply IH. lia.
Qed.
Lemma lookup_none (l : row) c : Forall (fun e => c < fst e) l -> lookup l c = None.
Proof. induction 1 as [|[k v] l H _ IH]; cbn [lookup]; [reflexivity|]. cbn [fst] in H. rewrite (proj2 (Z.eqb_neq _ _)) by lia. exact IH. Qed.
Lemma scatter_len st en j l : forall h, length h = Z.to_nat (en - st) -> length (scatter st en j l h) = length h.
Proof.
  induction l as [|[c v] l IH]; intros h H; cbn [scatter]; [reflexivity|]. destruct ((st <=? c) && (c <? en)) eqn:E; [|now apply IH].
  apply andb_true_iff in E as [E1 E2]. apply Z.leb_le in E1. apply Z.ltb_lt in E2. fold_upd.
  rewrite IH; rewrite upd_len; lia.
Qed.
Lemma scatter_nth st en j l : forall h k, ascending l -> length h = Z.to_nat (en - st) -> (k < length h)%nat ->
  nth k (scatter st en j l h) [] = match lookup l (st + Z.of_nat k) with Some v => insert (nth k h []) j v | None => nth k h [] end.
Proof.
  induction l as [|[c v] l IH]; intros h k Hl H Hk; cbn [scatter lookup]; [reflexivity|]. destruct Hl as [Hl1 Hl2].
  destruct ((st <=? c) && (c <? en)) eqn:E.
  - apply andb_true_iff in E as [E1 E2]. apply Z.leb_le in E1. apply Z.ltb_lt in E2. fold_upd.
    rewrite IH; [|assumption|rewrite upd_len; lia|rewrite upd_len; lia]. rewrite upd_nth by lia.
    destruct (Z.eqb_spec c (st + Z.of_nat k)) as [Ec|Ec].
    + rewrite lookup_none by (subst c; exact Hl1). replace (Z.to_nat (c - st)) with k by lia. now rewrite Nat.eqb_refl.
    + replace (Nat.eqb k (Z.to_nat (c - st))) with false by (symmetry; apply Nat.eqb_neq; lia). reflexivity.
  - rewrite IH by assumption. destruct (Z.eqb_spec c (st + Z.of_nat k)) as [Ec|Ec]; [|reflexivity]. exfalso. apply andb_false_iff in E as [E|E]; [apply Z.leb_gt in E|apply Z.ltb_ge in E]; lia.
Qed.
Lemma scatter_rows_nth st en ls : forall j h k, Forall ascending ls -> length h = Z.to_nat (en - st) -> (k < length h)%nat -> Forall (fun e => fst e < j) (nth k h []) ->
  nth k (scatter_rows st en j ls h) [] = nth k h [] ++ col j ls (st + Z.of_nat k).
Proof.
  induction ls as [|l ls IH]; intros j h k Hl H Hk Hj; cbn [scatter_rows col]; [now rewrite app_nil_r|]. inversion Hl as [|? ? H1 H2]; subst.
  rewrite IH; [|assumption|rewrite scatter_len; assumption|rewrite scatter_len; assumption|].
  - rewrite scatter_nth by assumption. destruct (lookup l (st + Z.of_nat k)) as [v|]; [|reflexivity]. rewrite insert_end by assumption. rewrite <- app_assoc. reflexivity.
  - rewrite scatter_nth by assumption. destruct (lookup l (st + Z.of_nat k)) as [v|].
    + rewrite insert_end by assumption. apply Forall_app; split; [eapply Forall_impl; [|exact Hj]; cbn; intros; lia|repeat constructor; cbn; lia].
    + eapply Forall_impl; [|exact Hj]; cbn; intros; lia.
Qed.
Lemma scatter_rows_len st en ls : forall j h, length h = Z.to_nat (en - st) -> length (scatter_rows st en j ls h) = length h.
Proof. induction ls as [|l ls IH]; intros j h H; cbn [scatter_rows]; [reflexivity|]. rewrite IH; rewrite scatter_len; assumption || reflexivity. Qed.
Definition zseq (st : Z) (n : nat) : list Z := map (fun k => st + Z.of_nat k) (seq 0 n).
Lemma zseq_nth st n k : (k < n)%nat -> nth k (zseq st n) 0 = st + Z.of_nat k.
Proof.
  intros H. unfold zseq. transitivity (nth k (map (fun k => st + Z.of_nat k) (seq 0 n)) (st + Z.of_nat 0)); [apply nth_indep; rewrite map_length, seq_length; lia|].
  rewrite (map_nth (fun k => st + Z.of_nat k)). rewrite seq_nth by lia. reflexivity.
Qed.
Lemma zseq_len st n : length (zseq st n) = n.
Proof. unfold zseq. now rewrite map_length, seq_length. Qed.
Lemma zseq_app a b : zseq 0 (a + b) = zseq 0 a ++ zseq (Z.of_nat a) b.
Proof.
  unfold zseq. rewrite seq_app, map_app. f_equal. rewrite Nat.add_0_l. rewrite <- (Nat.add_0_r a) at 1. generalize 0%nat as s. induction b as [|b IH]; intros s; cbn [seq map]; [reflexivity|]. f_equal; [lia|].
  replace (S (a + s)) with (a + S s)%nat by lia. apply IH.
Qed.
Lemma scatter_all st en m : Forall ascending m -> scatter_rows st en 0 m (repeat [] (Z.to_nat (en - st))) = map (col 0 m) (zseq st (Z.to_nat (en - st))).
Proof.
  intros H. apply nth_ext with (d := []) (d' := []).
  - rewrite scatter_rows_len by apply repeat_length. now rewrite repeat_length, map_length, zseq_len.
  - intros k. rewrite scatter_rows_len, repeat_length by apply repeat_length. intros Hk.
    rewrite scatter_rows_nth; [|assumption|apply repeat_length|now rewrite repeat_length|].
    + rewrite nth_repeat. cbn [app]. transitivity (nth k (map (col 0 m) (zseq st (Z.to_nat (en - st)))) (col 0 m 0)); [|apply nth_indep; now rewrite map_length, zseq_len].
      rewrite map_nth, zseq_nth by assumption. reflexivity.
    + rewrite nth_repeat. constructor.
Qed.

(** what a column holds *)
Lemma asc_sorted (l : row) : ascending l -> Random_Proof.sorted l.
Proof. unfold Random_Proof.sorted. induction l as [|[c v] l IH]; intros H; [constructor|]. destruct H as [H1 H2]. constructor; [now apply IH|exact H1]. Qed.
Lemma lookup_iff (l : row) c v : ascending l -> lookup l c = Some v <-> In (c, v) l.
Proof. intros H. split; [apply Random_Proof.lookup_in|]. apply Random_Proof.sorted_lookup. now apply asc_sorted. Qed.
Lemma col_in m c : forall j r v, In (r, v) (col j m c) <-> j <= r /\ exists l, nth_error m (Z.to_nat (r - j)) = Some l /\ lookup l c = Some v.
Proof.
  induction m as [|l m IH]; intros j r v; cbn [col].
  - split; [intros []|]. intros [_ [l [H _]]]. destruct (Z.to_nat (r - j)); discriminate.
  - assert (Hs : In (r, v) (col (j + 1) m c) <-> j < r /\ exists l', nth_error (l :: m) (Z.to_nat (r - j)) = Some l' /\ lookup l' c = Some v).
    { rewrite IH. split.
      - intros [H1 [l' [H2 H3]]]. split; [lia|]. exists l'. split; [|exact H3]. replace (Z.to_nat (r - j)) with (S (Z.to_nat (r - (j + 1)))) by lia. exact H2.
      - intros [H1 [l' [H2 H3]]]. split; [lia|]. exists l'. split; [|exact H3]. replace (Z.to_nat (r - j)) with (S (Z.to_nat (r - (j + 1)))) in H2 by lia. exact H2. }
    assert (Hl : r = j -> nth_error (l :: m) (Z.to_nat (r - j)) = Some l) by (intros ->; rewrite Z.sub_diag; reflexivity).
    destruct (lookup l c) as [w|] eqn:E.
    + cbn [In]. rewrite Hs. split.
      * intros [H|[H1 H2]]; [|split; [lia|exact H2]]. injection H as <- <-. split; [lia|]. exists l. auto.
      * intros [H1 [l' [H2 H3]]]. destruct (Z.eq_dec r j) as [->|]; [|right; split; [lia|eauto]]. left. rewrite Hl in H2 by reflexivity. congruence.
    + rewrite Hs. split; [intros [H1 H2]; split; [lia|exact H2]|]. intros [H1 [l' [H2 H3]]]. split; [|eauto].
      destruct (Z.eq_dec r j) as [->|]; [|lia]. rewrite Hl in H2 by reflexivity. congruence.
Qed.
Lemma col_asc m c : forall j, ascending (col j m c) /\ Forall (fun e => j <= fst e < j + Z.of_nat (length m)) (col j m c).
Proof.
  induction m as [|l m IH]; intros j; cbn [col]; [repeat constructor|]. destruct (IH (j + 1)) as [H1 H2]. cbn [length].
  assert (H3 : Forall (fun e => j + 1 <= fst e < j + Z.of_nat (S (length m))) (col (j + 1) m c)) by (eapply Forall_impl; [|exact H2]; cbn; intros; lia).
  destruct (lookup l c).
  - split; [cbn; split; [eapply Forall_impl; [|exact H3]; cbn; intros; lia|exact H1]|]. constructor; [cbn; lia|]. eapply Forall_impl; [|exact H3]; cbn; intros; lia.
  - split; [exact H1|]. eapply Forall_impl; [|exact H3]; cbn; intros; lia.
Qed.
Lemma col_ok m c : Forall row_ok m -> Z.of_nat (length m) < 2 ^ 31 -> row_ok (col 0 m c).
Proof.
  intros Hm Hl. apply Forall_forall. intros [r v] H. cbn [fst snd]. split.
  - destruct (col_asc m c 0) as [_ H2]. rewrite Forall_forall in H2. specialize (H2 _ H). cbn [fst] in H2. lia.
  - apply col_in in H as [_ [l [H1 H2]]]. apply nth_error_In in H1. apply Random_Proof.lookup_in in H2. rewrite Forall_forall in Hm. specialize (Hm _ H1). unfold row_ok in Hm. rewrite Forall_forall in Hm.
    apply (Hm _ H2).
Qed.
(** no more entries than before *)
Lemma col_entries cs : NoDup cs -> forall m j, (length (concat (map (col j m) cs)) <= length (concat m))%nat.
Proof.
  intros Hd. induction m as [|l m IH]; intros j.
  - cbn [concat]. clear Hd. induction cs; cbn in *; auto.
  - cbn [concat]. rewrite app_length.
    set (hit := fun c => match lookup l c with Some _ => true | None => false end).
    assert (E : length (concat (map (col j (l :: m)) cs)) = (length (filter hit cs) + length (concat (map (col (j + 1) m) cs)))%nat).
    { clear. induction cs as [|c cs IH]; [reflexivity|]. cbn [map concat filter]. rewrite !app_length, IH. cbn [col]. unfold hit at 2. destruct (lookup l c); cbn [length]; lia. }
    rewrite E. specialize (IH (j + 1)). enough (length (filter hit cs) <= length l)%nat by lia.
    rewrite <- (map_length fst l). apply NoDup_incl_length; [now apply NoDup_filter|]. intros c Hc. apply filter_In in Hc as [_ Hc]. unfold hit in Hc.
    destruct (lookup l c) as [v|] eqn:F; [|discriminate]. apply Random_Proof.lookup_in in F. apply in_map_iff. exists (c, v). auto.
Qed.
Lemma zseq_nodup st n : NoDup (zseq st n).
Proof. unfold zseq. apply FinFun.Injective_map_NoDup; [intros a b; lia|apply seq_NoDup]. Qed.
Definition transposed (n : nat) (m : list row) : list row := map (col 0 m) (zseq 0 n).
Lemma transposed_entries m n : entries (transposed n m) <= entries m.
Proof. unfold entries, transposed. assert (H := col_entries (zseq 0 n) (zseq_nodup 0 n) m 0). lia. Qed.
Lemma transposed_app m a b : transposed (a + b) m = transposed a m ++ map (col 0 m) (zseq (Z.of_nat a) b).
Proof. unfold transposed. now rewrite zseq_app, map_app. Qed.
Lemma parts_ok m bs : forall st w e, Forall row_ok m -> Forall ascending m -> 6 * entries m < 2 ^ 31 -> Z.of_nat (length m) < 2 ^ 31 -> 0 <= st -> chain st bs e ->
  data w = all_data (transposed (Z.to_nat st) m) -> infos w = infos_of (transposed (Z.to_nat st) m) -> offs_ok (transposed (Z.to_nat st) m) (last_offset w) ->
  exists w', parts (reader_of m) st bs w = Ok w' /\ data w' = all_data (transposed (Z.to_nat e) m) /\ infos w' = infos_of (transposed (Z.to_nat e) m).
Proof.
  induction bs as [|b bs IH]; intros st w e Hm Ha Hs Hl Hst Hc Hd Hi Ho; cbn [parts chain] in *.
  - subst e. exists w. auto.
  - destruct Hc as [Hb Hc]. rewrite row_num_ok, Nat2Z.id. rewrite (get_rows_ok m (length m) 0) by (assumption || lia). cbn [obind skipn Z.to_nat].
    rewrite (scatter_all st b m Ha).
    assert (ET : transposed (Z.to_nat b) m = transposed (Z.to_nat st) m ++ map (col 0 m) (zseq st (Z.to_nat (b - st)))).
    { replace (Z.to_nat b) with (Z.to_nat st + Z.to_nat (b - st))%nat by lia. rewrite transposed_app. now rewrite Z2Nat.id by lia. }
    destruct (append_rows_ok (map (col 0 m) (zseq st (Z.to_nat (b - st)))) (transposed (Z.to_nat st) m) w) as [o [E1 E2]]; [| |assumption..|].
    + apply Forall_forall. intros r Hr. apply in_map_iff in Hr as [c [<- _]]. now apply col_ok.
    + rewrite <- ET. assert (HT := transposed_entries m (Z.to_nat b)). lia.
    + rewrite E1. cbn [obind]. rewrite <- ET in *. apply IH; cbn [data infos last_offset]; try assumption; try reflexivity. lia.
Qed.
Lemma transposed_len n m : length (transposed n m) = n.
Proof. unfold transposed. now rewrite map_length, zseq_len. Qed.
Lemma transposed_nth n m c : 0 <= c < Z.of_nat n -> nth_error (transposed n m) (Z.to_nat c) = Some (col 0 m c).
Proof.
  intros H. unfold transposed. assert (E : nth_error (zseq 0 n) (Z.to_nat c) = Some c).
  { rewrite (nth_error_nth' _ 0) by (rewrite zseq_len; lia). rewrite zseq_nth by lia. f_equal. lia. }
  now rewrite (map_nth_error (col 0 m) _ _ E).
Qed.
Lemma matrix_split m : matrix m -> Forall row_ok m /\ Forall ascending m.
Proof. unfold matrix. intros H. split; (eapply Forall_impl; [|exact H]); cbn; tauto. Qed.
Definition trimmed (m : list row) : Prop := last m [(0, 0)] <> [].
Lemma transpose_ok m free : matrix m -> fits m ->
  exists t, transpose (Some free) (files_of m) = Ok (Some (files_of t)) /\ matrix t /\ fits t /\ trimmed t /\ (forall r c v, entry t c r v <-> entry m r c v).
Proof.
  intros Hm [Hs Hl]. destruct (matrix_split m Hm) as [Hr Ha]. fold (entries m) in Hs. unfold transpose. rewrite open_ok by (split; assumption). cbn [obind].
  rewrite row_num_ok, Nat2Z.id. rewrite (get_rows_ok m (length m) 0) by (assumption || lia). cbn [obind skipn Z.to_nat].
  assert (Hnn : Forall (Forall (fun e : Z * Z => 0 <= fst e)) m). { eapply Forall_impl; [|exact Hr]. intros l Hl'. eapply Forall_impl; [|exact Hl']. cbn. intros; lia. }
  destruct (count_rows_ok m [] [] Hnn) as [t [E1 E2]].
  { split; [constructor|reflexivity|intros c []|congruence]. }
  { cbn [length]. assert (0 <= entries m) by (unfold entries; lia). lia. }
  rewrite E1. cbn [obind]. rewrite app_nil_r in E2. destruct E2 as [C1 C2 C3 C4].
  assert (HB : forall l c v, In l m -> In (c, v) l -> 0 <= c < Z.of_nat (length t)).
  { intros l c v H1 H2. apply C3. apply -> in_rev. unfold cols. apply in_map_iff. exists (c, v). split; [reflexivity|]. apply in_concat. eauto. }
  assert (Hch := bounds_chain (free / 20) t 0 0 0 ltac:(lia) ltac:(lia) C1).
  rewrite rev_length in C2. assert (Hc : length (cols m) = length (concat m)) by (unfold cols; apply map_length). fold (entries m) in Hs. unfold entries in Hs.
  destruct (parts_ok m (bounds (free / 20) t 0 0) 0 open_w (0 + Z.of_nat (length t)) Hr Ha Hs Hl ltac:(lia)) as [w [P1 [P2 P3]]].
  { apply Hch; [lia|auto|]. intros Ht. apply C4, Ht. }
  { reflexivity. } { reflexivity. } { exact I. }
  rewrite P1. cbn [obind]. rewrite Z.add_0_l, Nat2Z.id in P2, P3. exists (transposed (length t) m).
  assert (Hlt : Z.of_nat (length t) < 2 ^ 31).
  { destruct t as [|x t']; [cbn; lia|]. destruct C4 as [C4 _]; [discriminate|]. apply in_rev in C4. unfold cols in C4. apply in_map_iff in C4 as [[c v] [F1 F2]].
    apply in_concat in F2 as [l [F2 F3]]. rewrite Forall_forall in Hr. specialize (Hr _ F2). unfold row_ok in Hr. rewrite Forall_forall in Hr. specialize (Hr _ F3). cbn [fst] in *. lia. }
  split; [|split; [|split; [|split]]].
  - unfold close_w, files_of. rewrite P2, P3. unfold infos_of. now rewrite map_length.
  - unfold matrix, transposed. apply Forall_forall. intros r Hr'. apply in_map_iff in Hr' as [c [<- _]]. split; [now apply col_ok|apply col_asc].
  - split; [|rewrite transposed_len; lia]. assert (HT := transposed_entries m (length t)). unfold entries in HT. lia.
  - unfold trimmed. destruct t as [|x t'] eqn:Et; [cbn; discriminate|]. rewrite <- Et in *. destruct C4 as [C4 _]; [rewrite Et; discriminate|]. apply in_rev in C4. unfold cols in C4. apply in_map_iff in C4 as [[c v] [F1 F2]].
    cbn [fst] in F1. apply in_concat in F2 as [l [F2 F3]].
    assert (HL : last (transposed (length t) m) [(0, 0)] = col 0 m c).
    { replace (length t) with (length t' + 1)%nat by (rewrite Et; cbn [length]; lia). rewrite transposed_app. cbn [zseq seq map]. rewrite last_last. f_equal. rewrite F1, Et. cbn [length]. lia. }
    rewrite HL. intros Hf. rewrite Forall_forall in Ha. specialize (Ha _ F2). apply (lookup_iff l c v Ha) in F3. apply In_nth_error in F2 as [i Hi].
    assert (Hin : In (Z.of_nat i, v) (col 0 m c)). { apply col_in. split; [lia|]. exists l. rewrite Z.sub_0_r, Nat2Z.id. auto. }
    rewrite Hf in Hin. destruct Hin.
  - intros r c v. unfold entry. split.
    + intros [H1 [l [H2 H3]]]. assert (Hlen : (Z.to_nat c < length (transposed (length t) m))%nat) by (apply nth_error_Some; congruence). rewrite transposed_len in Hlen.
      rewrite transposed_nth in H2 by lia. injection H2 as <-. apply col_in in H3 as [H3 [l [H4 H5]]]. rewrite Z.sub_0_r in H4. split; [lia|]. exists l. split; [exact H4|]. now apply Random_Proof.lookup_in.
    + intros [H1 [l [H2 H3]]]. assert (Hin := nth_error_In _ _ H2). assert (Hcb := HB l c v Hin H3). split; [lia|]. exists (col 0 m c). split; [now apply transposed_nth|].
      apply col_in. split; [lia|]. exists l. rewrite Z.sub_0_r. split; [exact H2|]. rewrite Forall_forall in Ha. now apply (lookup_iff l c v (Ha _ Hin)).
Qed.

(** * Twice *)
Lemma asc_ext : forall a b : row, ascending a -> ascending b -> (forall e, In e a <-> In e b) -> a = b.
Proof.
  induction a as [|[c v] a IH]; intros [|[d w] b] Ha Hb H.
  - reflexivity.
  - exfalso. apply (proj2 (H (d, w))). now left.
  - exfalso. apply (proj1 (H (c, v))). now left.
  - destruct Ha as [Ha1 Ha2], Hb as [Hb1 Hb2]. rewrite Forall_forall in Ha1, Hb1.
    assert (E : (c, v) = (d, w)).
    { destruct (proj1 (H (c, v)) (or_introl eq_refl)) as [E|E]; [now symmetry|]. destruct (proj2 (H (d, w)) (or_introl eq_refl)) as [F|F]; [exact F|].
      apply Hb1 in E. apply Ha1 in F. cbn [fst] in *. lia. }
    injection E as <- <-. f_equal. apply IH; [assumption..|]. intros e. split; intros He.
    + destruct (proj1 (H e) (or_intror He)) as [<-|E]; [|exact E]. apply Ha1 in He. cbn in He. lia.
    + destruct (proj2 (H e) (or_intror He)) as [<-|E]; [|exact E]. apply Hb1 in He. cbn in He. lia.
Qed.
Lemma rows_ext a b : matrix a -> matrix b -> (forall r c v, entry a r c v <-> entry b r c v) -> forall i, nth i a [] = nth i b [].
Proof.
  intros Ha Hb H i. assert (HN : forall m : list row, matrix m -> ascending (nth i m [])).
  { intros m Hm. destruct (nth_in_or_default i m []) as [E|E]; [|rewrite E; exact I]. unfold matrix in Hm. rewrite Forall_forall in Hm. now apply Hm. }
  apply asc_ext; auto. intros [c v].
  assert (HE : forall m : list row, In (c, v) (nth i m []) <-> entry m (Z.of_nat i) c v).
  { intros m. unfold entry. rewrite Nat2Z.id. split.
    - intros Hin. split; [lia|]. exists (nth i m []). split; [|exact Hin]. apply nth_error_nth'. destruct (Nat.lt_ge_cases i (length m)); [assumption|]. rewrite nth_overflow in Hin by assumption. destruct Hin.
    - intros [_ [l [E Hin]]]. pose proof (nth_error_nth m i [] E) as E2. cbn in E2 |- *. rewrite E2. exact Hin. }
  rewrite !HE. apply H.
Qed.
Lemma trimmed_ext a b : matrix a -> matrix b -> trimmed a -> (forall r c v, entry a r c v <-> entry b r c v) -> b = a ++ repeat [] (length b - length a).
Proof.
  intros Ha Hb Ht H. assert (HN := rows_ext a b Ha Hb H).
  assert (HL : (length a <= length b)%nat).
  { destruct a as [|x a _] using rev_ind; [cbn; lia|]. unfold trimmed in Ht. rewrite last_last in Ht. specialize (HN (length a)). rewrite app_nth2, Nat.sub_diag in HN by lia. cbn [nth] in HN.
    rewrite app_length. cbn [length]. destruct (Nat.lt_ge_cases (length a) (length b)); [lia|]. rewrite (nth_overflow b) in HN by assumption. contradiction. }
  apply nth_ext with (d := []) (d' := []).
  - rewrite app_length, repeat_length. lia.
  - intros i Hi. rewrite <- HN. destruct (Nat.lt_ge_cases i (length a)).
    + now rewrite app_nth1.
    + rewrite app_nth2, nth_repeat by lia. now apply nth_overflow.
Qed.
Lemma into_map_end l : forall m, ascending (m ++ l) -> into_map l m = m ++ l.
Proof.
  induction l as [|[c v] l IH]; intros m H; cbn [into_map fold_left]; [now rewrite app_nil_r|]. cbn [fst snd].
  assert (Hi : insert m c v = m ++ [(c, v)]).
  { apply insert_end. clear IH. induction m as [|[k w] m IH]; [constructor|]. destruct H as [H1 H2]. constructor; [|now apply IH].
    rewrite Forall_app in H1. destruct H1 as [_ H1]. inversion H1; subst. assumption. }
  rewrite Hi. fold (into_map l (m ++ [(c, v)])). rewrite IH; rewrite <- app_assoc; [reflexivity|exact H].
Qed.
Lemma too_large n : forall o d i, 0 <= o < 2 ^ 31 -> 2 ^ 31 <= o + 2 * Z.of_nat n -> append_rows (repeat [(0, 7)] n) (mkW d i (Some o)) = UB.
Proof.
  induction n as [|n IH]; intros o d i Ho H; [lia|]. cbn [repeat append_rows].
  change (append_row [(0, 7)] (mkW d i (Some o))) with (let* o := i32 (o + 2) in Ok (mkW (d ++ [129; 7]) (i ++ [(1, 2)]) (Some o))).
  unfold i32. destruct ((- 2 ^ 31 <=? o + 2) && (o + 2 <? 2 ^ 31)) eqn:E; [|reflexivity]. cbn [obind].
  apply andb_true_iff in E as [_ E]. apply Z.ltb_lt in E. apply IH; lia.
Qed.
