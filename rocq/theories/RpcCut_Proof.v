From Verif Require Import Common CommonLemmas NumText_Model Archive_Model Archive_Spec Archive_Proof Rpc_Spec Rpc_Model Rpc_Proof RpcCut_Spec RpcCut_Model.
Local Open Scope Z_scope.

Lemma wsize_len n : length (wsize n) = 4%nat.
Proof. unfold wsize. apply le_bytes_len. Qed.
Lemma read_chars_end : forall olds, read_chars olds ([], true) = (olds, ([], match olds with [] => true | _ => false end)).
Proof.
  assert (F : forall olds, read_chars olds ([], false) = (olds, ([], false))) by (induction olds as [|o olds IH]; [reflexivity|cbn; now rewrite IH]).
  destruct olds as [|o olds]; [reflexivity|]. cbn. now rewrite F.
Qed.
Lemma read_chars_part : forall p olds, (length p < length olds)%nat ->
  read_chars olds (p, true) = (p ++ skipn (length p) olds, ([], false)).
Proof.
  induction p as [|c p IH]; intros [|o olds] L; cbn [length] in L; try lia.
  - rewrite read_chars_end. reflexivity.
  - cbn [read_chars]. unfold read_char. change (c :: p) with ([c] ++ p). rewrite sread_ok by reflexivity. rewrite IH by lia.
    cbn [le_num app length skipn]. rewrite Z.mul_0_r, Z.add_0_r. reflexivity.
Qed.
(** A string that is cut. *)
Lemma read_cut msg k : small msg -> (k < 4 + length msg)%nat ->
  exists ok, read TStr (VS []) (firstn k (wstr msg), true) = Ok (VS (remains msg k), ([], ok)) /\ ((k < 4)%nat \/ ok = false).
Proof.
  intros Hs Hk. unfold wstr, remains. cbn [write read chars length]. destruct (Nat.ltb_spec k 4) as [L|L].
  - rewrite firstn_app, wsize_len. replace (k - 4)%nat with O by lia. cbn [firstn]. rewrite app_nil_r.
    unfold read_size. rewrite sread_short by (rewrite firstn_length, wsize_len; lia). change (u32 0) with 0. cbn. eexists. split; [reflexivity|auto].
  - rewrite firstn_app, wsize_len, firstn_all2 by (rewrite wsize_len; lia). rewrite read_size_ok by exact Hs. rewrite Nat2Z.id, firstn_nil. cbn [app].
    assert (La : length (firstn (k - 4) msg) = (k - 4)%nat) by (apply firstn_length_le; lia).
    rewrite read_chars_part by (rewrite repeat_length, La; lia). exists false. split; [|auto]. rewrite La. f_equal. f_equal. f_equal. f_equal.
    clear. generalize (k - 4)%nat. intros j. rewrite Nat.sub_0_r. revert j. induction (length msg) as [|n IH]; intros [|j]; cbn; auto.
Qed.
Lemma remains_ok msg k : (k < 4 + length msg)%nat -> remains msg k <> str "OK".
Proof.
  intros Hk. unfold remains. destruct (Nat.ltb_spec k 4); [discriminate|]. intros E.
  assert (I : In 0 (str "OK")). { rewrite <- E. apply in_or_app. right. destruct (length msg - (k - 4))%nat eqn:N; [lia|]. now left. }
  vm_compute in I. intuition discriminate.
Qed.
Theorem take_cut ret msg k : small msg -> (k < 4 + length msg)%nat -> take_reply ret (firstn k (wstr msg)) = gen_exception (remains msg k).
Proof.
  intros Hs Hk. unfold take_reply. destruct (read_cut msg k Hs Hk) as (ok & -> & _). cbn [obind chars].
  rewrite str_eqb_neq by now apply remains_ok. reflexivity.
Qed.
Lemma gen_no_value s x : gen_exception s = Ok x -> forall v, x <> Value v.
Proof.
  unfold gen_exception. destruct (word s) as [code rest]. destruct (str_eqb code (str "NotFound")); [intros E; injection E as <-; discriminate|].
  destruct (str_eqb code (str "VersionMismatch")); [|intros E; injection E as <-; discriminate].
  destruct (Cast_Model.scan rest) as [[[n1 m1] r1]|]; [|discriminate].
  destruct (Cast_Model.scan r1) as [[[n2 m2] r2]|]; intros E; injection E as <-; discriminate.
Qed.

Lemma ok_small : small (str "OK").
Proof. unfold small. vm_compute. reflexivity. Qed.
Lemma take_whole ret v rest : has_type ret v -> take_reply ret (wstr (str "OK") ++ write ret v ++ rest) = Ok (Value v).
Proof.
  intros Hv. unfold take_reply, wstr. rewrite archive_roundtrip; [|exists (str "OK"); split; [reflexivity|split; [|apply ok_small]]; apply Forall_forall; intros c Hc; vm_compute in Hc; unfold is_byte; lia].
  cbn [obind chars]. rewrite str_eqb_refl. cbn [negb]. rewrite archive_roundtrip by exact Hv. reflexivity.
Qed.

Lemma take_cut_result ret v p : no_arith_set ret = true -> has_type ret v -> cut_of p (wstr (str "OK") ++ write ret v) ->
  exists m, take_reply ret p = Ok (Error m).
Proof.
  intros Hn Hv (q & Hq & E). destruct (Nat.le_gt_cases 6 (length p)) as [L|L].
  - assert (Ep : p = wstr (str "OK") ++ skipn 6 p).
    { assert (H1 : firstn 6 (wstr (str "OK") ++ write ret v) = wstr (str "OK")) by reflexivity.
      assert (H2 : firstn 6 (p ++ q) = firstn 6 p) by (rewrite firstn_app; replace (6 - length p)%nat with O by lia; cbn [firstn]; apply app_nil_r).
      rewrite E, H2 in H1. rewrite <- H1. symmetry. apply firstn_skipn. }
    set (p' := skipn 6 p) in *. rewrite Ep in E. rewrite <- app_assoc in E. apply app_inv_head in E.
    destruct (archive_truncated ret Hn v (uninit ret) p' q Hv E Hq) as (x & R). rewrite Ep. unfold take_reply, wstr.
    rewrite archive_roundtrip; [|exists (str "OK"); split; [reflexivity|split; [|apply ok_small]]; apply Forall_forall; intros c Hc; vm_compute in Hc; unfold is_byte; lia].
    cbn [obind chars]. rewrite str_eqb_refl. cbn [negb]. rewrite R. cbn [obind snd]. eexists. reflexivity.
  - assert (Ep : p = firstn (length p) (wstr (str "OK"))).
    { assert (H1 : firstn (length p) (p ++ q) = p) by (rewrite firstn_app, firstn_all, Nat.sub_diag; cbn [firstn]; apply app_nil_r).
      assert (H2 : firstn (length p) (wstr (str "OK") ++ write ret v) = firstn (length p) (wstr (str "OK"))).
      { rewrite firstn_app. replace (length p - length (wstr (str "OK")))%nat with O by (change (length (wstr (str "OK"))) with 6%nat; lia). cbn [firstn]. apply app_nil_r. }
      rewrite E, H1 in H2. exact H2. }
    rewrite Ep, take_cut; [|apply ok_small|change (length (str "OK")) with 2%nat; lia].
    destruct (length p) as [|[|[|[|[|[|n]]]]]] eqn:N; [eexists; vm_compute; reflexivity..|lia].
Qed.

Lemma spanb_all f l : forallb f l = true -> spanb f l = (l, []).
Proof. induction l as [|c l IH]; cbn; [reflexivity|]. destruct (f c); [|discriminate]. intros H. now rewrite IH. Qed.
Lemma word_all s : no_space s -> s <> [] -> word (32 :: s) = (s, []).
Proof.
  intros H Hne. unfold word. assert (B : forallb (fun c => negb (Cast_Model.isspace c)) s = true).
  { apply forallb_forall. intros c Hc. unfold no_space in H. rewrite Forall_forall in H. specialize (H c Hc). unfold Cast_Model.isspace. lia. }
  destruct s as [|c s]; [congruence|]. cbn [Cast_Model.skip_ws]. change (Cast_Model.isspace 32) with true. cbn iota.
  assert (C : Cast_Model.isspace c = false) by (cbn in B; destruct (Cast_Model.isspace c); [discriminate|reflexivity]).
  rewrite C. now apply spanb_all.
Qed.
Lemma no_space_zero n : no_space (repeat 0 n).
Proof. apply Forall_forall. intros c Hc. apply repeat_spec in Hc. lia. Qed.
Lemma str_app a b : remains (a ++ b) (4 + length a) = a ++ repeat 0 (length b).
Proof.
  unfold remains. destruct (Nat.ltb_spec (4 + length a) 4); [lia|]. replace (4 + length a - 4)%nat with (length a) by lia.
  rewrite firstn_app, firstn_all, Nat.sub_diag, app_length. cbn [firstn]. rewrite app_nil_r. do 2 f_equal. lia.
Qed.
Lemma not_found_cut ret name j : no_space name -> small (str "NotFound " ++ name) -> (j < length name)%nat ->
  take_reply ret (firstn (13 + j) (wstr (str "NotFound " ++ name))) = Ok (Not_found (firstn j name ++ repeat 0 (length name - j))).
Proof.
  intros Hn Hs Hj. rewrite take_cut; [|exact Hs|rewrite app_length; change (length (str "NotFound ")) with 9%nat; lia].
  assert (E : remains (str "NotFound " ++ name) (13 + j) = str "NotFound" ++ 32 :: firstn j name ++ repeat 0 (length name - j)).
  { rewrite <- (firstn_skipn j name) at 1. rewrite app_assoc.
    replace (13 + j)%nat with (4 + length (str "NotFound " ++ firstn j name))%nat by (rewrite app_length, firstn_length_le by lia; change (length (str "NotFound ")) with 9%nat; lia).
    rewrite str_app, skipn_length, <- app_assoc. reflexivity. }
  rewrite E. unfold gen_exception. set (x := firstn j name ++ repeat 0 (length name - j)).
  assert (W : word (str "NotFound" ++ 32 :: x) = (str "NotFound", 32 :: x)) by reflexivity. rewrite W. rewrite str_eqb_refl.
  rewrite word_all; [reflexivity| |].
  - apply Forall_app. split; [|apply no_space_zero]. rewrite <- (firstn_skipn j name) in Hn. apply Forall_app in Hn as [Hn _]. exact Hn.
  - unfold x. intros X. apply (f_equal (@length Z)) in X. rewrite app_length, repeat_length, firstn_length_le in X by lia. cbn in X. lia.
Qed.
Lemma mismatch_cut ret nums : small (str "VersionMismatch " ++ nums) -> nums <> [] ->
  take_reply ret (firstn 20 (wstr (str "VersionMismatch " ++ nums))) = UB.
Proof.
  intros Hs Hn. assert (L : (0 < length nums)%nat) by (destruct nums; [congruence|cbn; lia]).
  rewrite take_cut; [|exact Hs|rewrite app_length; change (length (str "VersionMismatch ")) with 16%nat; lia].
  change 20%nat with (4 + length (str "VersionMismatch "))%nat. rewrite str_app. destruct (length nums) as [|n]; [lia|]. reflexivity.
Qed.
