(** Proofs for RpcTime_Props. *)
From Verif Require Import Common CommonLemmas Archive_Model Archive_Spec Archive_Proof Cast_Spec NumText_Model Rpc_Spec Rpc_Model Rpc_Proof RpcTime_Spec RpcTime_Model.
Local Open Scope Z_scope.

Lemma read_args_fail ts : Forall (fun t => no_arith_set t = true) ts -> forall s, exists x, read_args ts (s, false) = Ok (x, (s, false)).
Proof.
  induction 1 as [|t ts Ht _ IH]; intros s; [eexists; reflexivity|]. destruct (read_fail t Ht (uninit t) s) as [x E]. destruct (IH s) as [y E2]. cbn [read_args]. rewrite E. cbn [obind]. rewrite E2. eexists. reflexivity.
Qed.
Lemma read_args_trunc ts : Forall (fun t => no_arith_set t = true) ts -> forall vs p q, Forall2 has_type ts vs -> write_args ts vs = p ++ q -> q <> [] ->
  exists x, read_args ts (p, true) = Ok (x, ([], false)).
Proof.
  induction 1 as [|t ts Ht Hts IH]; intros vs p q Hv E Hq.
  - inversion Hv; subst. destruct p, q; discriminate || congruence.
  - inversion Hv as [|? v ? vs' Hv1 Hv2]; subst. cbn [write_args] in E. cbn [read_args]. destruct (split_prefix _ _ _ _ E Hq) as [(q' & E' & H)|(p' & -> & E')].
    + destruct (archive_truncated t Ht v (uninit t) p q' Hv1 E' H) as [x Ex]. rewrite Ex. cbn [obind]. destruct (read_args_fail ts Hts []) as [y Ey]. rewrite Ey. eexists. reflexivity.
    + rewrite archive_roundtrip by exact Hv1. cbn [obind]. destruct (IH vs' p' q Hv2 E' Hq) as [y Ey]. rewrite Ey. eexists. reflexivity.
Qed.

Section timeouts.
Context {A : Type} (ver : Z) (svc : service A).
Lemma serve_failed f a s : serve (S f) true ver svc a (s, false) = Ok (a, [], Closed).
Proof. cbn [serve]. unfold serve1. cbn [read read_size sread]. destruct (read_chars_fail (firstn (Z.to_nat (u32 (length (chars (VS []))))) (chars (VS [])) ++ repeat 0 (Z.to_nat (u32 (length (chars (VS [])))) - length (chars (VS [])))) s) as [x E]. vm_compute in E. injection E as <-. reflexivity. Qed.
Lemma serve_end f a : serve (S f) true ver svc a ([], true) = Ok (a, [], Closed).
Proof. reflexivity. Qed.

(** What becomes of a request of which p has arrived *)
Inductive fate (a : A) (p : list Z) : A -> list Z -> Prop :=
| fate_at_once a' out : serve (turns p) false ver svc a (p, true) = Ok (a', out, Closed) -> fate a p a' out
| fate_after a1 a' o1 o2 u : serve (turns p) false ver svc a (p, true) = Ok (a1, o1, Waits u) -> serve (turns u) true ver svc a1 (u, true) = Ok (a', o2, Closed) -> fate a p a' (o1 ++ o2).
Lemma fate_run c (w : world A) p a' out : ss w c = ready -> live w = true -> fate (astate w) p a' out ->
  exists w', (let* w2 := send ver svc c p w in expire ver svc c w2) = Ok w' /\ astate w' = a' /\ live w' = true /\ free w' = S (free w) /\
    ss w' c = Some {| inbox := out; good := true; pending := None |} /\ off c w w'.
Proof.
  intros Hs Hl Hf. unfold send. rewrite Hs. cbn [ready pending List.app]. unfold run_worker at 1. destruct Hf as [a' out E|a1 a' o1 o2 u E1 E2].
  - rewrite E. cbn [obind inbox List.app good]. unfold expire. cbn [ss]. rewrite upd_same. cbn [pending]. eexists. split; [reflexivity|]. cbn. repeat split; auto; [now rewrite upd_same|].
    intros i Hi. cbn [ss]. unfold upd. destruct (Nat.eqb_spec i c); [contradiction|reflexivity].
  - rewrite E1. cbn [obind inbox List.app good]. unfold expire. cbn [ss]. rewrite upd_same. cbn [pending]. unfold run_worker. cbn [astate]. rewrite E2. cbn [obind inbox good live free]. eexists. split; [reflexivity|]. cbn. repeat split; auto; [now rewrite upd_same|].
    intros i Hi. cbn [ss]. unfold upd. destruct (Nat.eqb_spec i c); [contradiction|reflexivity].
Qed.

(** A piece of a request: nothing is answered *)
Lemma waits_all a p s : serve1 false ver svc a (p, true) = Ok (a, [], Short) -> s = turns p -> serve s false ver svc a (p, true) = Ok (a, [], Waits p).
Proof. intros E ->. unfold turns. cbn [serve]. rewrite E. reflexivity. Qed.
Lemma piece a r p q : bytes (r_name r) -> small (r_name r) -> ~ In (r_name r) reserved -> int32 (r_ver r) -> Forall2 has_type (r_args r) (r_vals r) ->
  Forall (fun t => no_arith_set t = true) (r_args r) -> (forall name f, registered svc name f -> returns f) ->
  (forall f, registered svc (r_name r) f -> f_args f = r_args r) ->
  request_bytes r = p ++ q -> q <> [] ->
  fate a p a [] \/ (exists f a' v, registered svc (r_name r) f /\ f_args f = [] /\ f_body f a [] = (a', Ret v) /\ fate a p a' []) \/
  ((forall f, ~ registered svc (r_name r) f) /\ fate a p a (wstr (str "NotFound " ++ r_name r))) \/
  ((exists f, registered svc (r_name r) f) /\ r_ver r <> ver /\ fate a p a (wstr (str "VersionMismatch " ++ show_int ver ++ str " " ++ show_int (r_ver r)))).
Proof.
  intros Hb Hs Hr Hv Ht Ha Hret Hreg E Hq. unfold request_bytes in E. destruct (split_prefix _ _ _ _ E Hq) as [(q' & E' & H)|(p' & -> & E')].
  - left. destruct (archive_truncated TStr eq_refl (VS (r_name r)) (VS []) p q') as [x Ex]; [now exists (r_name r)|exact E'|exact H|].
    apply (fate_after a p a a [] [] p).
    + apply waits_all; [|reflexivity]. unfold serve1. rewrite Ex. reflexivity.
    + unfold turns. cbn [serve]. unfold serve1. rewrite Ex. reflexivity.
  - destruct (lookup svc (r_name r)) as [f|] eqn:Ef.
    + pose proof (proj1 (lookup_registered svc _ _) Ef) as Hf. specialize (Hreg f Hf). destruct (split_prefix _ _ _ _ E' Hq) as [(q'' & E2 & H2)|(p'' & -> & E2)].
      * (* inside the version *)
        destruct (archive_truncated (TNum 4 true) eq_refl (VN (r_ver r)) VUndef p' q'') as [x Ex]; [split; [lia|]; exists (r_ver r); split; [reflexivity|exact Hv]|exact E2|exact H2|].
        assert (x = VUndef).
        { assert (L : (length p' < 4)%nat). { apply (f_equal (@length Z)) in E2. rewrite app_length in E2. change (length (wint (r_ver r))) with 4%nat in E2. destruct q''; [congruence|]. cbn [length] in E2. lia. }
          cbn [read] in Ex. unfold read_num in Ex. rewrite sread_short in Ex by exact L. congruence. }
        subst x.
        assert (S1 : serve1 false ver svc a (wstr (r_name r) ++ p', true) = Ok (a, [], Short)) by (rewrite serve1_name, Ef by assumption; rewrite Ex; reflexivity).
        pose proof (waits_all a _ _ S1 eq_refl) as W.
        destruct (f_args f) as [|t ts] eqn:Eargs.
        -- right. left. destruct (Hret _ _ Hf a []) as (a' & v & Eb & _); [rewrite Eargs; constructor|]. exists f, a', v. repeat split; auto.
           apply (fate_after a _ a a' [] [] _ W). unfold turns. remember (S (length (wstr (r_name r) ++ p'))) as k. cbn [serve]. rewrite serve1_name, Ef by assumption. rewrite Ex. cbn [obind snd negb andb].
           unfold invoke. rewrite Eargs. cbn [read_args obind negb]. rewrite Eb. cbn [obind snd]. subst k. rewrite serve_failed. reflexivity.
        -- left. apply (fate_after a _ a a [] [] _ W). unfold turns. remember (S (length (wstr (r_name r) ++ p'))) as k. cbn [serve]. rewrite serve1_name, Ef by assumption. rewrite Ex. cbn [obind snd negb andb].
           unfold invoke. rewrite Eargs. destruct (read_args_fail (t :: ts)) with (s := @nil Z) as [y Ey]; [now rewrite Hreg|]. rewrite Ey. cbn [obind snd negb]. subst k. rewrite serve_failed. reflexivity.
      * destruct (Z.eq_dec (r_ver r) ver) as [Ev|Ev].
        -- (* inside the arguments *)
           left. destruct (read_args_trunc (r_args r) Ha (r_vals r) p'' q Ht E2 Hq) as [y Ey]. destruct (r_args r) as [|t ts] eqn:Eargs.
           { inversion Ht as [H0|]; subst. cbn in E2. destruct p'', q; discriminate || congruence. }
           assert (I : forall eof, serve1 eof ver svc a (wstr (r_name r) ++ wint (r_ver r) ++ p'', true) = Ok (a, [], if eof then Again ([], false) else Short)).
           { intros eof. rewrite serve1_name, Ef by assumption. rewrite read_wint by assumption. cbn [obind snd negb andb]. rewrite Ev, Z.eqb_refl. cbn [negb]. unfold invoke. rewrite Hreg, Ey. cbn [obind snd negb]. reflexivity. }
           apply (fate_after a _ a a [] [] _ (waits_all a _ _ (I false) eq_refl)). unfold turns. remember (S (length (wstr (r_name r) ++ wint (r_ver r) ++ p''))) as k. cbn [serve]. rewrite (I true). cbn [obind]. subst k. rewrite serve_failed. reflexivity.
        -- right. right. right. split; [now exists f|]. split; [exact Ev|]. apply fate_at_once. unfold turns. now apply (serve_mismatch ver svc a _ false (r_name r) f (r_ver r)).
    + right. right. left. split; [now apply lookup_none|]. apply fate_at_once. unfold turns. now apply (serve_unknown ver svc a _ false (r_name r)).
Qed.

(** A whole request *)
Lemma whole a r : int32 ver -> bytes (r_name r) -> small (r_name r) -> ~ In (r_name r) reserved -> int32 (r_ver r) -> Forall2 has_type (r_args r) (r_vals r) ->
  (forall name f, registered svc name f -> returns f) -> (forall f, registered svc (r_name r) f -> f_args f = r_args r /\ f_ret f = r_ret r) ->
  (exists f a' v, registered svc (r_name r) f /\ r_ver r = ver /\ f_body f a (r_vals r) = (a', Ret v) /\ has_type (r_ret r) v /\ fate a (request_bytes r) a' (wstr (str "OK") ++ write (r_ret r) v)) \/
  ((forall f, ~ registered svc (r_name r) f) /\ fate a (request_bytes r) a (wstr (str "NotFound " ++ r_name r))) \/
  ((exists f, registered svc (r_name r) f) /\ r_ver r <> ver /\ fate a (request_bytes r) a (wstr (str "VersionMismatch " ++ show_int ver ++ str " " ++ show_int (r_ver r)))).
Proof.
  intros Hver Hb Hs Hr Hv Ht Hret Hreg. destruct (lookup svc (r_name r)) as [f|] eqn:Ef.
  - pose proof (proj1 (lookup_registered svc _ _) Ef) as Hf. destruct (Hreg f Hf) as [Ea Er]. destruct (Z.eq_dec (r_ver r) ver) as [Ev|Ev].
    + left. destruct (Hret _ _ Hf a (r_vals r)) as (a' & v & Eb & Hty); [now rewrite Ea|]. exists f, a', v. repeat split; auto; [now rewrite <- Er|].
      rewrite <- (app_nil_r (wstr (str "OK") ++ write (r_ret r) v)). apply (fate_after a _ a' a' _ [] []); [|reflexivity].
      unfold request_bytes, turns. rewrite Ev, <- Ea, <- Er. apply serve_call; auto. now rewrite Ea.
    + right. right. split; [now exists f|]. split; [exact Ev|]. apply fate_at_once. unfold turns, request_bytes. now apply (serve_mismatch ver svc a _ false (r_name r) f (r_ver r)).
  - right. left. split; [now apply lookup_none|]. apply fate_at_once. unfold turns, request_bytes. now apply (serve_unknown ver svc a _ false (r_name r)).
Qed.

(** Reading the answer *)
Definition left_ (o : option conn) (c : nat) (w : world A) : world A := {| astate := astate w; live := live w; free := free w; ss := upd (ss w) c o |}.
Lemma reply_nothing r (w : world A) : ss w (r_client r) = gone -> reply r w = Ok (Error [], left_ spent (r_client r) w).
Proof.
  intros Hs. unfold reply, recv. rewrite Hs. unfold gone. cbn [inbox good]. change (read TStr (VS []) ([], true)) with (Ok (VS [], ([] : list Z, false))). cbn [obind snd fst pending chars].
  change (str_eqb [] (str "OK")) with false. cbn [negb]. change (gen_exception []) with (Ok (Error [])). reflexivity.
Qed.
Lemma upd_upd f c x y i : upd (upd f c x) c y i = upd f c y i.
Proof. unfold upd. destruct (Nat.eqb i c); reflexivity. Qed.
Lemma reply_refused r msg x (w : world A) : bytes msg -> small msg -> msg <> str "OK" -> gen_exception msg = Ok x ->
  ss w (r_client r) = Some {| inbox := wstr msg; good := true; pending := None |} -> reply r w = Ok (x, left_ gone (r_client r) w).
Proof.
  intros Hb Hs Hm Hg Hw. unfold reply. rewrite (recv_ok TStr (VS []) (VS msg) [] None); [|now apply str_small|now rewrite app_nil_r]. cbn [obind chars]. rewrite str_eqb_neq by exact Hm. cbn [negb]. rewrite Hg. reflexivity.
Qed.
Lemma reply_value r v (w : world A) : has_type (r_ret r) v -> ss w (r_client r) = Some {| inbox := wstr (str "OK") ++ write (r_ret r) v; good := true; pending := None |} ->
  exists w', reply r w = Ok (Value v, w') /\ astate w' = astate w /\ live w' = live w /\ free w' = free w /\ ss w' (r_client r) = gone /\ off (r_client r) w w'.
Proof.
  intros Hv Hw. unfold reply. rewrite (recv_ok TStr (VS []) (VS (str "OK")) (write (r_ret r) v) None); [|apply str_small; [now apply bytes_b|unfold small; cbn; lia]|exact Hw].
  cbn [obind chars]. rewrite str_eqb_refl. cbn [negb]. rewrite (recv_ok (r_ret r) _ v [] None); [|exact Hv|cbn [ss]; now rewrite upd_same, app_nil_r].
  cbn [obind]. unfold is_good. cbn [ss]. rewrite upd_same. cbn [good]. eexists. split; [reflexivity|]. cbn. rewrite upd_same. repeat split; auto.
  intros i Hi. cbn [ss]. rewrite upd_upd. unfold upd. destruct (Nat.eqb_spec i (r_client r)); [contradiction|reflexivity].
Qed.

Lemma send_lost c b (w : world A) k : ss w c = Some k -> pending k = None -> send ver svc c b w = Ok w.
Proof. intros E1 E2. unfold send. now rewrite E1, E2. Qed.

Lemma late_ok n j r (w : world A) : int32 ver -> (forall name f, registered svc name f -> returns f) -> inv n w -> fine n svc (Late j r) ->
  exists x w', late ver svc j r w = Ok (x, w') /\ served ver svc (astate w) (Late j r) (astate w') [x] /\ inv n w' /\
    ((length (request_bytes r) <= j)%nat -> answers ver svc (astate w) r (astate w') x).
Proof.
  intros Hver Hret Hi (Hc & (Hb & Hlen & Hres & Hv & Hargs & Hreg & Hblank) & Hna). assert (Hsm : small (r_name r)) by (unfold small; lia).
  destruct (connection_ok ver svc _ n w Hc Hi) as (w1 & E & Ha & Hi1 & Hs1).
  set (p := firstn j (request_bytes r)). set (q := skipn j (request_bytes r)).
  assert (Epq : request_bytes r = p ++ q) by (symmetry; apply firstn_skipn).
  assert (Bmsg : bytes (str "NotFound " ++ r_name r) /\ small (str "NotFound " ++ r_name r)).
  { split; [apply bytes_app; split; [now apply bytes_b|exact Hb]|]. unfold small. rewrite app_length. change (length (str "NotFound ")) with 9%nat. lia. }
  assert (Bver : bytes (str "VersionMismatch " ++ show_int ver ++ str " " ++ show_int (r_ver r)) /\ small (str "VersionMismatch " ++ show_int ver ++ str " " ++ show_int (r_ver r))).
  { split; [apply bytes_app; split; [now apply bytes_b|]; apply bytes_app; split; [apply show_int_bytes|]; apply bytes_app; split; [now apply bytes_b|apply show_int_bytes]|].
    unfold small. rewrite !app_length. pose proof (show_int_len ver Hver). pose proof (show_int_len _ Hv). change (length (str "VersionMismatch ")) with 16%nat. change (length (str " ")) with 1%nat. lia. }
  assert (Run : forall a' out x, fate (astate w) p a' out -> (forall w3 : world A, ss w3 (r_client r) = Some {| inbox := out; good := true; pending := None |} ->
      exists w4, reply r w3 = Ok (x, w4) /\ astate w4 = astate w3 /\ live w4 = live w3 /\ free w4 = free w3 /\ (ss w4 (r_client r) = gone \/ ss w4 (r_client r) = spent) /\ off (r_client r) w3 w4) ->
      exists w', late ver svc j r w = Ok (x, w') /\ astate w' = a' /\ inv n w').
  { intros a' out x Hf Hrep. rewrite <- Ha in Hf. destruct (fate_run (r_client r) w1 p a' out Hs1 (proj1 Hi1) Hf) as (w3 & E3 & A3 & L3 & F3 & S3 & O3).
    destruct (Hrep w3 S3) as (w4 & E4 & A4 & L4 & F4 & S4 & O4). exists w4. split.
    - unfold late. rewrite E. cbn [obind]. unfold is_good. rewrite Hs1. cbn [ready good negb]. cbv zeta. fold (request_bytes r). fold p. fold q.
      destruct (send ver svc (r_client r) p w1) as [w2| | |]; cbn [obind] in *; try discriminate. rewrite E3. cbn [obind]. rewrite (send_lost _ _ _ _ S3 eq_refl). cbn [obind]. exact E4.
    - split; [congruence|]. apply (inv_off n (r_client r) w1 w4 Hc Hi1).
      + intros i Hn. rewrite O4, O3 by exact Hn. reflexivity.
      + congruence.
      + destruct S4 as [->| ->]; [right; right; now left|right; right; now right].
      + rewrite Hs1, F4, F3. destruct S4 as [->| ->]; cbn; lia. }
  assert (RN : forall w3 : world A, ss w3 (r_client r) = Some {| inbox := []; good := true; pending := None |} ->
      exists w4, reply r w3 = Ok (Error [], w4) /\ astate w4 = astate w3 /\ live w4 = live w3 /\ free w4 = free w3 /\ (ss w4 (r_client r) = gone \/ ss w4 (r_client r) = spent) /\ off (r_client r) w3 w4).
  { intros w3 S3. exists (left_ spent (r_client r) w3). split; [now apply reply_nothing|]. cbn. rewrite upd_same. repeat split; auto. apply off_upd. }
  assert (RR : forall msg x (w3 : world A), bytes msg -> small msg -> msg <> str "OK" -> gen_exception msg = Ok x -> ss w3 (r_client r) = Some {| inbox := wstr msg; good := true; pending := None |} ->
      exists w4, reply r w3 = Ok (x, w4) /\ astate w4 = astate w3 /\ live w4 = live w3 /\ free w4 = free w3 /\ (ss w4 (r_client r) = gone \/ ss w4 (r_client r) = spent) /\ off (r_client r) w3 w4).
  { intros msg x w3 B1 B2 B3 B4 S3. exists (left_ gone (r_client r) w3). split; [now apply (reply_refused r msg)|]. cbn. rewrite upd_same. repeat split; auto. apply off_upd. }
  assert (Fnot : (forall f, ~ registered svc (r_name r) f) -> fate (astate w) p (astate w) (wstr (str "NotFound " ++ r_name r)) ->
     exists x w', late ver svc j r w = Ok (x, w') /\ answers ver svc (astate w) r (astate w') x /\ inv n w').
  { intros Hn Hf. destruct (Run (astate w) (wstr (str "NotFound " ++ r_name r)) (Not_found (r_name r)) Hf) as (w' & E1 & A1 & I1).
    - intros w3. apply RR; [apply Bmsg|apply Bmsg|discriminate|now apply gen_not_found, Hblank].
    - exists (Not_found (r_name r)), w'. rewrite A1. split; [exact E1|]. split; [now apply ans_unknown|exact I1]. }
  assert (Fver : (exists f, registered svc (r_name r) f) -> r_ver r <> ver -> fate (astate w) p (astate w) (wstr (str "VersionMismatch " ++ show_int ver ++ str " " ++ show_int (r_ver r))) ->
     exists x w', late ver svc j r w = Ok (x, w') /\ answers ver svc (astate w) r (astate w') x /\ inv n w').
  { intros [f Hreg'] Hn Hf. destruct (Run (astate w) (wstr (str "VersionMismatch " ++ show_int ver ++ str " " ++ show_int (r_ver r))) (Mismatch ver (r_ver r)) Hf) as (w' & E1 & A1 & I1).
    - intros w3. apply RR; [apply Bver|apply Bver|discriminate|apply gen_mismatch].
    - exists (Mismatch ver (r_ver r)), w'. rewrite A1. split; [exact E1|]. split; [eapply ans_version; eassumption|exact I1]. }
  assert (Done : (exists x w', late ver svc j r w = Ok (x, w') /\ answers ver svc (astate w) r (astate w') x /\ inv n w') ->
     exists x w', late ver svc j r w = Ok (x, w') /\ served ver svc (astate w) (Late j r) (astate w') [x] /\ inv n w' /\ ((length (request_bytes r) <= j)%nat -> answers ver svc (astate w) r (astate w') x)).
  { intros (x & w' & E1 & A1 & I1). exists x, w'. split; [exact E1|]. split; [now apply sv_late|]. auto. }
  destruct q as [|y q'] eqn:Eq.
  - assert (Ep : p = request_bytes r) by (rewrite Epq, app_nil_r; reflexivity).
    destruct (whole (astate w) r Hver Hb Hsm Hres Hv Hargs Hret Hreg) as [(f & a' & v & H1 & H2 & H3 & H4 & H5)|[(H1 & H2)|(H1 & H2 & H3)]].
    + rewrite <- Ep in H5. apply Done. destruct (Run a' _ (Value v) H5) as (w' & E1 & A1 & I1).
      * intros w3 S3. destruct (reply_value r v w3 H4 S3) as (w4 & E4 & A4 & L4 & F4 & S4 & O4). exists w4. auto 10.
      * exists (Value v), w'. rewrite A1. split; [exact E1|]. split; [eapply ans_value; eassumption|exact I1].
    + rewrite <- Ep in H2. apply Done. now apply Fnot.
    + rewrite <- Ep in H3. apply Done. now apply Fver.
  - assert (Hj : (length (request_bytes r) <= j)%nat -> False).
    { intros L. assert (X : skipn j (request_bytes r) = []) by now apply skipn_all2. unfold q in Eq. rewrite X in Eq. discriminate. }
    destruct (piece (astate w) r p (y :: q') Hb Hsm Hres Hv Hargs Hna Hret (fun f H => proj1 (Hreg f H)) Epq) as [H1|[(f & a' & v & H1 & H2 & H3 & H4)|[(H1 & H2)|(H1 & H2 & H3)]]]; [discriminate| | | |].
    + destruct (Run _ _ (Error []) H1 RN) as (w' & E1 & A1 & I1). exists (Error []), w'. rewrite A1. split; [exact E1|]. split; [apply sv_cut|]. split; [exact I1|]. intros L. now apply Hj in L.
    + destruct (Run _ _ (Error []) H4 RN) as (w' & E1 & A1 & I1). exists (Error []), w'. rewrite A1. split; [exact E1|]. split; [eapply sv_lost; eassumption|]. split; [exact I1|]. intros L. now apply Hj in L.
    + apply Done. now apply Fnot.
    + apply Done. now apply Fver.
Qed.

Lemma quiet_ok n c (w : world A) : inv n w -> (c < n)%nat -> exists w', expire ver svc c w = Ok w' /\ astate w' = astate w /\ inv n w'.
Proof.
  intros Hi Hc. pose proof Hi as (Hl & Hf & Hid). unfold expire. destruct (Hid c) as [Hs|[Hs|[Hs|Hs]]]; rewrite Hs; cbn [ready gone spent pending]; try (exists w; now auto).
  unfold run_worker. change (turns []) with 2%nat. rewrite serve_end. cbn [obind inbox List.app good]. eexists. split; [reflexivity|]. split; [reflexivity|]. rewrite Hl.
  apply inv_upd; auto; [right; right; now left|]. rewrite Hs. cbn. lia.
Qed.
Lemma acts_ok n : int32 ver -> (forall name f, registered svc name f -> returns f) ->
  forall ts (w : world A), inv n w -> Forall (fine n svc) ts ->
  exists xs w', acts ver svc ts w = Ok (xs, w') /\ served_all ver svc (astate w) ts (astate w') xs /\ inv n w'.
Proof.
  intros Hver Hret ts. induction ts as [|t ts IH]; intros w Hi Hts; [exists [], w; split; [reflexivity|]; split; [constructor|exact Hi]|].
  inversion Hts as [|? ? Ht Hts']; subst.
  assert (S : exists x w1, act1 ver svc t w = Ok (x, w1) /\ served ver svc (astate w) t (astate w1) x /\ inv n w1).
  { destruct t as [r|j r|c]; cbn [act1].
    - destruct Ht as [Hc Hp]. destruct (call_ok ver svc n r w Hver Hret Hc Hi Hp) as (x & w1 & E & Ha & Hi1). exists [x], w1. rewrite E. split; [reflexivity|]. split; [now constructor|exact Hi1].
    - destruct (late_ok n j r w Hver Hret Hi Ht) as (x & w1 & E & Ha & Hi1 & _). exists [x], w1. rewrite E. auto.
    - destruct (quiet_ok n c w Hi Ht) as (w1 & E & Ha & Hi1). exists [], w1. rewrite E, Ha. split; [reflexivity|]. split; [constructor|exact Hi1]. }
  destruct S as (x & w1 & E & Hs & Hi1). destruct (IH w1 Hi1 Hts') as (xs & w2 & E2 & Hs2 & Hi2). exists (x ++ xs), w2. cbn [acts]. rewrite E. cbn [obind]. rewrite E2. cbn [obind].
  split; [reflexivity|]. split; [econstructor; eassumption|exact Hi2].
Qed.
End timeouts.
