From Verif Require Import Common CommonLemmas NumText_Model NumText_Proof Socket_Spec Socket_Model Socket_Proof Http_Spec Http_Model Http_Proof HttpMsg_Spec HttpMsg_Model.
From Verif Require Cast_Model Cast_Spec Cast_Proof Ipv4_Model Ipv4_Proof Uri_Model.
Local Open Scope Z_scope.
Ltac Zify.zify_post_hook ::= Z.div_mod_to_equations.

(** * Words and numbers *)
Lemma nonblank c : ~ blank c -> isspace c = false.
Proof. intros H. destruct (isspace c) eqn:E; [|reflexivity]. apply isspace_blank in E. contradiction. Qed.
Lemma word_app w r : word_ok w -> (match r with [] => True | c :: _ => isspace c = true end) -> word (w ++ r) = (w, r).
Proof.
  intros [N F] R. unfold word. destruct w as [|c w]; [congruence|]. inversion F as [|? ? Hc _]; subst. cbn [app skip]. rewrite (nonblank c Hc).
  change (c :: w ++ r) with ((c :: w) ++ r). apply spanb_app.
  - eapply Forall_impl; [|exact F]. intros a Ha. cbn. now rewrite nonblank.
  - intros a t ->. cbn in R. now rewrite R.
Qed.
Lemma word_next w r : word_ok w -> (match r with [] => True | c :: _ => isspace c = true end) -> word (32 :: w ++ r) = (w, r).
Proof. intros W R. pose proof (word_app w r W R) as H. unfold word in *. exact H. Qed.
Lemma digit_nonblank c : isdigit c = true -> ~ blank c /\ toupper c = c /\ c <> 0 /\ c <> 10.
Proof. unfold isdigit, blank, toupper. intros H. replace ((97 <=? c) && (c <=? 122)) with false by lia. lia. Qed.
Definition plain (c : Z) : Prop := ~ blank c /\ toupper c = c /\ c <> 0 /\ c <> 10.
Lemma show_plain n : Forall plain (show_int n).
Proof.
  assert (D : forall m, 0 <= m -> Forall plain (dec_text m)).
  { intros m Hm. eapply Forall_impl; [|apply (dec_text_digits m Hm)]. intros c Hc. now apply digit_nonblank. }
  unfold show_int. destruct (Z.ltb_spec n 0) as [L|L]; [|apply D; lia]. constructor; [|apply D; lia].
  unfold plain, blank, toupper. change ((97 <=? 45) && (45 <=? 122)) with false. cbv iota. lia.
Qed.
Lemma plainb s : forallb (fun c => negb (isspace c) && (toupper c =? c) && negb (c =? 0) && negb (c =? 10)) s = true -> Forall plain s.
Proof.
  intros H. apply Forall_forall. intros c Hc. rewrite forallb_forall in H. specialize (H c Hc). unfold plain. rewrite <- isspace_blank.
  destruct (isspace c); [discriminate H|]. cbn [negb andb] in H. split; [discriminate|]. lia.
Qed.
Lemma version_plain ma mi : Forall plain (version_text ma mi).
Proof.
  unfold version_text. apply Forall_app. split; [now apply plainb|]. apply Forall_app. split; [apply show_plain|]. apply Forall_app. split; [now apply plainb|apply show_plain].
Qed.
Lemma c_str_plain s : Forall plain s -> Ipv4_Model.c_str s = s.
Proof.
  induction 1 as [|c s (_ & _ & Hc & _) _ IH]; [reflexivity|]. cbn [Ipv4_Model.c_str]. destruct (Z.eqb_spec c 0) as [->|_]; [congruence|]. now rewrite IH.
Qed.
Lemma toupper_plain s : Forall plain s -> map toupper s = s.
Proof. induction 1 as [|c s (_ & Hc & _) _ IH]; [reflexivity|]. cbn [map]. now rewrite Hc, IH. Qed.
Lemma wrap_int n : int n -> Ipv4_Model.wrap32 (Ipv4_Model.sat64 n) = n.
Proof. unfold int, Ipv4_Model.wrap32, Ipv4_Model.sat64. intros H. rewrite Z.mod_small by lia. lia. Qed.
Lemma scan_d_show n rest : int n -> (match rest with [] => True | c :: _ => ~ Cast_Spec.digit c end) -> Ipv4_Model.scan_d (show_int n ++ rest) = Some (n, rest).
Proof.
  intros Hn Hr. unfold Ipv4_Model.scan_d. rewrite (Cast_Proof.scan_leading _ _ _ _ (Cast_Proof.leading_show n rest Hr)).
  replace (if n <? 0 then - Z.abs n else Z.abs n) with n by (destruct (Z.ltb_spec n 0); lia). now rewrite wrap_int.
Qed.
Lemma scan_version_ok ma mi : int ma -> int mi -> scan_version (map toupper (version_text ma mi)) = Some (ma, mi).
Proof.
  intros H1 H2. pose proof (version_plain ma mi) as P. rewrite toupper_plain by exact P. unfold scan_version. rewrite c_str_plain by exact P.
  unfold version_text. change (literally (str "HTTP/") (str "HTTP/" ++ show_int ma ++ str "." ++ show_int mi)) with (Some (show_int ma ++ str "." ++ show_int mi)).
  cbv iota. cbn [Ipv4_Model.scan_ds]. change (str ".") with [46]. cbn [app].
  rewrite scan_d_show; [|exact H1|unfold Cast_Spec.digit; lia]. change (Ipv4_Model.point (46 :: show_int mi)) with (Some (show_int mi)). cbv iota.
  rewrite <- (app_nil_r (show_int mi)). rewrite scan_d_show; [reflexivity|exact H2|exact I].
Qed.
Lemma version_word ma mi : word_ok (version_text ma mi).
Proof. split; [discriminate|]. eapply Forall_impl; [|apply version_plain]. intros c H. apply H. Qed.

(** * Choosing the body *)
Lemma has_key_none h k : Forall (fun g => same (fst g) k = false) h -> has_key h k = false.
Proof. induction 1 as [|[a v] h H _ IH]; [reflexivity|]. cbn [has_key]. cbn [fst] in H. now rewrite cicmp_same, H. Qed.
Lemma has_key_app h g k : has_key (h ++ g) k = has_key h k || has_key g k.
Proof. induction h as [|[a v] h IH]; [reflexivity|]. cbn [has_key app]. destruct (cicmp a k); [reflexivity|exact IH]. Qed.
Lemma ref_absent h k : has_key h k = false -> ref h k = (h ++ [(k, [])], []).
Proof.
  intros H. pose proof (get_absent h k H) as A. pose proof (get_const h k) as B. rewrite const_ref_absent in B by exact H. unfold get in *.
  destruct (ref h k) as [a b]. cbn [fst snd] in A, B. now rewrite A, B.
Qed.
Lemma ref_present h k v : has_key h k = true -> const_ref h k = v -> ref h k = (h, v).
Proof.
  intros H V. pose proof (get_present h k H) as A. pose proof (get_const h k) as B. unfold get in *. destruct (ref h k) as [a b]. cbn [fst snd] in A, B. now rewrite A, B, V.
Qed.
Lemma const_ref_app h g k : has_key h k = false -> const_ref (h ++ g) k = const_ref g k.
Proof. induction h as [|[a v] h IH]; intros H; [reflexivity|]. cbn [has_key const_ref app] in *. destruct (cicmp a k); [discriminate H|now apply IH]. Qed.
Lemma fields_no h : fields_ok h -> has_key h CL = false /\ has_key h TE = false.
Proof.
  intros (_ & _ & H). split; apply has_key_none; (eapply Forall_impl; [|exact H]); intros g [A B]; [exact A|exact B].
Qed.
Lemma choose_none h : fields_ok h -> choose_body h = Ok (h ++ [(TE, []); (CL, [])], Raw).
Proof.
  intros H. destruct (fields_no h H) as [A B]. unfold choose_body. rewrite (ref_absent h TE B). change (cicmp [] (str "chunked")) with false. cbv iota.
  rewrite ref_absent; [rewrite <- app_assoc; reflexivity|]. rewrite has_key_app, A. reflexivity.
Qed.
Lemma show_nonempty n : show_int n <> [].
Proof. unfold show_int. destruct (Z.ltb_spec n 0); [discriminate|]. apply dec_text_nonempty. lia. Qed.
Lemma choose_sized h n : fields_ok h -> 0 <= n < 2 ^ 63 ->
  choose_body (h ++ [(CL, show_int n)]) = Ok (h ++ [(CL, show_int n); (TE, [])], Sized n).
Proof.
  intros H Hn. destruct (fields_no h H) as [A B]. unfold choose_body.
  rewrite (ref_absent (h ++ [(CL, show_int n)]) TE) by (rewrite has_key_app, B; reflexivity). change (cicmp [] (str "chunked")) with false. cbv iota.
  rewrite <- app_assoc. cbn [app]. rewrite (ref_present _ CL (show_int n)).
  - replace (eqs (show_int n) []) with false. 2:{ unfold eqs. destruct (list_eq_dec Z.eq_dec (show_int n) []) as [E|]; [now apply show_nonempty in E|reflexivity]. }
    unfold Cast_Model.from_string. rewrite Cast_Proof.extract_show; [reflexivity|discriminate|]. cbn [Cast_Model.lo Cast_Model.hi]. lia.
  - rewrite has_key_app. cbn [has_key]. replace (cicmp CL CL) with true by reflexivity. apply Bool.orb_true_r.
  - rewrite const_ref_app by exact A. reflexivity.
Qed.
Definition kind (dat : list Z) : body := match dat with [] => Raw | _ => Sized (Z.of_nat (length dat)) end.
Definition head_received (h : header) (dat : list Z) : header :=
  match dat with [] => h ++ [(TE, []); (CL, [])] | _ => h ++ [(CL, show_int (Z.of_nat (length dat))); (TE, [])] end.
Lemma choose_ok h dat : fields_ok h -> Z.of_nat (length dat) < 2 ^ 63 -> choose_body (with_length h dat) = Ok (head_received h dat, kind dat).
Proof.
  intros H L. destruct dat as [|c dat]; [now apply choose_none|]. unfold with_length, head_received, kind. apply choose_sized; [exact H|lia].
Qed.
Lemma length_field n : 0 <= n < 2 ^ 63 -> field_ok (CL, show_int n).
Proof.
  intros Hn. assert (D : Forall (fun c => isdigit c = true) (show_int n)).
  { unfold show_int. replace (n <? 0) with false by lia. apply dec_text_digits. lia. }
  unfold field_ok. cbn [fst snd]. split; [|split; [|split]].
  - split; [discriminate|]. apply Forall_forall. intros c Hc.
    assert (G : forallb (fun c => (33 <=? c) && (c <=? 126) && negb (c =? 34) && negb (existsb (Z.eqb c) (str "()<>@,;:\/[]?={}"))) CL = true) by reflexivity.
    rewrite forallb_forall in G. specialize (G c Hc). repeat (apply andb_true_iff in G; destruct G as [G ?]). unfold token_char. split; [lia|]. split; [|lia].
    intros Hi. rewrite negb_true_iff in H. assert (existsb (Z.eqb c) (str "()<>@,;:\/[]?={}") = true); [|congruence]. apply existsb_exists. exists c. split; [auto|lia].
  - rewrite Forall_forall in D. split; [|split]; [apply Forall_forall; intros c Hc; specialize (D c Hc); unfold isdigit in D; unfold is_byte; lia|intros K; now apply D in K|intros K; now apply D in K].
  - intros c v E. rewrite E in D. inversion D as [|? ? K _]; subst. unfold isdigit in K. unfold blank. lia.
  - assert (L : (length (show_int n) <= 19)%nat).
    { unfold show_int. replace (n <? 0) with false by lia. unfold dec_text. rewrite map_length. apply digits_length; [lia| |lia]. change (10 ^ Z.of_nat 19) with 10000000000000000000. lia. }
    change (length CL) with 14%nat. lia.
Qed.
Lemma with_length_ok h dat : fields_ok h -> Z.of_nat (length dat) < 2 ^ 63 ->
  Forall field_ok (with_length h dat) /\ NoDup (map (fun g => lower (fst g)) (with_length h dat)).
Proof.
  intros (F & N & K) L. destruct dat as [|c dat]; [now split|]. unfold with_length. split.
  - apply Forall_app. split; [exact F|]. constructor; [|constructor]. apply length_field. lia.
  - rewrite map_app. cbn [map fst]. apply NoDup_rev in N. rewrite <- (rev_involutive (_ ++ _)). apply NoDup_rev. rewrite rev_app_distr. cbn [rev app]. constructor; [|exact N].
    rewrite <- in_rev. intros I. apply in_map_iff in I. destruct I as (g & E & I). rewrite Forall_forall in K. destruct (K g I) as [K1 _].
    unfold same in K1. destruct (list_eq_dec Z.eq_dec (lower (fst g)) (lower (str "Content-Length"))); [discriminate K1|]. contradiction.
Qed.

(** * Sending *)
Lemma set_has h v : has_key h CL = false -> set h CL v = h ++ [(CL, v)].
Proof. apply set_absent. Qed.
Lemma send_message_live sc (Hsc : forall i, 0 < sc i) line h dat x : has_key h CL = false -> okst x -> conn (fst x) = true ->
  exists x', send_message sc (line ++ [13; 10]) h dat x = Ok x' /\ okst x' /\ conn (fst x') = true /\ wb (fst x') = [] /\
  kout (snd x') = wout x ++ message line (with_length h dat) dat /\ stream x' = stream x.
Proof.
  intros Hk Hx Hc. unfold send_message. destruct (puts_live sc Hsc (line ++ [13; 10]) x Hx Hc) as (x1 & E1 & E2 & E3 & E4 & E5). rewrite E1. cbn [obind negb].
  assert (W : (if negb (has_key h CL) && (0 <? Z.of_nat (length dat)) then set h CL (show_int (Z.of_nat (length dat))) else h) = with_length h dat).
  { rewrite Hk. cbn [negb andb]. destruct dat as [|c dat]; [reflexivity|]. replace (0 <? Z.of_nat (length (c :: dat))) with true by (cbn [length]; lia). now apply set_has. }
  rewrite W. destruct (send_header_live sc Hsc (with_length h dat) x1 E2 E3) as (x2 & F1 & F2 & F3 & F4 & F5). rewrite F1. cbn [obind].
  assert (B : exists x3, (if 0 <? Z.of_nat (length dat) then puts sc dat x2 else Ok (true, x2)) = Ok (true, x3) /\ okst x3 /\ connf x3 = true /\ wout x3 = wout x2 ++ dat /\ stream x3 = stream x2).
  { destruct dat as [|c dat]; [exists x2; rewrite app_nil_r; auto|]. replace (0 <? Z.of_nat (length (c :: dat))) with true by (cbn [length]; lia).
    destruct (puts_live sc Hsc (c :: dat) x2 F2 F3) as (x3 & G1 & G2 & G3 & G4 & G5). exists x3. auto. }
  destruct B as (x3 & -> & G2 & G3 & G4 & G5). cbn [obind negb]. destruct (flush_live sc Hsc x3 G2 G3) as (x4 & H1 & H2 & H3 & H4 & H5 & H6).
  rewrite H1. cbn [obind]. exists x4. split; [reflexivity|]. split; [exact H2|]. split; [exact H3|]. split; [exact H5|]. split; [|congruence].
  rewrite H4, G4, F5, E4. unfold message, crlf. now rewrite <- !app_assoc.
Qed.

(** * Receiving *)
Lemma message_split line h dat s : message line h dat ++ s = line ++ 13 :: 10 :: wire h ++ dat ++ s.
Proof. unfold message, crlf. rewrite <- !app_assoc. reflexivity. Qed.
Lemma no_lf s : Forall (fun c => ~ blank c) s -> ~ In 10 s.
Proof. intros F H. rewrite Forall_forall in F. apply (F 10 H). right. lia. Qed.
Section Live.
Context (rc : nat -> Z) (Hrc : forall i, 0 < rc i).
Lemma request_at m u c ma mi h hd bd dat s x : alive x -> word_ok m -> word_ok u -> int ma -> int mi -> (length (request_line m u ma mi) <= 4094)%nat ->
  Uri_Model.uri u = Ok c -> Forall field_ok h -> NoDup (map (fun g => lower (fst g)) h) -> choose_body h = Ok (hd, bd) ->
  stream x = message (request_line m u ma mi) h dat ++ s ->
  exists x', recv_request rc x = Ok (mkRec (m, c, (ma, mi)) hd bd, x') /\ alive x' /\ stream x' = dat ++ s.
Proof.
  intros Ha Hm Hu H1 H2 Hl Hp Hf Hn Hc Hs. rewrite message_split in Hs. unfold recv_request.
  destruct (getl_line rc Hrc x _ _ Ha Hs) as (x1 & E1 & E2 & E3); [|exact Hl|].
  { unfold request_line. intros K. destruct Hm as [_ Hm], Hu as [_ Hu].
    repeat (apply in_app_or in K; destruct K as [K|K]; [first [now apply (no_lf _ Hm) in K | now apply (no_lf _ Hu) in K | destruct K as [K|[]]; discriminate K]|]).
    pose proof (version_plain ma mi) as P. rewrite Forall_forall in P. destruct (P 10 K) as (_ & _ & _ & P4). congruence. }
  rewrite E1. cbn [obind]. unfold request_line. change (str " ") with [32]. cbn [app].
  rewrite (word_app m (32 :: u ++ 32 :: version_text ma mi) Hm) by reflexivity.
  rewrite (word_next u (32 :: version_text ma mi) Hu) by reflexivity.
  rewrite <- (app_nil_r (version_text ma mi)). rewrite (word_next (version_text ma mi) [] (version_word ma mi) I). cbv iota. rewrite Hp. cbn [obind].
  rewrite scan_version_ok by assumption.
  destruct (header_from_wire rc Hrc h x1 (dat ++ s) Hf Hn E2 E3) as (x2 & F1 & F2 & F3). rewrite F1. cbn [obind]. rewrite Hc. cbn [obind]. exists x2. auto.
Qed.
Lemma skip_none r : (match r with c :: _ => ~ blank c | [] => True end) -> skip r = r.
Proof. destruct r as [|c r]; [reflexivity|]. intros H. cbn [skip]. now rewrite nonblank. Qed.
Lemma response_at junk ma mi code reason h hd bd dat s x : alive x -> int ma -> int mi -> int code -> reason_ok reason -> (length (status_line ma mi code reason) <= 4094)%nat ->
  Forall field_ok h -> NoDup (map (fun g => lower (fst g)) h) -> choose_body h = Ok (hd, bd) ->
  stream x = message (status_line ma mi code reason) h dat ++ s ->
  exists x', recv_response rc junk x = Ok (mkRec ((ma, mi), code, reason) hd bd, x') /\ alive x' /\ stream x' = dat ++ s.
Proof.
  intros Ha H1 H2 H3 [Hr Hr'] Hl Hf Hn Hc Hs. rewrite message_split in Hs. unfold recv_response.
  destruct (getl_line rc Hrc x _ _ Ha Hs) as (x1 & E1 & E2 & E3); [|exact Hl|].
  { unfold status_line. intros K. pose proof (version_plain ma mi) as P. pose proof (show_plain code) as Q. rewrite Forall_forall in P, Q.
    repeat (apply in_app_or in K; destruct K as [K|K]; [first [destruct (P 10 K) as (_ & _ & _ & P4); congruence | destruct (Q 10 K) as (_ & _ & _ & P4); congruence | destruct K as [K|[]]; discriminate K]|]).
    contradiction. }
  rewrite E1. cbn [obind]. unfold status_line. change (str " ") with [32]. cbn [app].
  rewrite (word_app (version_text ma mi) (32 :: show_int code ++ 32 :: reason) (version_word ma mi)) by reflexivity.
  assert (S : skip (32 :: show_int code ++ 32 :: reason) = show_int code ++ 32 :: reason).
  { change (skip (32 :: show_int code ++ 32 :: reason)) with (skip (show_int code ++ 32 :: reason)). apply skip_none. pose proof (show_plain code) as P. pose proof (show_nonempty code) as N.
    destruct (show_int code) as [|c l]; [congruence|]. cbn [app]. inversion P as [|? ? Q _]; subst. apply Q. }
  rewrite S. clear S.
  assert (G : get_int (show_int code ++ 32 :: reason) = (code, Some (32 :: reason))).
  { unfold get_int. rewrite (Cast_Proof.scan_leading _ _ _ _ (Cast_Proof.leading_show code (32 :: reason) ltac:(unfold Cast_Spec.digit; lia))).
    replace (if code <? 0 then - Z.abs code else Z.abs code) with code by (destruct (Z.ltb_spec code 0); lia). unfold int in H3.
    replace (code <? - 2 ^ 31) with false by lia. replace (2 ^ 31 - 1 <? code) with false by lia. reflexivity. }
  destruct (show_int code ++ 32 :: reason) as [|c0 l0] eqn:El; [destruct (show_int code); discriminate El|]. rewrite G.
  cbv iota.
  replace (skip (32 :: reason)) with reason by (symmetry; exact (skip_none reason Hr')).
  rewrite scan_version_ok by assumption.
  destruct (header_from_wire rc Hrc h x1 (dat ++ s) Hf Hn E2 E3) as (x2 & F1 & F2 & F3). rewrite F1. cbn [obind]. rewrite Hc. cbn [obind]. exists x2. auto.
Qed.

(** * The raw stream *)
Inductive rrep : Z -> st -> list Z -> list Z -> Prop :=
| rr_none x : alive x -> rrep (-1) x (stream x) []
| rr_peek c x body left : is_byte c -> rrep (-1) x body left -> rrep c x (c :: body) left.
Lemma rstep o b x body left : rrep b x body left ->
  exists r b' x', raw_step rc o (b, x) = Ok (r, (b', x')) /\ delivered r = hd_error body /\ rrep b' x' (adv o body) left.
Proof.
  assert (D : forall c, is_byte c -> delivered c = Some c).
  { intros c Hc. unfold delivered, is_byte in *. replace (c =? -1) with false by lia. f_equal. apply Z.mod_small. lia. }
  intros H. destruct H as [x Ha|c x body left Hc Hr].
  - unfold raw_step. change (-1 =? -1) with true. cbv iota. destruct (stream x) as [|c s] eqn:Es.
    + destruct (getc_end rc Hrc x Ha Es) as (x' & E1 & E2 & E3 & _). rewrite E1. exists (-1), (-1), x'. split; [destruct o; reflexivity|]. split; [reflexivity|].
      replace (adv o []) with (@nil Z) by (destruct o; reflexivity). pose proof (rr_none x' E2) as R. now rewrite E3 in R.
    + destruct (getc_at rc Hrc x c s Ha Es) as (x' & E1 & E2 & E3 & _). rewrite E1. pose proof (stream_bytes x Ha) as B. rewrite Es in B. apply Forall_inv in B as Bc.
      exists c, (match o with Peek => c | Next => -1 end), x'. split; [reflexivity|]. cbn [hd_error]. split; [now apply D|].
      pose proof (rr_none x' E2) as R. rewrite E3 in R. destruct o; cbn [adv tl]; [now constructor|exact R].
  - unfold raw_step. replace (c =? -1) with false by (unfold is_byte in Hc; lia). exists c, (match o with Peek => c | Next => -1 end), x.
    split; [reflexivity|]. split; [now apply D|]. destruct o; cbn [adv tl]; [now constructor|exact Hr].
Qed.
Lemma raw_body ops x : alive x -> exists rs b' x', run_body (raw_step rc) ops (-1, x) = Ok (rs, (b', x')) /\ map delivered rs = reads ops (stream x).
Proof.
  intros Ha. destruct (run_body_spec (raw_step rc) rrep rstep ops (-1) x (stream x) [] (rr_none x Ha)) as (rs & b' & x' & E1 & E2 & _). exists rs, b', x'. auto.
Qed.
End Live.

(** * Mixed reading and writing *)
Lemma run_stream_app rc sc o1 o2 : forall s, run_stream rc sc (o1 ++ o2) s =
  let* (r1, s1) := run_stream rc sc o1 s in let* (r2, s2) := run_stream rc sc o2 s1 in Ok (r1 ++ r2, s2).
Proof.
  induction o1 as [|o o1 IH]; intros s.
  - cbn [app run_stream obind]. destruct (run_stream rc sc o2 s) as [[r s1]| | |]; reflexivity.
  - cbn [app run_stream]. destruct (stream_step rc sc o s) as [[r s1]| | |]; try reflexivity. cbn [obind]. rewrite IH.
    destruct (run_stream rc sc o1 s1) as [[r1 s2]| | |]; try reflexivity. cbn [obind]. destruct (run_stream rc sc o2 s2) as [[r2 s3]| | |]; reflexivity.
Qed.
Lemma stream_calls rc sc ops : forall b x, okst x -> exists rs b' x' cs crs, run_stream rc sc ops (b, x) = Ok (rs, (b', x')) /\
  run rc sc cs x = Ok (crs, x') /\ flat_map written cs = flat_map swritten ops /\ (Forall2 sdone ops rs -> Forall2 success cs crs).
Proof.
  induction ops as [|o ops IH]; intros b x Hx.
  - exists [], b, x, [], []. cbn [run_stream run flat_map]. repeat split; auto.
  - assert (S : exists r b1 x1 cs crs, stream_step rc sc o (b, x) = Ok (r, (b1, x1)) /\ run rc sc cs x = Ok (crs, x1) /\ flat_map written cs = swritten o /\ (sdone o r -> Forall2 success cs crs)).
    { destruct o as [o|c|d|]; cbn [stream_step].
      - unfold raw_step. destruct (Z.eqb_spec b (-1)) as [->|Hb].
        + destruct (getc rc x) as [c x1] eqn:Eg. exists c, (match o with Peek => c | Next => -1 end), x1, [Getc], [RNum c]. split; [reflexivity|].
          cbn [run do_call]. rewrite Eg. cbn [obind flat_map written swritten app]. repeat split; auto; repeat constructor.
        + exists b, (match o with Peek => b | Next => -1 end), x, [], []. split; [reflexivity|]. repeat split; auto.
      - destruct (write_spec rc sc [c] x Hx) as (n & x1 & E1 & E2 & E3 & E4 & E5 & E6 & E7 & E8). unfold overflow. cbn [fst snd]. rewrite E1. cbn [obind].
        eexists _, b, x1, [Write [c]], [RNum n]. split; [reflexivity|]. cbn [run do_call]. rewrite E1. cbn [obind flat_map written swritten app sdone]. repeat split; auto.
        intros K. constructor; [|constructor]. cbn [success length] in *. destruct (n <? 0); [congruence|]. destruct (Z.eqb_spec n 0); [congruence|]. lia.
      - destruct (write_spec rc sc d x Hx) as (n & x1 & E1 & E2 & E3 & E4 & E5 & E6 & E7 & E8). unfold xsputn. cbn [fst snd]. rewrite E1. cbn [obind].
        eexists _, b, x1, [Write d], [RNum n]. split; [reflexivity|]. cbn [run do_call]. rewrite E1. cbn [obind flat_map written swritten sdone]. rewrite app_nil_r. repeat split; auto.
        intros K. constructor; [|constructor]. cbn [success]. replace (n <? 0) with false in K by lia. exact K.
      - destruct (flush_spec rc sc x (ok_open _ Hx)) as (n & x1 & E1 & _). unfold sync. cbn [fst snd]. rewrite E1. cbn [obind].
        eexists _, b, x1, [Flush], [RNum n]. split; [reflexivity|]. cbn [run do_call]. rewrite E1. cbn [obind flat_map written swritten sdone app]. repeat split; auto.
        intros K. constructor; [|constructor]. cbn [success]. destruct (Z.ltb_spec n 0); [lia|discriminate K]. }
    destruct S as (r & b1 & x1 & cs1 & crs1 & S1 & S2 & S3 & S4).
    assert (Hx1 : okst x1).
    { destruct (run_spec rc sc cs1 x Hx) as (rs1 & x1' & ds & E1 & E2 & _). rewrite S2 in E1. injection E1 as <- <-. exact E2. }
    destruct (IH b1 x1 Hx1) as (rs & b' & x' & cs & crs & I1 & I2 & I3 & I4).
    exists (r :: rs), b', x', (cs1 ++ cs), (crs1 ++ crs). cbn [run_stream]. rewrite S1. cbn [obind]. rewrite I1. cbn [obind]. split; [reflexivity|].
    rewrite run_app, S2. cbn [obind]. rewrite I2. cbn [obind]. split; [reflexivity|]. rewrite flat_map_app, S3, I3. split; [reflexivity|].
    intros K. inversion K; subst. apply Forall2_app; auto.
Qed.
Section Both.
Context (rc sc : nat -> Z) (Hrc : forall i, 0 < rc i) (Hsc : forall i, 0 < sc i).
Lemma keep_alive x x' : alive x -> okst x' -> kinf x' = kinf x -> rbf x' = rbf x -> (connf x = true -> connf x' = true) -> alive x' /\ stream x' = stream x.
Proof.
  intros [A1 A2] Ho K R C. split; [|unfold stream; now rewrite K, R]. split; [exact Ho|]. intros E. rewrite K. apply A2. destruct (connf x); [|reflexivity]. rewrite C in E by reflexivity. discriminate E.
Qed.
Lemma rrep_move b x x' body left : rrep b x body left -> (alive x -> alive x' /\ stream x' = stream x) -> rrep b x' body left.
Proof. intros H M. induction H as [x Ha|c x body left Hc Hr IH]; [|constructor; auto]. destruct (M Ha) as [A <-]. now constructor. Qed.
Lemma stream_reads ops : forall b x body left rs b' x', okst x -> rrep b x body left -> run_stream rc sc ops (b, x) = Ok (rs, (b', x')) ->
  map delivered (sresults ops rs) = reads (sreads ops) body.
Proof.
  assert (L : live rc sc) by (split; assumption).
  induction ops as [|o ops IH]; intros b x body left rs b' x' Hx Hr E.
  - cbn [run_stream] in E. injection E as <- <- <-. reflexivity.
  - cbn [run_stream] in E. destruct o as [o|c|d|]; cbn [stream_step] in E.
    + destruct (rstep rc Hrc o b x body left Hr) as (r & b1 & x1 & E1 & E2 & E3). rewrite E1 in E. cbn [obind] in E.
      destruct (run_stream rc sc ops (b1, x1)) as [[rs1 s1]| | |] eqn:E4; cbn [obind] in E; try discriminate E. destruct s1 as [b2 x2]. injection E as <- <- <-.
      cbn [sresults sreads map reads]. rewrite E2.
      assert (Hx1 : okst x1). { clear - E3. induction E3 as [x A|]; [apply A|assumption]. }
      rewrite (IH b1 x1 _ left rs1 b2 x2 Hx1 E3 E4). destruct body as [|c t], o; cbn [hd_error adv tl]; auto.
    + destruct (write_spec rc sc [c] x Hx) as (n & x1 & E1 & E2 & E3 & E4 & E5 & E6 & E7 & E8). unfold overflow in E. cbn [fst snd] in E. rewrite E1 in E. cbn [obind] in E.
      destruct (run_stream rc sc ops (b, x1)) as [[rs1 [b2 x2]]| | |] eqn:E9; cbn [obind] in E; try discriminate E. injection E as <- <- <-. cbn [sresults sreads].
      apply (IH b x1 body left rs1 b2 x2 E4); [|exact E9]. apply (rrep_move b x x1 body left Hr). intros A. apply (keep_alive x x1 A E4 E2 E3). auto.
    + destruct (write_spec rc sc d x Hx) as (n & x1 & E1 & E2 & E3 & E4 & E5 & E6 & E7 & E8). unfold xsputn in E. cbn [fst snd] in E. rewrite E1 in E. cbn [obind] in E.
      destruct (run_stream rc sc ops (b, x1)) as [[rs1 [b2 x2]]| | |] eqn:E9; cbn [obind] in E; try discriminate E. injection E as <- <- <-. cbn [sresults sreads].
      apply (IH b x1 body left rs1 b2 x2 E4); [|exact E9]. apply (rrep_move b x x1 body left Hr). intros A. apply (keep_alive x x1 A E4 E2 E3). auto.
    + destruct (flush_spec rc sc x (ok_open _ Hx)) as (n & x1 & E1 & E2 & E3 & E4 & E5 & E6 & E7 & E8 & E8'). unfold sync in E. cbn [fst snd] in E. rewrite E1 in E. cbn [obind] in E.
      destruct (run_stream rc sc ops (b, x1)) as [[rs1 [b2 x2]]| | |] eqn:E9; cbn [obind] in E; try discriminate E. injection E as <- <- <-. cbn [sresults sreads].
      assert (Hx1 : okst x1). { constructor; rewrite ?E2, ?E3, ?E4; auto; try apply Hx. apply buf_pos. }
      apply (IH b x1 body left rs1 b2 x2 Hx1); [|exact E9]. apply (rrep_move b x x1 body left Hr). intros A. apply (keep_alive x x1 A Hx1 E2 E3). auto.
Qed.
End Both.

(** * Bodies of received messages *)
Definition ends {A} (o : outcome A) : Prop := match o with Ok _ | Throw => True | _ => False end.
Lemma firstn_app_len {A} (a b : list A) : firstn (length a) (a ++ b) = a.
Proof. now rewrite firstn_app, firstn_all, Nat.sub_diag, firstn_O, app_nil_r. Qed.
Lemma skipn_app_len {A} (a b : list A) : skipn (length a) (a ++ b) = b.
Proof. now rewrite skipn_app, skipn_all, Nat.sub_diag. Qed.
Section Bodies.
Context (rc : nat -> Z) (Hrc : forall i, 0 < rc i).
Lemma sized_part dat s x ops : dat <> [] -> alive x -> stream x = dat ++ s ->
  exists rs x', read_body rc (kind dat) ops x = Ok (rs, x') /\ map delivered rs = reads ops dat /\ (unread ops dat = [] -> stream x' = s).
Proof.
  intros Hd Ha Hs. destruct dat as [|c d]; [congruence|]. unfold kind, read_body.
  destruct (sized_body rc Hrc (Z.of_nat (length (c :: d))) ops x ltac:(cbn [length]; lia) Ha) as (rs & b' & x' & E1 & E2 & _ & E3). rewrite E1. cbn [obind].
  rewrite Hs, Nat2Z.id, firstn_app_len in E2, E3. rewrite skipn_app_len in E3. exists rs, x'. auto.
Qed.
Lemma raw_part s x ops : alive x -> stream x = s -> exists rs x', read_body rc (kind []) ops x = Ok (rs, x') /\ map delivered rs = reads ops s.
Proof.
  intros Ha Hs. unfold kind, read_body. destruct (raw_body rc Hrc ops x Ha) as (rs & b' & x' & E1 & E2). rewrite E1. cbn [obind]. exists rs, x'. rewrite <- Hs. auto.
Qed.
Lemma chunked_part dat t s x ops : alive x -> chunked_body dat t -> Forall (fun c => is_byte c /\ c <> 255) dat -> stream x = t ++ s ->
  exists rs x', read_body rc Chunked ops x = Ok (rs, x') /\ map delivered rs = reads ops dat /\ (In None (reads ops dat) -> stream x' = s).
Proof.
  intros Ha Hc Hb Hs. unfold read_body. destruct (chunked_stream rc Hrc dat t ops x s Ha Hc Hb Hs) as (rs & b' & x' & E1 & E2 & E3). rewrite E1. cbn [obind]. exists rs, x'. auto.
Qed.
End Bodies.
Lemma choose_chunked h v : has_key h TE = true -> const_ref h TE = v -> lower v = str "chunked" -> choose_body h = Ok (h, Chunked).
Proof.
  intros H E L. unfold choose_body. rewrite (ref_present h TE v H E). rewrite cicmp_same. unfold same. rewrite L. reflexivity.
Qed.
Lemma response_ends rc junk x : okst x -> ends (recv_response rc junk x).
Proof.
  intros Hx. unfold recv_response. destruct (getline_any rc line_limit x Hx) as (r & x' & -> & Hl & Hr). cbn [obind]. destruct r as [line|]; [|exact I].
  destruct (word line) as [v line2]. destruct (match skip line2 with [] => (junk, None) | z :: l => get_int (z :: l) end) as [code rest]. 
  destruct (scan_version (map toupper v)) as [ver|]; [|exact I].
  pose proof (header_any rc x' (proj1 Hl)) as F. destruct (header_from rc x') as [[h x2]| | |]; cbn in F; try contradiction; [|exact I]. cbn [obind].
  unfold choose_body. destruct (ref h TE) as [h1 te]. destruct (cicmp te (str "chunked")); [exact I|]. destruct (ref h1 CL) as [h2 cl]. destruct (eqs cl []); [exact I|].
  unfold Cast_Model.from_string. destruct (Cast_Model.extract _ cl); exact I.
Qed.
Lemma request_line_text m u ma mi : m ++ str " " ++ u ++ str " " ++ str "HTTP/" ++ show_int ma ++ str "." ++ show_int mi ++ [13; 10] = request_line m u ma mi ++ [13; 10].
Proof. unfold request_line, version_text. now rewrite <- !app_assoc. Qed.
Lemma status_line_text ma mi code reason : str "HTTP/" ++ show_int ma ++ str "." ++ show_int mi ++ str " " ++ show_int code ++ str " " ++ reason ++ [13; 10] = status_line ma mi code reason ++ [13; 10].
Proof. unfold status_line, version_text. now rewrite <- !app_assoc. Qed.
