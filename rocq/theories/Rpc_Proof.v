From Verif Require Import Common CommonLemmas Archive_Model Archive_Spec Archive_Proof Cast_Spec Cast_Proof NumText_Model NumText_Proof Rpc_Spec Rpc_Model.
Local Open Scope Z_scope.

Lemma str_eqb_eq a b : str_eqb a b = true <-> a = b.
Proof. unfold str_eqb. destruct (list_eq_dec Z.eq_dec a b); split; congruence. Qed.
Lemma str_eqb_refl a : str_eqb a a = true.
Proof. now apply str_eqb_eq. Qed.
Lemma str_eqb_neq a b : a <> b -> str_eqb a b = false.
Proof. intros H. destruct (str_eqb a b) eqn:E; [|reflexivity]. apply str_eqb_eq in E. contradiction. Qed.

Lemma lookup_registered {A} (svc : service A) name f : lookup svc name = Some f <-> registered svc name f.
Proof.
  split.
  - induction svc as [|[n g] svc IH]; cbn [lookup]; [discriminate|]. destruct (str_eqb n name) eqn:E.
    + apply str_eqb_eq in E. intros [= ->]. subst n. exists [], svc. split; [reflexivity|intros []].
    + intros H. destruct (IH H) as (pre & post & -> & Hn). exists ((n, g) :: pre), post. split; [reflexivity|].
      cbn [map fst In]. intros [->|H']; [rewrite str_eqb_refl in E; discriminate|contradiction].
  - intros (pre & post & -> & Hn). induction pre as [|[n g] pre IH]; cbn [app lookup].
    + now rewrite str_eqb_refl.
    + cbn [map fst In] in Hn. rewrite str_eqb_neq by (intros ->; apply Hn; now left). apply IH. intros H. apply Hn. now right.
Qed.
Lemma lookup_none {A} (svc : service A) name : lookup svc name = None <-> forall f, ~ registered svc name f.
Proof.
  split.
  - intros H f Hf. apply lookup_registered in Hf. congruence.
  - intros H. destruct (lookup svc name) as [f|] eqn:E; [|reflexivity]. apply lookup_registered in E. now apply H in E.
Qed.

Lemma read_wstr s rest : bytes s -> small s -> read TStr (VS []) (wstr s ++ rest, true) = Ok (VS s, (rest, true)).
Proof. intros Hb Hs. apply archive_roundtrip. now exists s. Qed.
Lemma read_wint z old rest : int32 z -> read (TNum 4 true) old (wint z ++ rest, true) = Ok (VN z, (rest, true)).
Proof. intros H. apply archive_roundtrip. split; [lia|]. exists z. split; [reflexivity|]. exact H. Qed.
Lemma read_write_args : forall ts vs rest, Forall2 has_type ts vs -> read_args ts (write_args ts vs ++ rest, true) = Ok (vs, (rest, true)).
Proof.
  intros ts vs rest H. induction H as [|t v ts vs Hv _ IH]; [reflexivity|]. cbn [read_args write_args].
  rewrite <- app_assoc, archive_roundtrip by exact Hv. cbn [obind]. rewrite IH. reflexivity.
Qed.

Section one.
Context {A : Type} (ver : Z) (svc : service A).
Lemma serve_short a f : serve (S f) false ver svc a ([], true) = Ok (a, [], Waits []).
Proof. reflexivity. Qed.
Context (a : A).
Lemma serve_ping : serve (turns (wstr PING)) false ver svc a (wstr PING, true) = Ok (a, wstr PONG, Waits []).
Proof. reflexivity. Qed.

Lemma serve1_name eof name rest : bytes name -> small name -> ~ In name reserved ->
  serve1 eof ver svc a (wstr name ++ rest, true) =
  match lookup svc name with
  | None => Ok (a, wstr (str "NotFound " ++ name), Leave)
  | Some f =>
      let* (rv, s2) := read (TNum 4 true) VUndef (rest, true) in
      if negb (snd s2) && negb eof then Ok (a, [], Short)
      else match rv with
           | VN v => if snd s2 && negb (v =? ver)
                     then Ok (a, wstr (str "VersionMismatch " ++ show_int ver ++ str " " ++ show_int v), Leave)
                     else invoke eof f a s2
           | _ => invoke eof f a s2
           end
  end.
Proof.
  intros Hb Hs Hr. unfold serve1. rewrite read_wstr by assumption. cbn [obind chars snd negb].
  rewrite (str_eqb_neq name PING) by (intros ->; apply Hr; now left). rewrite (str_eqb_neq name EXIT) by (intros ->; apply Hr; right; now left).
  reflexivity.
Qed.

Lemma serve_unknown f eof name rest : bytes name -> small name -> ~ In name reserved -> lookup svc name = None ->
  serve (S f) eof ver svc a (wstr name ++ rest, true) = Ok (a, wstr (str "NotFound " ++ name), Closed).
Proof. intros Hb Hs Hr Hn. cbn [serve]. rewrite serve1_name, Hn by assumption. reflexivity. Qed.
Lemma serve_mismatch f eof name g v rest : bytes name -> small name -> ~ In name reserved -> lookup svc name = Some g ->
  int32 v -> v <> ver ->
  serve (S f) eof ver svc a (wstr name ++ wint v ++ rest, true) =
  Ok (a, wstr (str "VersionMismatch " ++ show_int ver ++ str " " ++ show_int v), Closed).
Proof.
  intros Hb Hs Hr Hg Hv Hn. cbn [serve]. rewrite serve1_name, Hg, read_wint by assumption. cbn [obind snd negb andb].
  destruct (Z.eqb_spec v ver); [contradiction|]. reflexivity.
Qed.
Lemma serve_call f name g vs a' x : bytes name -> small name -> ~ In name reserved -> lookup svc name = Some g ->
  int32 ver -> Forall2 has_type (f_args g) vs -> f_body g a vs = (a', Ret x) ->
  serve (S (S f)) false ver svc a (wstr name ++ wint ver ++ write_args (f_args g) vs, true) =
  Ok (a', wstr (str "OK") ++ write (f_ret g) x, Waits []).
Proof.
  intros Hb Hs Hr Hg Hv Hvs Hf. remember (S f) as f1. cbn [serve]. rewrite serve1_name, Hg, read_wint by assumption. cbn [obind snd negb andb].
  rewrite Z.eqb_refl. cbn [negb]. unfold invoke.
  pose proof (read_write_args (f_args g) vs [] Hvs) as E. rewrite app_nil_r in E. rewrite E. cbn [obind snd].
  replace (match f_args g with [] => true | _ :: _ => true end) with true by now destruct (f_args g).
  cbn [negb]. rewrite Hf. cbn [obind]. subst f1. rewrite serve_short. cbn [obind]. now rewrite app_nil_r.
Qed.
End one.

(** gen_exception on the two messages *)
Lemma nospace c : ~ blank c <-> negb (Cast_Model.isspace c) = true.
Proof. rewrite blank_isspace. destruct (Cast_Model.isspace c); cbn; split; congruence. Qed.
Lemma noblank_b w : forallb (fun c => negb (Cast_Model.isspace c)) w = true -> Forall (fun c => ~ blank c) w.
Proof. intros H. apply Forall_forall. intros c Hc. apply nospace. rewrite forallb_forall in H. now apply H. Qed.
Lemma bytes_b w : forallb (fun c => (0 <=? c) && (c <? 256)) w = true -> bytes w.
Proof. intros H. apply Forall_forall. intros c Hc. rewrite forallb_forall in H. specialize (H c Hc). unfold is_byte. lia. Qed.
Lemma word_app pre w rest : Forall blank pre -> Forall (fun c => ~ blank c) w -> w <> [] -> (match rest with [] => True | c :: _ => blank c end) ->
  word (pre ++ w ++ rest) = (w, rest).
Proof.
  intros Hp Hw Hn Hr. unfold word. rewrite skip_ws_app; [|exact Hp|destruct w; [congruence|inversion Hw; assumption]].
  apply spanb_app.
  - eapply Forall_impl; [|exact Hw]. intros c. apply nospace.
  - intros c r ->. apply blank_isspace in Hr. now rewrite Hr.
Qed.
Lemma gen_not_found name : Forall (fun c => ~ blank c) name -> gen_exception (str "NotFound " ++ name) = Ok (Not_found name).
Proof.
  intros H. unfold gen_exception. change (str "NotFound " ++ name) with ([] ++ str "NotFound" ++ (32 :: name)).
  rewrite word_app; [|constructor| |discriminate|now left].
  2:{ now apply noblank_b. }
  rewrite str_eqb_refl. f_equal. f_equal. destruct name as [|c name]; [reflexivity|].
  change (32 :: c :: name) with ([32] ++ c :: name). rewrite <- (app_nil_r (c :: name)) at 1.
  rewrite word_app; [reflexivity|repeat constructor; now left|exact H|discriminate|exact I].
Qed.
Lemma signed_show n : signed (n <? 0, Z.abs n) = n.
Proof. unfold signed. destruct (Z.ltb_spec n 0); lia. Qed.
Lemma scan_blank s : Cast_Model.scan (32 :: s) = Cast_Model.scan s.
Proof. reflexivity. Qed.
Lemma gen_mismatch s c : gen_exception (str "VersionMismatch " ++ show_int s ++ str " " ++ show_int c) = Ok (Mismatch s c).
Proof.
  unfold gen_exception. change (str "VersionMismatch " ++ show_int s ++ str " " ++ show_int c)
    with ([] ++ str "VersionMismatch" ++ (32 :: show_int s ++ 32 :: show_int c)).
  rewrite word_app; [|constructor| |discriminate|now left].
  2:{ now apply noblank_b. }
  rewrite str_eqb_refl. change (str_eqb (str "VersionMismatch") (str "NotFound")) with false. cbv iota.
  rewrite scan_blank.
  rewrite (scan_leading _ _ _ _ (leading_show s (32 :: show_int c) ltac:(unfold digit; lia))).
  rewrite scan_blank, scan_show, !signed_show. reflexivity.
Qed.

(** ** One client *)
Definition serving (o : option conn) : bool := match o with Some k => match pending k with Some _ => true | None => false end | None => false end.
Definition ready : option conn := Some {| inbox := []; good := true; pending := Some [] |}.
Definition gone : option conn := Some {| inbox := []; good := true; pending := None |}.
(** a read found the end *)
Definition spent : option conn := Some {| inbox := []; good := false; pending := None |}.
Definition idle (o : option conn) : Prop := o = None \/ o = ready \/ o = gone \/ o = spent.
Definition busy (n : nat) (f : nat -> option conn) : nat := length (filter (fun i => serving (f i)) (seq 0 n)).
Definition b2n (b : bool) : nat := if b then 1%nat else 0%nat.

Lemma busy_upd n c x : forall f, (c < n)%nat -> (busy n (upd f c x) + b2n (serving (f c)) = busy n f + b2n (serving x))%nat.
Proof.
  intros f Hc. unfold busy.
  assert (G : forall l : list nat, NoDup l -> 
    (length (filter (fun i => serving (upd f c x i)) l) + (if in_dec Nat.eq_dec c l then b2n (serving (f c)) else 0) =
     length (filter (fun i => serving (f i)) l) + (if in_dec Nat.eq_dec c l then b2n (serving x) else 0))%nat).
  { induction 1 as [|i l Hi _ IH]; [reflexivity|]. cbn [filter]. unfold upd at 1.
    destruct (in_dec Nat.eq_dec c (i :: l)) as [D|D]; destruct (in_dec Nat.eq_dec c l) as [D'|D']; cbn [In] in D.
    - destruct (Nat.eqb_spec i c) as [->|]; [contradiction|].
      destruct (serving (f i)); cbn [length]; lia.
    - destruct D as [->|D]; [|contradiction]. rewrite Nat.eqb_refl.
      destruct (serving x), (serving (f c)); cbn [length b2n] in *; lia.
    - exfalso. apply D. now right.
    - destruct (Nat.eqb_spec i c) as [->|]; [exfalso; apply D; now left|]. destruct (serving (f i)); cbn [length]; lia. }
  specialize (G (seq 0 n) (seq_NoDup n 0)). destruct (in_dec Nat.eq_dec c (seq 0 n)) as [_|D]; [exact G|].
  exfalso. apply D. apply in_seq. lia.
Qed.
Lemma filter_le {B} (p : B -> bool) l : (length (filter p l) <= length l)%nat.
Proof. induction l as [|x l IH]; [cbn; lia|]. cbn [filter]. destruct (p x); cbn [length]; lia. Qed.
Lemma busy_free n c f : (c < n)%nat -> serving (f c) = false -> (busy n f < n)%nat.
Proof.
  intros Hc Hs. pose proof (busy_upd n c ready f Hc) as E. rewrite Hs in E. cbn [b2n serving ready pending] in E.
  pose proof (filter_le (fun i => serving (upd f c ready i)) (seq 0 n)) as L. rewrite seq_length in L. unfold busy in *. lia.
Qed.

Lemma upd_same f c x : upd f c x c = x.
Proof. unfold upd. now rewrite Nat.eqb_refl. Qed.

(** Two worlds with the same connections. *)
Definition inv {A} (n : nat) (w : world A) : Prop :=
  live w = true /\ (free w + busy n (ss w) = n)%nat /\ forall i, idle (ss w i).

Section two.
Context {A : Type} (ver : Z) (svc : service A).

Lemma inv_upd n c (w : world A) (a : A) fr x : (c < n)%nat -> inv n w -> idle x -> (fr + b2n (serving x) = free w + b2n (serving (ss w c)))%nat ->
  inv n {| astate := a; live := true; free := fr; ss := upd (ss w) c x |}.
Proof.
  intros Hc (Hl & Hf & Hi) Hx Hb. split; [reflexivity|]. split.
  - cbn [free ss]. pose proof (busy_upd n c x (ss w) Hc). lia.
  - intros i. cbn [ss]. unfold upd. destruct (Nat.eqb i c); [exact Hx|apply Hi].
Qed.

Lemma busy_ext n f g : (forall i, f i = g i) -> busy n f = busy n g.
Proof. intros H. unfold busy. f_equal. apply filter_ext. intros i. now rewrite H. Qed.

(** The client has pinged. *)
Lemma pinged m c (w : world A) : ss w c = ready -> live w = true ->
  exists w', (let* w2 := send ver svc c (wstr PING) w in
    let* (pong, w3) := recv TStr (VS []) c w2 in
    match pong with
    | None => Ok (Stuck, w3)
    | Some p => if str_eqb (chars p) PONG then Ok (Got, w3) else let* w4 := reset ver svc c w3 in get_connection ver svc m c w4
    end) = Ok (Got, w') /\
    astate w' = astate w /\ live w' = true /\ free w' = free w /\ ss w' c = ready /\ forall i, i <> c -> ss w' i = ss w i.
Proof.
  intros Hs Hl. unfold send. rewrite Hs. cbn [ready pending astate]. unfold run_worker. cbn [astate].
  rewrite serve_ping. cbn [obind]. unfold recv. cbn [ss]. rewrite upd_same. cbn [inbox good List.app].
  change (wstr PONG) with (wstr PONG ++ []). rewrite read_wstr; [|now apply bytes_b|unfold small; cbn; lia].
  cbn [obind snd fst pending chars]. rewrite str_eqb_refl. eexists. split; [reflexivity|]. cbn [astate live free ss].
  rewrite upd_same. repeat (split; [easy|]). intros i Hi. unfold upd. destruct (Nat.eqb_spec i c); [contradiction|reflexivity].
Qed.

(** Two worlds that differ in the connection of [c] only. *)
Definition off (c : nat) (w w' : world A) : Prop := forall i, i <> c -> ss w' i = ss w i.
Lemma off_upd c w (a : A) l fr x : off c w {| astate := a; live := l; free := fr; ss := upd (ss w) c x |}.
Proof. intros i Hi. cbn [ss]. unfold upd. destruct (Nat.eqb_spec i c); [contradiction|reflexivity]. Qed.
Lemma inv_off n c (w w' : world A) : (c < n)%nat -> inv n w -> off c w w' -> live w' = true -> idle (ss w' c) ->
  (free w' + b2n (serving (ss w' c)) = free w + b2n (serving (ss w c)))%nat -> inv n w'.
Proof.
  intros Hc (Hl & Hf & Hi) Ho Hl' Hx Hb. split; [exact Hl'|]. split.
  - pose proof (busy_upd n c (ss w' c) (ss w) Hc) as E. rewrite (busy_ext n (upd (ss w) c (ss w' c)) (ss w')) in E; [lia|].
    intros i. unfold upd. destruct (Nat.eqb_spec i c) as [->|Hn]; [reflexivity|]. symmetry. now apply Ho.
  - intros i. destruct (Nat.eq_dec i c) as [->|Hn]; [exact Hx|]. rewrite Ho by exact Hn. apply Hi.
Qed.

Lemma connection_fresh m c n (w : world A) : (c < n)%nat -> inv n w -> ss w c = None ->
  exists w', get_connection ver svc (S m) c w = Ok (Got, w') /\ astate w' = astate w /\ inv n w' /\ ss w' c = ready.
Proof.
  intros Hc Hi Hs. assert (Hfree : (0 < free w)%nat).
  { destruct Hi as (_ & Hf & _). pose proof (busy_free n c (ss w) Hc ltac:(now rewrite Hs)). lia. }
  destruct (free w) as [|k] eqn:Ek; [lia|].
  set (w1 := {| astate := astate w; live := true; free := k; ss := upd (ss w) c ready |}).
  assert (Hr : ss w1 c = ready) by apply upd_same.
  destruct (pinged m c w1 Hr eq_refl) as (w' & E & Ha & Hl & Hf & Hs' & Ho).
  exists w'. cbn [get_connection]. unfold is_good, connect. rewrite Hs, (proj1 Hi), Ek. cbn [obind].
  change (Some {| inbox := []; good := true; pending := Some [] |}) with ready. fold w1. rewrite Hr. unfold ready at 1. cbv iota.
  split; [exact E|]. split; [exact Ha|]. split; [|exact Hs'].
  apply (inv_off n c w w' Hc Hi); [|exact Hl|rewrite Hs'; right; now left|].
  - intros i Hn. rewrite Ho by exact Hn. subst w1. cbn [ss]. unfold upd. destruct (Nat.eqb_spec i c); [contradiction|reflexivity].
  - rewrite Hs', Hs, Hf, Ek. subst w1. cbn [free b2n serving ready pending]. lia.
Qed.
Lemma connection_spent m c n (w : world A) : (c < n)%nat -> inv n w -> ss w c = spent ->
  exists w', get_connection ver svc (S m) c w = Ok (Got, w') /\ astate w' = astate w /\ inv n w' /\ ss w' c = ready.
Proof.
  intros Hc Hi Hs. assert (Hfree : (0 < free w)%nat).
  { destruct Hi as (_ & Hf & _). pose proof (busy_free n c (ss w) Hc ltac:(now rewrite Hs)). lia. }
  destruct (free w) as [|k] eqn:Ek; [lia|].
  set (w1 := {| astate := astate w; live := true; free := k; ss := upd (ss w) c ready |}).
  assert (Hr : ss w1 c = ready) by apply upd_same.
  destruct (pinged m c w1 Hr eq_refl) as (w' & E & Ha & Hl & Hf & Hs' & Ho).
  exists w'. cbn [get_connection]. unfold is_good, connect. rewrite Hs, (proj1 Hi), Ek. unfold spent at 1 2. cbn [good pending obind].
  change (Some {| inbox := []; good := true; pending := Some [] |}) with ready. fold w1. rewrite Hr. unfold ready at 1. cbv iota.
  split; [exact E|]. split; [exact Ha|]. split; [|exact Hs'].
  apply (inv_off n c w w' Hc Hi); [|exact Hl|rewrite Hs'; right; now left|].
  - intros i Hn. rewrite Ho by exact Hn. subst w1. cbn [ss]. unfold upd. destruct (Nat.eqb_spec i c); [contradiction|reflexivity].
  - rewrite Hs', Hs, Hf, Ek. subst w1. cbn [free b2n serving ready spent pending]. lia.
Qed.
Lemma connection_ok c n (w : world A) : (c < n)%nat -> inv n w ->
  exists w', get_connection ver svc 2 c w = Ok (Got, w') /\ astate w' = astate w /\ inv n w' /\ ss w' c = ready.
Proof.
  intros Hc Hi. pose proof Hi as (Hl & Hf & Hid). destruct (Hid c) as [Hs|[Hs|[Hs|Hs]]].
  - now apply connection_fresh.
  - destruct (pinged 1 c w Hs Hl) as (w' & E & Ha & Hl' & Hf' & Hs' & Ho). exists w'. cbn [get_connection].
    unfold is_good. rewrite Hs. cbn [ready good obind]. rewrite Hs. unfold ready at 1. cbv iota. split; [exact E|]. split; [exact Ha|]. split; [|exact Hs'].
    apply (inv_off n c w w' Hc Hi Ho Hl'); [rewrite Hs'; right; now left|]. rewrite Hs', Hs, Hf'. reflexivity.
  - set (w1 := {| astate := astate w; live := live w; free := free w; ss := upd (upd (ss w) c (Some {| inbox := []; good := false; pending := None |})) c None |}).
    assert (E1 : get_connection ver svc 2 c w = get_connection ver svc 1 c w1).
    { remember 1%nat as m. cbn [get_connection]. unfold is_good. rewrite Hs. cbn [gone good obind]. rewrite Hs. unfold gone at 1. cbv iota.
      unfold send. rewrite Hs. cbn [gone pending obind]. unfold recv. rewrite Hs. cbn [gone inbox good].
      change (read TStr (VS []) ([], true)) with (Ok (VS [], ([] : list Z, false))). cbn [obind snd fst pending chars].
      change (str_eqb [] PONG) with false. cbv iota. unfold reset. cbn [ss]. rewrite upd_same. cbn [pending obind]. reflexivity. }
    rewrite E1. change (astate w) with (astate w1). apply connection_fresh; [exact Hc| |apply upd_same].
    apply (inv_off n c w w1 Hc Hi); [|exact Hl|left; apply upd_same|].
    + intros i Hn. subst w1. cbn [ss]. unfold upd. destruct (Nat.eqb_spec i c); [contradiction|reflexivity].
    + subst w1. cbn [ss free]. rewrite upd_same, Hs. reflexivity.
  - now apply connection_spent.
Qed.

Lemma recv_ok t old v rest p c (w : world A) : has_type t v -> ss w c = Some {| inbox := write t v ++ rest; good := true; pending := p |} ->
  recv t old c w = Ok (Some v, {| astate := astate w; live := live w; free := free w; ss := upd (ss w) c (Some {| inbox := rest; good := true; pending := p |}) |}).
Proof. intros Hv Hs. unfold recv. rewrite Hs. cbn [inbox good]. rewrite archive_roundtrip by exact Hv. reflexivity. Qed.

Definition request_bytes (r : request) : list Z := wstr (r_name r) ++ wint (r_ver r) ++ write_args (r_args r) (r_vals r).
Lemma str_small s : bytes s -> small s -> has_type TStr (VS s).
Proof. intros Hb Hs. now exists s. Qed.

(** A call answered by an exception; the server has closed. *)
Lemma call_refused n c r (w : world A) msg x : (c < n)%nat -> r_client r = c -> inv n w -> bytes msg -> small msg -> msg <> str "OK" ->
  (forall a, serve (turns (request_bytes r)) false ver svc a (request_bytes r, true) = Ok (a, wstr msg, Closed)) ->
  gen_exception msg = Ok x ->
  exists w', call ver svc r w = Ok (x, w') /\ astate w' = astate w /\ inv n w'.
Proof.
  intros Hc Hr Hi Hb Hs Hm Hserve Hg. destruct (connection_ok c n w Hc Hi) as (w1 & E & Ha & Hi1 & Hs1).
  unfold call. rewrite Hr, E. cbn [obind]. unfold is_good. rewrite Hs1. cbn [ready good negb]. fold (request_bytes r).
  unfold send. rewrite Hs1. cbn [ready pending List.app]. unfold run_worker. rewrite Hserve. cbn [obind inbox good List.app].
  erewrite recv_ok; [|apply str_small; eassumption|cbn [ss]; rewrite upd_same, app_nil_r; reflexivity].
  cbn [obind chars]. rewrite str_eqb_neq by exact Hm. cbn [negb]. rewrite Hg. cbn [obind].
  eexists. split; [reflexivity|]. split; [exact Ha|]. apply (inv_off n c w1); [exact Hc|exact Hi1| | | |].
  - intros i Hn. cbn [ss]. unfold upd. destruct (Nat.eqb_spec i c); [contradiction|reflexivity].
  - apply Hi1.
  - cbn [ss]. rewrite upd_same. right. right. now left.
  - cbn [ss free]. rewrite upd_same, Hs1. cbn. lia.
Qed.

Lemma digit_byte c : isdigit c = true -> is_byte c.
Proof. unfold isdigit, is_byte. lia. Qed.
Lemma show_int_bytes n : bytes (show_int n).
Proof.
  unfold show_int. destruct (Z.ltb_spec n 0) as [H|H]; [constructor; [unfold is_byte; lia|]|]; apply dec_text_bytes; lia.
Qed.
Lemma show_int_len n : int32 n -> (length (show_int n) <= 11)%nat.
Proof.
  unfold int32, show_int, dec_text. intros H. destruct (Z.ltb_spec n 0).
  - cbn [length]. rewrite map_length. pose proof (digits_length 10 (- n) 10 ltac:(lia) ltac:(cbn; lia) ltac:(lia)). lia.
  - rewrite map_length. pose proof (digits_length 10 n 10 ltac:(lia) ltac:(cbn; lia) ltac:(lia)). lia.
Qed.

Theorem call_ok n r (w : world A) : int32 ver -> (forall name f, registered svc name f -> returns f) -> (r_client r < n)%nat -> inv n w -> proper svc r ->
  exists x w', call ver svc r w = Ok (x, w') /\ answers ver svc (astate w) r (astate w') x /\ inv n w'.
Proof.
  intros Hver Hret Hc Hi (Hb & Hlen & Hres & Hv & Hargs & Hreg & Hblank). assert (Hsm : small (r_name r)) by (unfold small; lia).
  destruct (lookup svc (r_name r)) as [f|] eqn:Ef.
  - pose proof (proj1 (lookup_registered svc _ _) Ef) as Hf. destruct (Hreg f Hf) as [Ea Er].
    destruct (Z.eq_dec (r_ver r) ver) as [Ev|Ev].
    + destruct (Hret _ _ Hf (astate w) (r_vals r)) as (a' & v & Ebody & Hty); [now rewrite Ea|].
      destruct (connection_ok _ n w Hc Hi) as (w1 & E & Ha & Hi1 & Hs1).
      exists (Value v). unfold call. rewrite E. cbn [obind]. unfold is_good at 1. rewrite Hs1. cbn [ready good negb].
      unfold send. rewrite Hs1. cbn [ready pending List.app]. unfold run_worker.
      rewrite Ha, <- Ea, Ev. unfold turns. rewrite (serve_call ver svc (astate w) _ (r_name r) f (r_vals r) a' v) by (try assumption; now rewrite Ea).
      cbn [obind inbox good List.app].
      rewrite (recv_ok TStr (VS []) (VS (str "OK")) (write (f_ret f) v) (Some [])); [|apply str_small; [now apply bytes_b|unfold small; cbn; lia]|cbn [ss]; now rewrite upd_same].
      cbn [obind chars]. rewrite str_eqb_refl. cbn [negb].
      rewrite <- Er. rewrite (recv_ok (f_ret f) _ v [] (Some [])); [|exact Hty|cbn [ss]; now rewrite upd_same, app_nil_r].
      cbn [obind]. unfold is_good. cbn [ss]. rewrite upd_same. cbn [good]. eexists. split; [reflexivity|].
      cbn [astate]. split; [eapply ans_value; eassumption|].
      apply (inv_off n (r_client r) w1); [exact Hc|exact Hi1| | | |].
      * intros i Hn. cbn [ss]. unfold upd. destruct (Nat.eqb_spec i (r_client r)); [contradiction|reflexivity].
      * apply Hi1.
      * cbn [ss]. rewrite upd_same. right. now left.
      * cbn [ss free]. rewrite upd_same, Hs1. reflexivity.
    + edestruct (call_refused n (r_client r) r w) as (w' & E & Ha & Hi'); [exact Hc|reflexivity|exact Hi| | | | | |].
      4:{ intros a. unfold turns. now apply (serve_mismatch ver svc a _ false (r_name r) f (r_ver r)). }
      4:{ apply gen_mismatch. }
      * apply bytes_app. split; [now apply bytes_b|]. apply bytes_app. split; [apply show_int_bytes|]. apply bytes_app. split; [now apply bytes_b|apply show_int_bytes].
      * unfold small. rewrite !app_length. pose proof (show_int_len ver Hver). pose proof (show_int_len _ Hv). cbn [length str]. change (length (str "VersionMismatch ")) with 16%nat. change (length (str " ")) with 1%nat. lia.
      * discriminate.
      * exists (Mismatch ver (r_ver r)), w'. split; [exact E|]. rewrite Ha. split; [|exact Hi']. eapply ans_version; eassumption.
  - pose proof (proj1 (lookup_none svc _) Ef) as Hn.
    edestruct (call_refused n (r_client r) r w) as (w' & E & Ha & Hi'); [exact Hc|reflexivity|exact Hi| | | | | |].
    4:{ intros a. unfold turns. now apply (serve_unknown ver svc a _ false (r_name r)). }
    4:{ now apply gen_not_found, Hblank. }
    + apply bytes_app. split; [now apply bytes_b|exact Hb].
    + unfold small. rewrite app_length. change (length (str "NotFound ")) with 9%nat. lia.
    + discriminate.
    + exists (Not_found (r_name r)), w'. split; [exact E|]. rewrite Ha. split; [|exact Hi']. now apply ans_unknown.
Qed.

Theorem calls_ok n : int32 ver -> (forall name f, registered svc name f -> returns f) ->
  forall rs (w : world A), inv n w -> Forall (fun r => (r_client r < n)%nat /\ proper svc r) rs ->
  exists xs w', calls ver svc rs w = Ok (xs, w') /\ answers_all ver svc (astate w) rs (astate w') xs /\ inv n w'.
Proof.
  intros Hver Hret rs. induction rs as [|r rs IH]; intros w Hi Hrs.
  - exists [], w. split; [reflexivity|]. split; [constructor|exact Hi].
  - inversion Hrs as [|? ? [Hc Hp] Hrs']; subst. destruct (call_ok n r w Hver Hret Hc Hi Hp) as (x & w1 & E & Ha & Hi1).
    destruct (IH w1 Hi1 Hrs') as (xs & w2 & E2 & Ha2 & Hi2). exists (x :: xs), w2. cbn [calls]. rewrite E. cbn [obind]. rewrite E2.
    split; [reflexivity|]. split; [econstructor; eassumption|exact Hi2].
Qed.
Lemma inv_start n (a : A) : inv n (start a n).
Proof.
  split; [reflexivity|]. split; [|intros i; now left]. cbn [free start ss]. unfold busy. cbn [serving start ss].
  assert (G : forall l : list nat, length (filter (fun _ => false) l) = 0%nat) by (intros l; induction l; auto). rewrite G. lia.
Qed.
End two.

(** ** What goes wrong *)
Section wrong.
Context {A : Type} (ver : Z) (svc : service A).

Lemma gen_truncated w b rest : Forall (fun c => ~ blank c) w -> w <> [] -> blank b ->
  gen_exception (str "NotFound " ++ w ++ b :: rest) = Ok (Not_found w).
Proof.
  intros H Hn Hb. unfold gen_exception. change (str "NotFound " ++ w ++ b :: rest) with ([] ++ str "NotFound" ++ (32 :: w ++ b :: rest)).
  rewrite word_app; [|constructor| |discriminate|now left].
  2:{ now apply noblank_b. }
  rewrite str_eqb_refl. change (32 :: w ++ b :: rest) with ([32] ++ w ++ b :: rest).
  rewrite word_app; [reflexivity|repeat constructor; now left|exact H|exact Hn|exact Hb].
Qed.
Lemma call_truncated n r (w : world A) w1 b rest : inv n w -> (r_client r < n)%nat -> r_name r = w1 ++ b :: rest ->
  bytes (r_name r) -> Z.of_nat (length (r_name r)) < 2 ^ 32 - 9 -> ~ In (r_name r) reserved -> (forall f, ~ registered svc (r_name r) f) ->
  Forall (fun c => ~ blank c) w1 -> w1 <> [] -> blank b ->
  exists w', call ver svc r w = Ok (Not_found w1, w').
Proof.
  intros Hi Hc En Hb Hlen Hres Hn Hw Hne Hbl. apply lookup_none in Hn.
  edestruct (call_refused ver svc n (r_client r) r w (str "NotFound " ++ r_name r)) as (w' & E & Ha & Hi'); [exact Hc|reflexivity|exact Hi| | | | | |].
  - apply bytes_app. split; [now apply bytes_b|exact Hb].
  - unfold small. rewrite app_length. change (length (str "NotFound ")) with 9%nat. lia.
  - discriminate.
  - intros a. unfold turns. apply (serve_unknown ver svc a _ false (r_name r)); try assumption. unfold small. lia.
  - rewrite En. now apply gen_truncated.
  - now exists w'.
Qed.

(** The request has been read and the function entered. *)
Lemma serve_enter fuel a name g vs : bytes name -> small name -> ~ In name reserved -> lookup svc name = Some g ->
  int32 ver -> Forall2 has_type (f_args g) vs ->
  serve (S fuel) false ver svc a (wstr name ++ wint ver ++ write_args (f_args g) vs, true) =
  match f_body g a vs with
  | (a', Ret v) => let* (y, e) := serve fuel false ver svc a' ([], true) in let '(a2, out2) := y in Ok (a2, (wstr (str "OK") ++ write (f_ret g) v) ++ out2, e)
  | (a', Rpc_error) => serve fuel false ver svc a' ([], true)
  | (a', Other_exn) => Ok (a', [], Dead)
  end.
Proof.
  intros Hb Hs Hr Hg Hv Hvs. cbn [serve]. rewrite serve1_name, Hg, read_wint by assumption. cbn [obind snd negb andb].
  rewrite Z.eqb_refl. cbn [negb]. unfold invoke.
  pose proof (read_write_args (f_args g) vs [] Hvs) as E. rewrite app_nil_r in E. rewrite E. cbn [obind snd].
  replace (match f_args g with [] => true | _ :: _ => true end) with true by now destruct (f_args g).
  cbn [negb]. destruct (f_body g a vs) as [a' [v| |]]; cbn [obind]; [reflexivity| |reflexivity].
  destruct (serve fuel false ver svc a' ([], true)) as [[[? ?] ?]| | |]; reflexivity.
Qed.

(** A proper request for a registered function with the right version. *)
Definition matches (r : request) (f : func A) : Prop := registered svc (r_name r) f /\ r_ver r = ver.

Lemma call_unanswered n r f (w : world A) a' : int32 ver -> inv n w -> (r_client r < n)%nat -> proper svc r -> matches r f ->
  f_body f (astate w) (r_vals r) = (a', Rpc_error) -> exists w', call ver svc r w = Ok (Hangs, w') /\ astate w' = a'.
Proof.
  intros Hver Hi Hc (Hb & Hlen & Hres & Hv & Hargs & Hreg & Hblank) (Hf & Ev) Ebody.
  assert (Hsm : small (r_name r)) by (unfold small; lia). destruct (Hreg f Hf) as [Ea Er]. apply lookup_registered in Hf.
  destruct (connection_ok ver svc _ n w Hc Hi) as (w1 & E & Ha & Hi1 & Hs1).
  unfold call. rewrite E. cbn [obind]. unfold is_good at 1. rewrite Hs1. cbn [ready good negb].
  unfold send. rewrite Hs1. cbn [ready pending List.app]. unfold run_worker.
  rewrite Ha, <- Ea, Ev. unfold turns. rewrite (serve_enter _ (astate w) (r_name r) f (r_vals r)) by (try assumption; now rewrite Ea).
  rewrite Ebody, serve_short. cbn [obind inbox good List.app]. unfold recv. cbn [ss]. rewrite upd_same. cbn [inbox good].
  change (read TStr (VS []) ([], true)) with (Ok (VS [], ([] : list Z, false))). cbn [obind snd pending].
  eexists. split; [reflexivity|]. reflexivity.
Qed.

(** The process has died. *)
Definition dead (w : world A) : Prop := live w = false /\ forall i, ss w i = None \/ exists k, ss w i = Some k /\ pending k = None /\ (good k = false \/ inbox k = []).
Lemma dead_upd w fr a (x : option conn) c : dead w -> (x = None \/ exists k, x = Some k /\ pending k = None /\ (good k = false \/ inbox k = [])) ->
  dead {| astate := a; live := false; free := fr; ss := upd (ss w) c x |}.
Proof. intros [_ H] Hx. split; [reflexivity|]. intros i. cbn [ss]. unfold upd. destruct (Nat.eqb i c); [exact Hx|apply H]. Qed.
Lemma dead_try m c w : dead w -> ss w c = None -> exists w', get_connection ver svc m c w = Ok (Gave_up, w') /\ dead w'.
Proof.
  revert w. induction m as [|m IH]; intros w Hd Hs; cbn [get_connection].
  - rewrite Hs. now exists w.
  - unfold is_good, connect. rewrite Hs, (proj1 Hd). cbn [obind ss]. rewrite upd_same. apply IH; [|cbn [ss]; apply upd_same].
    apply (dead_upd w); [exact Hd|now left].
Qed.
Lemma dead_call r w : dead w -> exists w', call ver svc r w = Ok (No_connection, w') /\ dead w'.
Proof.
  intros Hd. assert (G : exists w', get_connection ver svc 2 (r_client r) w = Ok (Gave_up, w') /\ dead w').
  { remember 1%nat as m eqn:Em. pose proof (proj2 Hd (r_client r)) as Hk.
    destruct (ss w (r_client r)) as [k|] eqn:Es; [|now apply dead_try]. destruct Hk as [Hk|(k' & E & Hp & Hg)]; [discriminate|].
    injection E as <-. cbn [get_connection]. unfold is_good. rewrite Es. destruct (good k) eqn:Eg.
    - destruct Hg as [Hg|Hg]; [congruence|]. cbn [obind]. rewrite Es. unfold send. rewrite Es, Hp. cbn [obind]. unfold recv. rewrite Es, Hg, Eg.
      change (read TStr (VS []) ([], true)) with (Ok (VS [], ([] : list Z, false))). cbn [obind snd fst]. rewrite Hp. cbn [obind chars].
      change (str_eqb [] PONG) with false. cbv iota. unfold reset. cbn [ss].
      rewrite upd_same. cbn [pending obind]. subst m.
      apply dead_try; [|cbn [ss]; apply upd_same]. rewrite (proj1 Hd). 
      set (w1 := {| astate := astate w; live := false; free := free w; ss := upd (ss w) (r_client r) (Some {| inbox := []; good := false; pending := None |}) |}).
      apply (dead_upd w1); [|now left]. apply dead_upd; [exact Hd|]. right. eexists. split; [reflexivity|]. split; [reflexivity|]. now left.
    - unfold connect. rewrite (proj1 Hd). cbn [obind ss]. rewrite Hp. cbn [obind ss]. rewrite upd_same. subst m. apply dead_try; [|cbn [ss]; apply upd_same].
      apply (dead_upd w); [exact Hd|now left]. }
  destruct G as (w' & E & Hd'). exists w'. unfold call. rewrite E. split; [reflexivity|exact Hd'].
Qed.
Lemma dead_calls : forall rs w, dead w -> exists w', calls ver svc rs w = Ok (map (fun _ => No_connection) rs, w').
Proof.
  induction rs as [|r rs IH]; intros w Hd; [now exists w|]. destruct (dead_call r w Hd) as (w1 & E & Hd1). destruct (IH w1 Hd1) as (w2 & E2).
  exists w2. cbn [calls map]. rewrite E. cbn [obind]. now rewrite E2.
Qed.
Lemma call_kills n r f (w : world A) a' : int32 ver -> inv n w -> (r_client r < n)%nat -> proper svc r -> matches r f ->
  f_body f (astate w) (r_vals r) = (a', Other_exn) -> exists w', call ver svc r w = Ok (Error [], w') /\ dead w'.
Proof.
  intros Hver Hi Hc (Hb & Hlen & Hres & Hv & Hargs & Hreg & Hblank) (Hf & Ev) Ebody.
  assert (Hsm : small (r_name r)) by (unfold small; lia). destruct (Hreg f Hf) as [Ea Er]. apply lookup_registered in Hf.
  destruct (connection_ok ver svc _ n w Hc Hi) as (w1 & E & Ha & Hi1 & Hs1).
  unfold call. rewrite E. cbn [obind]. unfold is_good at 1. rewrite Hs1. cbn [ready good negb].
  unfold send. rewrite Hs1. cbn [ready pending List.app]. unfold run_worker.
  rewrite Ha, <- Ea, Ev. unfold turns. rewrite (serve_enter _ (astate w) (r_name r) f (r_vals r)) by (try assumption; now rewrite Ea).
  rewrite Ebody. cbn [obind inbox good List.app]. unfold recv. cbn [ss]. rewrite upd_same. cbn [cut inbox good pending].
  change (read TStr (VS []) ([], true)) with (Ok (VS [], ([] : list Z, false))). cbn [obind snd fst chars].
  change (str_eqb [] (str "OK")) with false. cbn [negb]. change (gen_exception []) with (Ok (Error [])). cbn [obind].
  eexists. split; [reflexivity|].
  match goal with |- dead {| astate := ?x; live := ?l; free := ?y; ss := upd ?g ?c ?z |} =>
    pose (w' := {| astate := x; live := false; free := y; ss := g |}); change (dead {| astate := x; live := false; free := y; ss := upd (ss w') c z |}) end.
  apply (dead_upd w'); [|right; eexists; split; [reflexivity|split; [reflexivity|now left]]].
  split; [reflexivity|]. intros i. subst w'. cbn [ss]. unfold upd. destruct (Nat.eqb i (r_client r)).
  - right. eexists. split; [reflexivity|]. split; [reflexivity|]. now right.
  - destruct Hi1 as (_ & _ & Hid). destruct (Hid i) as [->|[->|[->| ->]]]; [now left| | |]; right; eexists; (split; [reflexivity|]; split; [reflexivity|now right]).
Qed.

(** A request cut off behind the name of a function without arguments. *)
Lemma serve_unversioned a name g a' v : bytes name -> small name -> ~ In name reserved -> registered svc name g ->
  f_args g = [] -> f_body g a [] = (a', Ret v) ->
  serve (turns (wstr name)) true ver svc a (wstr name, true) = Ok (a', [], Closed).
Proof.
  intros Hb Hs Hr Hg Hargs Hf. apply lookup_registered in Hg. unfold turns. rewrite <- (app_nil_r (wstr name)) at 2. remember (S (length (wstr name))) as k.
  cbn [serve]. rewrite serve1_name, Hg by assumption.
  change (read (TNum 4 true) VUndef ([], true)) with (Ok (VUndef, ([] : list Z, false))). cbn [obind snd negb andb].
  unfold invoke. rewrite Hargs. cbn [read_args obind negb]. rewrite Hf. cbn [obind snd]. subst k. reflexivity.
Qed.
End wrong.
