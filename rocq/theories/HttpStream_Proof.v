From Verif Require Import Common CommonLemmas NumText_Model NumText_Proof Socket_Spec Socket_Model Socket_Proof Http_Spec Http_Model Http_Proof HttpMsg_Spec HttpMsg_Model HttpMsg_Proof.
From Verif Require Import Uri_Spec Base64_Spec HttpStream_Spec HttpStream_Model.
From Verif Require Cast_Model Cast_Spec Cast_Proof Uri_Model Uri_Proof UriParse_Proof Base64_Model Base64_Proof.
Local Open Scope Z_scope.
Ltac Zify.zify_post_hook ::= Z.div_mod_to_equations.

(** * Reading *)
Section Reading.
Context {B : Type} (step : rdop -> B * st -> outcome (Z * (B * st))).
(* gets s body: reading on delivers the body *)
Definition gets (s : B * st) (body : list Z) : Prop :=
  forall n, exists res s', run_body step (repeat Next n) s = Ok (res, s') /\ map delivered res = reads (repeat Next n) body.
Lemma gets_step s body : gets s body -> exists r s', step Next s = Ok (r, s') /\
  match body with [] => r = -1 | c :: t => delivered r = Some c /\ gets s' t end.
Proof.
  intros G. destruct (G 1%nat) as (res & s1 & E & D). cbn [repeat run_body] in E. destruct (step Next s) as [[r s2]| | |] eqn:Es; cbn [obind] in E; try discriminate E.
  injection E as <- <-. exists r, s2. split; [reflexivity|]. cbn [repeat reads map] in D. destruct body as [|c t].
  - injection D as D. unfold delivered in D. destruct (r =? -1) eqn:Er; [lia|discriminate D].
  - injection D as D. split; [exact D|]. intros n. destruct (G (S n)) as (res & s3 & E & D2). cbn [repeat run_body] in E. rewrite Es in E. cbn [obind] in E.
    destruct (run_body step (repeat Next n) s2) as [[rs s4]| | |]; cbn [obind] in E; try discriminate E. injection E as <- <-. exists rs, s4. split; [reflexivity|].
    cbn [repeat reads map] in D2. injection D2 as _ D2. exact D2.
Qed.
Inductive hrep : Z * (bool * (B * st)) -> list Z -> Prop :=
| hr_none s body : gets s body -> hrep (-1, (false, s)) body
| hr_held b s c t : b <> -1 -> delivered b = Some c -> gets s t -> hrep (b, (false, s)) (c :: t)
| hr_end s : hrep (-1, (true, s)) [].
Lemma hrep_step o s body : hrep s body -> exists r s', http_step step o s = Ok (r, s') /\
  delivered r = hd_error body /\ hrep s' (match o with Peek => body | Next => tl body end).
Proof.
  intros [u b G|b u c t Nb D G|u]; unfold http_step.
  - rewrite Z.eqb_refl. unfold body_get. destruct (gets_step u b G) as (r & u' & -> & H). cbn [obind]. destruct b as [|c t].
    + subst r. eexists _, _. split; [reflexivity|]. split; [reflexivity|]. destruct o; constructor.
    + destruct H as [D H]. assert (Nr : r <> -1) by (intros ->; discriminate D). replace (r =? -1) with false by lia.
      eexists _, _. split; [reflexivity|]. split; [exact D|]. destruct o; now constructor.
  - replace (b =? -1) with false by lia. cbn [obind]. eexists _, _. split; [reflexivity|]. split; [exact D|]. destruct o; now constructor.
  - rewrite Z.eqb_refl. unfold body_get. cbn [obind]. eexists _, _. split; [reflexivity|]. split; [reflexivity|]. destruct o; constructor.
Qed.
Lemma http_reads ops : forall s body, hrep s body -> exists rs, run_http step ops s = Ok rs /\ map delivered rs = reads ops body.
Proof.
  induction ops as [|o os IH]; intros s body H; [exists []; split; reflexivity|]. destruct (hrep_step o s body H) as (r & s' & E & D & H').
  cbn [run_http]. rewrite E. cbn [obind]. destruct (IH _ _ H') as (rs & -> & R). cbn [obind]. exists (r :: rs). split; [reflexivity|].
  cbn [map reads]. rewrite D, R. destruct body as [|c t]; [destruct o; reflexivity|reflexivity].
Qed.
End Reading.

(** every reading ends, if the stream buffer below does not fail *)
Lemma http_reads_any {B} (step : rdop -> B * st -> outcome (Z * (B * st))) (P : B * st -> Prop)
  (HP : forall s, P s -> match step Next s with Ok (_, s') => P s' | Throw => True | _ => False end) ops :
  forall b e s, P s -> exists rs, run_http step ops (b, (e, s)) = Ok rs /\ length rs = length ops.
Proof.
  induction ops as [|o os IH]; intros b e s H; [exists []; auto|]. cbn [run_http]. unfold http_step.
  assert (K : exists r e' s', (if b =? -1 then body_get step (e, s) else Ok (b, (e, s))) = Ok (r, (e', s')) /\ P s').
  { destruct (b =? -1); [|eauto 6]. unfold body_get. destruct e; [eauto 6|]. specialize (HP s H). destruct (step Next s) as [[r s']| | |]; try contradiction; eauto 6. }
  destruct K as (r & e' & s' & -> & Hs). cbn [obind]. destruct (IH (match o with Peek => r | Next => -1 end) e' s' Hs) as (rs & -> & L). cbn [obind].
  eexists. split; [reflexivity|]. cbn [length]. now rewrite L.
Qed.

(** * The request *)
Import Uri_Model(scheme, userinfo, host, port, path, query, fragment).
Import UriParse_Proof(comps_of, str_of, compose_parse).
Lemma eqs_nil o : eqs (str_of o) [] = match names o with None => true | _ => false end.
Proof. destruct o as [[|c l]|]; reflexivity. Qed.
Lemma names_some o d : names o = Some d -> o = Some d /\ d <> [].
Proof. destruct o as [[|c l]|]; cbn; intros H; try discriminate H. injection H as <-. split; [reflexivity|discriminate]. Qed.
Lemma DIGIT_digit c : DIGIT c -> Cast_Spec.digit c.
Proof. unfold DIGIT, Cast_Spec.digit. intros H. vm_compute in H. lia. Qed.
Lemma decimal_acc ds : forall a, 0 <= a -> Forall Cast_Spec.digit ds -> 0 <= fold_left (fun a c => 10 * a + (c - 48)) ds a.
Proof. induction ds as [|c ds IH]; intros a Ha H; [exact Ha|]. inversion H as [|? ? H1 H2]; subst. unfold Cast_Spec.digit in H1. cbn [fold_left]. apply IH; [lia|exact H2]. Qed.
Lemma port_number_ok p a : p_auth p = Some a -> ok_auth a ->
  port_number (comps_of p) = if port_of a <? 2 ^ 31 then Ok (port_of a) else Throw.
Proof.
  intros Ea (_ & _ & Hd). unfold port_number, port_of. cbn [comps_of port]. unfold UriParse_Proof.o_of. rewrite Ea, eqs_nil.
  destruct (names (a_port a)) as [d|] eqn:En; [|reflexivity]. destruct (names_some _ _ En) as [E Nd]. rewrite E in *. cbn [str_of ok_opt] in *.
  assert (D : Forall Cast_Spec.digit d) by (eapply Forall_impl; [|exact Hd]; exact DIGIT_digit).
  assert (L : Cast_Spec.leading d false (Cast_Spec.decimal d) []).
  { exists [], [], d. cbn [app]. rewrite app_nil_r. repeat split; auto. }
  assert (P : 0 <= Cast_Spec.decimal d) by (apply decimal_acc; [lia|exact D]).
  unfold Cast_Model.from_string. cbn [Cast_Model.extract]. rewrite (Cast_Proof.scan_leading _ _ _ _ L). cbn [Cast_Model.lo Cast_Model.hi]. change (32 - 1) with 31.
  destruct (Z.ltb_spec (Cast_Spec.decimal d) (2 ^ 31)); [replace (_ && _) with true by lia|replace (_ && _) with false by lia]; reflexivity.
Qed.
Lemma user_bytes s : Forall (fun c => unreserved c \/ sub_delim c \/ c = 58) s -> bytes s.
Proof.
  apply Forall_impl. intros c [[H|[H|H]]|[H| ->]]; unfold is_byte; try lia.
  all: unfold ALPHA, DIGIT, sub_delim in H; vm_compute in H; lia.
Qed.
Lemma get_header_ok p a : p_auth p = Some a -> ok_auth a -> get_header (comps_of p) = get_fields (a_host a) (a_user a).
Proof.
  intros Ea (Hu & _ & _). unfold get_header, get_fields. cbn [comps_of host userinfo]. unfold UriParse_Proof.u_of, UriParse_Proof.h_of. rewrite Ea, eqs_nil.
  destruct (names (a_user a)) as [u|] eqn:En; [|reflexivity]. destruct (names_some _ _ En) as [E Nd]. rewrite E in *. cbn [str_of ok_opt] in *.
  rewrite Base64_Proof.base64_is_rfc4648 by (now apply user_bytes). reflexivity.
Qed.
(* what is sent *)
Definition full (p : parts) (a : auth) : list Z :=
  compose (mkP (p_scheme p) (Some (mkA (names (a_user a)) (a_host a) (names (a_port a)))) (match p_path p with [] => str "/" | d => d end) (names (p_query p)) (names (p_fragment p))).
Lemma print_full p a s : p_scheme p = Some s -> s <> [] -> p_auth p = Some a -> Uri_Model.print (comps_of p) = full p a.
Proof.
  intros Es Ns Ea. unfold Uri_Model.print, full, compose, Uri_Model.authority, comps_of, compose_auth.
  cbn [scheme path query fragment userinfo host port p_scheme p_auth p_path p_query p_fragment option_map pre a_user a_host a_port].
  unfold UriParse_Proof.u_of, UriParse_Proof.h_of, UriParse_Proof.o_of. rewrite Es, Ea. cbn [str_of post]. destruct s as [|c s]; [congruence|].
  change (str "://") with ([58] ++ [47; 47]). change (str ":") with [58]. change (str "//") with [47; 47]. rewrite <- !app_assoc. f_equal. cbn [app]. do 3 f_equal.
  destruct (a_user a) as [[|? ?]|], (a_port a) as [[|? ?]|], (p_query p) as [[|? ?]|], (p_fragment p) as [[|? ?]|]; cbn [str_of names pre post app]; rewrite <- ?app_assoc; reflexivity.
Qed.
Section Open.
Context (rc sc : nat -> Z) (net : list Z -> Z -> option (list Z)) (Hsc : forall i, 0 < sc i).
Lemma no_length host user : has_key (get_fields host user) CL = false.
Proof. unfold get_fields. destruct (names user); reflexivity. Qed.
(* up to the response *)
Lemma opened_upto junk p a : ok_parts p -> p_scheme p = Some (str "http") -> p_auth p = Some a -> port_of a < 2 ^ 31 ->
  match net (a_host a) (port_of a mod 2 ^ 16) with
  | None => open_url rc sc net junk (compose p) = Throw
  | Some inb => bytes inb -> exists x, okst x /\ conn (fst x) = true /\ stream x = inb /\
      open_url rc sc net junk (compose p) =
        let* (r, x') := recv_response rc junk x in
        Ok (mkO (a_host a, port_of a mod 2 ^ 16) (message (request_line (str "GET") (full p a) 1 1) (get_fields (a_host a) (a_user a)) []) r x')
  end.
Proof.
  intros Hp Es Ea Hl. assert (Ha : ok_auth a) by (destruct Hp as (_ & H & _); auto). unfold open_url. rewrite (compose_parse p Hp). cbn [obind].
  assert (K : scheme_ok (comps_of p) = true) by (unfold scheme_ok; cbn [comps_of scheme]; rewrite Es; reflexivity). rewrite K. cbn [negb].
  rewrite (port_number_ok p a Ea Ha). replace (port_of a <? 2 ^ 31) with true by lia. cbn [obind].
  assert (Eh : host (comps_of p) = a_host a) by (cbn [comps_of host]; unfold UriParse_Proof.h_of; now rewrite Ea). rewrite Eh.
  destruct (net (a_host a) (port_of a mod 2 ^ 16)) as [inb|]; [|reflexivity]. intros Hb. unfold send_request. rewrite request_line_text, (get_header_ok p a Ea Ha).
  rewrite (print_full p a _ Es ltac:(discriminate) Ea).
  destruct (send_message_live sc Hsc (request_line (str "GET") (full p a) 1 1) (get_fields (a_host a) (a_user a)) [] (fresh inb 0) (no_length _ _) (okst_fresh inb 0 Hb) eq_refl) as (x & E1 & E2 & E3 & _ & E4 & E5).
  exists x. rewrite E1. cbn [obind]. rewrite E4. split; [exact E2|]. split; [exact E3|]. split; [exact E5|]. reflexivity.
Qed.
End Open.
Lemma conn_alive x : okst x -> conn (fst x) = true -> alive x.
Proof. intros H C. split; [exact H|]. rewrite C. discriminate. Qed.

(** * The response *)
Section Response.
Context (rc : nat -> Z) (Hrc : forall i, 0 < rc i).
Lemma chunked_choice h v : NoDup (map (fun g => lower (fst g)) h) -> In (str "Transfer-Encoding", v) h -> lower v = str "chunked" -> choose_body h = Ok (h, Chunked).
Proof.
  intros N Hv Hl. assert (K : has_key h TE = true /\ const_ref h TE = v); [|exact (choose_chunked h v (proj1 K) (proj2 K) Hl)].
  clear - Hv N. induction h as [|[a w] h IH]; [contradiction Hv|]. cbn [has_key const_ref map fst] in *. destruct Hv as [E|Hv].
  - injection E as -> ->. replace (cicmp (str "Transfer-Encoding") TE) with true by reflexivity. auto.
  - inversion N as [|? ? N1 N2]; subst. rewrite cicmp_same. unfold same. destruct (list_eq_dec Z.eq_dec (lower a) (lower TE)) as [E|E]; [|auto].
    exfalso. apply N1. rewrite E. apply in_map_iff. exists (TE, v). auto.
Qed.
Lemma run_gets {B} (step : rdop -> B * st -> outcome (Z * (B * st))) s body :
  (forall n, exists rs x, (let* (rs, s') := run_body step (repeat Next n) s in Ok (rs, snd s')) = Ok (rs, x) /\ map delivered rs = reads (repeat Next n) body) -> gets step s body.
Proof.
  intros H n. destruct (H n) as (rs & x & E & D). destruct (run_body step (repeat Next n) s) as [[rs' s']| | |]; cbn [obind] in E; try discriminate E. injection E as <- <-. eauto.
Qed.
Lemma response_read junk ma mi code reason h w body x : alive x -> int ma -> int mi -> int code -> reason_ok reason -> (length (status_line ma mi code reason) <= 4094)%nat ->
  framed h w body -> stream x = message (status_line ma mi code reason) h w ->
  exists hd bd x', recv_response rc junk x = Ok (mkRec ((ma, mi), code, reason) hd bd, x') /\ incl h hd /\
  forall q sn ops, exists rs, read_http rc (mkO q sn (mkRec ((ma, mi), code, reason) hd bd) x') ops = Ok rs /\ map delivered rs = reads ops body.
Proof.
  intros Ha H1 H2 H3 H4 H5 F Hs. destruct F as [h body s Hf Hn Hz|h body Hf|h v body w s F N Hv Hl Hy H255 Hc].
  - destruct (with_length_ok h body Hf Hz) as [F N].
    destruct (response_at rc Hrc junk ma mi code reason _ _ _ (body ++ s) [] x Ha H1 H2 H3 H4 H5 F N (choose_ok h body Hf Hz)) as (x' & E1 & E2 & E3); [rewrite app_nil_r; exact Hs|].
    rewrite app_nil_r in E3. eexists _, _, x'. split; [exact E1|]. split.
    { unfold head_received, with_length. destruct body as [|c l]; [congruence|]. intros g G. apply in_app_iff in G. apply in_app_iff. destruct G as [G|[G|[]]]; [now left|right; left; exact G]. }
    intros q sn ops. unfold read_http. cbn [resp bodyof link]. unfold kind. destruct body as [|c l] eqn:Eb; [congruence|]. rewrite <- Eb in *.
    apply http_reads. constructor. apply run_gets. intros n. destruct (sized_part rc Hrc body s x' (repeat Next n) Hn E2 E3) as (rs & x2 & G1 & G2 & _).
    unfold read_body, kind in G1. rewrite Eb in G1. rewrite <- Eb in G1. eauto.
  - destruct (with_length_ok h [] Hf eq_refl) as [F N].
    destruct (response_at rc Hrc junk ma mi code reason _ _ _ [] body x Ha H1 H2 H3 H4 H5 F N (choose_ok h [] Hf eq_refl)) as (x' & E1 & E2 & E3).
    { rewrite Hs. unfold message. cbn [with_length]. now rewrite app_nil_r, <- !app_assoc. }
    eexists _, _, x'. split; [exact E1|]. split; [apply incl_appl, incl_refl|].
    intros q sn ops. unfold read_http. cbn [resp bodyof link]. cbn [kind]. apply http_reads. constructor. apply run_gets. intros n.
    destruct (raw_part rc Hrc body x' (repeat Next n) E2 E3) as (rs & x2 & G1 & G2). unfold read_body, kind in G1. eauto.
  - destruct (response_at rc Hrc junk ma mi code reason _ _ _ w s x Ha H1 H2 H3 H4 H5 F N (chunked_choice h v N Hv Hl)) as (x' & E1 & E2 & E3).
    { rewrite Hs. unfold message. now rewrite <- !app_assoc. }
    eexists _, _, x'. split; [exact E1|]. split; [apply incl_refl|].
    intros q sn ops. unfold read_http. cbn [resp bodyof link]. apply http_reads. constructor. apply run_gets. intros n.
    assert (B : Forall (fun c => is_byte c /\ c <> 255) body).
    { apply Forall_forall. intros c I. unfold bytes in Hy. rewrite Forall_forall in Hy, H255. split; auto. }
    destruct (chunked_part rc Hrc body w s x' (repeat Next n) E2 Hc B E3) as (rs & x2 & G1 & G2 & _). unfold read_body in G1. eauto.
Qed.
End Response.

(** * Any peer *)
Definition safe {B} (step : rdop -> B * st -> outcome (Z * (B * st))) (s : B * st) : Prop := forall n, ends (run_body step (repeat Next n) s).
Lemma safe_step {B} (step : rdop -> B * st -> outcome (Z * (B * st))) s : safe step s -> match step Next s with Ok (_, s') => safe step s' | Throw => True | _ => False end.
Proof.
  intros H. pose proof (H 1%nat) as H1. cbn [repeat run_body] in H1. destruct (step Next s) as [[r s']| | |] eqn:E; cbn [obind] in H1; auto.
  intros n. specialize (H (S n)). cbn [repeat run_body] in H. rewrite E in H. cbn [obind] in H. destruct (run_body step (repeat Next n) s') as [[? ?]| | |]; exact H.
Qed.
Lemma fine_ends {A} (o : outcome A) P : fine o P -> ends o.
Proof. destruct o; cbn; auto. Qed.
Section Any.
Context (rc : nat -> Z).
Lemma raw_any ops : forall b x, okst x -> ends (run_body (raw_step rc) ops (b, x)).
Proof.
  induction ops as [|o ops IH]; intros b x Hx; [exact I|]. cbn [run_body raw_step].
  assert (K : exists b' x', (if b =? -1 then getc rc x else (b, x)) = (b', x') /\ okst x').
  { destruct (b =? -1); [|eauto]. destruct (getc_any rc x Hx) as (c & x' & E & L). exists c, x'. split; [exact E|apply L]. }
  destruct K as (b' & x' & -> & Hx'). cbn [obind]. specialize (IH (match o with Peek => b' | Next => -1 end) x' Hx').
  destruct (run_body (raw_step rc) ops _) as [[? ?]| | |]; exact IH.
Qed.
Lemma response_later junk x : okst x -> match recv_response rc junk x with Ok (_, x') => later x x' | Throw => True | _ => False end.
Proof.
  intros Hx. unfold recv_response. destruct (getline_any rc line_limit x Hx) as (r & x' & -> & Hl & Hr). cbn [obind]. destruct r as [line|]; [|exact I].
  destruct (word line) as [v line2]. destruct (match skip line2 with [] => (junk, None) | z :: l => get_int (z :: l) end) as [code rest].
  destruct (scan_version (map toupper v)) as [ver|]; [|exact I].
  pose proof (header_any rc x' (proj1 Hl)) as F. destruct (header_from rc x') as [[h x2]| | |]; cbn in F; try contradiction; [|exact I]. cbn [obind].
  assert (L : later x x2).
  { destruct Hl as [_ [d1 D1]], F as [F1 [d2 D2]]. split; [exact F1|]. exists (d1 ++ d2). now rewrite D1, D2, app_assoc. }
  unfold choose_body. destruct (ref h TE) as [h1 te]. destruct (cicmp te (str "chunked")); [exact L|]. destruct (ref h1 CL) as [h2 cl]. destruct (eqs cl []); [exact L|].
  unfold Cast_Model.from_string. destruct (Cast_Model.extract _ cl); [exact L|exact I].
Qed.
Lemma read_any c ops : okst (link c) -> ~ In 45 (stream (link c)) -> exists rs, read_http rc c ops = Ok rs /\ length rs = length ops.
Proof.
  intros Hx Hn. unfold read_http. destruct (bodyof (resp c)) as [|n|].
  - apply (http_reads_any _ (safe (chunked_step rc)) (safe_step _)). intros k. eapply fine_ends, chunked_any. split; [exact Hx|]. split; [cbn; lia|exact Hn].
  - apply (http_reads_any _ (safe (sized_step rc)) (safe_step _)). intros k. eapply fine_ends, sized_any. exact Hx.
  - apply (http_reads_any _ (safe (raw_step rc)) (safe_step _)). intros k. now apply raw_any.
Qed.
End Any.
