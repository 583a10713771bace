(** Proofs about starting CGI programs. *)
From Verif Require Import Common CommonLemmas NumText_Model NumText_Proof Http_Spec Http_Model Cgi_Model CgiServer_Model CgiStart_Spec CgiStart_Model.
From Verif Require Ipv4_Model Ipv4_Proof Cast_Model Cast_Proof Cgi_Proof.
From Coq Require Import Lia.
Local Open Scope Z_scope.

(** ** Streams *)
(** [at_ x b]: the stream has b still to give *)
Definition at_ (x : fcgx) (b : list Z) : Prop := bytes b /\ ((fbuf x = -1 /\ fin x = b) \/ (0 <= fbuf x < 256 /\ b = fbuf x :: fin x)).
Lemma step_reads o x b : at_ x b -> exists r x', fcgx_step o x = Ok (r, x') /\
  match b with [] => r = -1 /\ at_ x' [] | c :: rest => r = c /\ 0 <= c < 256 /\ at_ x' (match o with Peek => b | Next => rest end) end.
Proof.
  intros (Hb & [(Hf & Hi)|(Hf & Hi)]).
  - destruct b as [|c rest].
    + exists (-1), (mkF (-1) []). unfold fcgx_step, uflow, underflow, get_char. rewrite Hf, Hi. cbn. rewrite ?Hi. split; [destruct o; reflexivity|]. split; [reflexivity|]. split; [constructor|left; now split].
    + pose proof (Forall_inv Hb) as Hc. pose proof (Forall_inv_tail Hb) as Hr. unfold is_byte in Hc. exists c, (match o with Peek => mkF c rest | Next => mkF (-1) rest end).
      unfold fcgx_step, uflow, underflow, get_char. rewrite Hf, Hi. cbn [Z.eqb Pos.eqb fbuf fin]. destruct (Z.ltb_spec c 0); [lia|]. split; [destruct o; reflexivity|]. split; [reflexivity|]. split; [lia|].
      destruct o; (split; [assumption|]); [right; cbn; split; [lia|reflexivity]|left; now split].
  - subst b. pose proof (Forall_inv_tail Hb) as Hr. exists (fbuf x), (match o with Peek => x | Next => mkF (-1) (fin x) end). unfold fcgx_step, uflow, underflow.
    destruct (Z.eqb_spec (fbuf x) (-1)); [lia|]. split; [destruct o; reflexivity|]. split; [reflexivity|]. split; [exact Hf|].
    destruct o; (split; [assumption|]); [right; now split|left; now split].
Qed.
Fixpoint steps (ops : list rdop) (x : fcgx) : outcome (list Z) :=
  match ops with [] => Ok [] | o :: os => let* (r, x1) := fcgx_step o x in let* rs := steps os x1 in Ok (r :: rs) end.
Lemma steps_reads ops : forall x b, at_ x b -> exists rs, steps ops x = Ok rs /\ map delivered rs = reads ops b.
Proof.
  induction ops as [|o ops IH]; intros x b H; [exists []; now split|]. destruct (step_reads o x b H) as (r & x' & E & K). cbn [steps]. rewrite E. cbn [obind reads].
  destruct b as [|c rest].
  - destruct K as (-> & K). destruct (IH x' [] K) as (rs & E' & Hr). exists (-1 :: rs). rewrite E'. split; [reflexivity|]. cbn [map]. now rewrite Hr.
  - destruct K as (-> & Hc & K). destruct (IH x' _ K) as (rs & E' & Hr). exists (c :: rs). rewrite E'. split; [reflexivity|]. cbn [map]. rewrite Hr. f_equal. unfold delivered.
    destruct (Z.eqb_spec c (-1)); [lia|]. now rewrite Z.mod_small by lia.
Qed.
Lemma put_all_ok ps : forall out, put_all [] ps out = (true, out ++ flat_map text_of ps).
Proof.
  induction ps as [|p ps IH]; intros out; [cbn; now rewrite app_nil_r|]. cbn [put_all hd tl]. destruct p as [s|c]; cbn [put_piece succeeded].
  - rewrite Z.eqb_refl, IH. cbn [flat_map text_of]. now rewrite app_assoc.
  - cbn [Z.eqb negb]. rewrite IH. cbn [flat_map text_of]. now rewrite app_assoc.
Qed.
Lemma put_all_any ps : forall oks out, exists k, snd (put_all oks ps out) = out ++ flat_map text_of (firstn k ps) /\ (fst (put_all oks ps out) = true -> snd (put_all oks ps out) = out ++ flat_map text_of ps).
Proof.
  induction ps as [|p ps IH]; intros oks out; [exists O; cbn; now rewrite app_nil_r|]. cbn [put_all].
  assert (G : hd true oks = false \/ hd true oks = true) by (destruct (hd true oks); auto).
  assert (E : put_piece (hd true oks) p out = (match p with Str s => if hd true oks then Z.of_nat (length s) else 0 | Chr _ => if hd true oks then 0 else -1 end, out ++ if hd true oks then text_of p else [])).
  { destruct p, (hd true oks); cbn [put_piece text_of]; rewrite ?app_nil_r; reflexivity. }
  rewrite E. destruct (succeeded p _) eqn:Es.
  - assert (H : hd true oks = true \/ text_of p = []).
    { destruct (hd true oks); [now left|right]. destruct p as [s|c]; [|discriminate]. destruct s; [reflexivity|]. cbn [succeeded length] in Es. apply Z.eqb_eq in Es. lia. }
    assert (Eo : out ++ (if hd true oks then text_of p else []) = out ++ text_of p) by (destruct H as [->| ->]; [reflexivity|now destruct (hd true oks)]). rewrite Eo.
    destruct (IH (tl oks) (out ++ text_of p)) as (k & H1 & H2). exists (S k). cbn [firstn flat_map]. rewrite app_assoc. split; [exact H1|]. intros T. rewrite (H2 T). now rewrite app_assoc.
  - cbn [fst snd]. exists O. cbn [firstn flat_map]. split; [|discriminate].
    destruct (hd true oks); [|reflexivity]. exfalso. destruct p as [s|c]; cbn [succeeded] in Es; [now rewrite Z.eqb_refl in Es|discriminate].
Qed.

(** ** The same program on streams that give the same *)
Section Same.
Context {S T : Type} (nx : S -> outcome (Z * S)) (ny : T -> outcome (Z * T)) (R : S -> T -> Prop).
Context (H : forall x y, R x y -> exists r x' y', nx x = Ok (r, x') /\ ny y = Ok (r, y') /\ R x' y').
Lemma read_same n : forall x y, R x y -> exists d e x' y', read_n nx n x = Ok (d, e, x') /\ read_n ny n y = Ok (d, e, y').
Proof.
  induction n as [|n IH]; intros x y HR; [exists [], false, x, y; now split|]. destruct (H x y HR) as (r & x' & y' & Ex & Ey & HR'). cbn [read_n]. rewrite Ex, Ey. cbn [obind].
  destruct (r =? -1); [exists [], true, x', y'; now split|]. destruct (IH x' y' HR') as (d & e & x2 & y2 & E1 & E2). rewrite E1, E2. cbn [obind]. now exists (r mod 256 :: d), e, x2, y2.
Qed.
Lemma prepare_same max env x y : R x y -> omap fst (prepare nx max env x) = omap fst (prepare ny max env y).
Proof.
  intros HR. unfold prepare. destruct (eqs _ (str "GET")).
  - destruct (parse_input _ _); reflexivity.
  - destruct (eqs _ (str "POST")); [|reflexivity]. destruct (max <? _); [reflexivity|].
    destruct (read_same (Z.to_nat match Cast_Model.from_string (Cast_Model.TNum false 64) (get_attr (touch env (str "REQUEST_METHOD")) (str "CONTENT_LENGTH")) with Ok n => n | _ => 0 end) x y HR) as (d & e & x' & y' & E1 & E2).
    rewrite E1, E2. cbn [obind]. destruct e; [reflexivity|]. destruct (find_sub _ _).
    + destruct (parse_multipart_input _ _ _); reflexivity.
    + destruct (parse_input _ _); reflexivity.
Qed.
Lemma once_same {A} (prog : A -> call -> A * outcome (list Z * header)) max a env x y : R x y -> exec_once prog max nx a env x = exec_once prog max ny a env y.
Proof.
  intros HR. pose proof (prepare_same max env x y HR) as E. unfold exec_once, exec. destruct (prepare nx max env x) as [[v x1]| | |], (prepare ny max env y) as [[w y1]| | |]; try discriminate E; try reflexivity.
  injection E as ->. cbn [obind]. destruct w as [c|msg]; [|reflexivity]. destruct (prog a c) as (a' & r). cbn [fst snd]. destruct r as [[body h]| | |]; reflexivity.
Qed.
End Same.
Lemma fcgi_once {A} (prog : A -> call -> A * outcome (list Z * header)) max a envi input : bytes input ->
  exec_once prog max (fcgx_step Next) a (get_env envi) (fcgx_init input) = run_cgi prog max a envi input.
Proof.
  intros Hb. unfold run_cgi. apply (once_same _ _ (fun x y => at_ x y)).
  - intros x y Hxy. destruct (step_reads Next x y Hxy) as (r & x' & E & K). destruct y as [|c rest].
    + destruct K as (-> & K). exists (-1), x', []. split; [exact E|]. split; [reflexivity|exact K].
    + destruct K as (-> & Hc & K). exists c, x', rest. split; [exact E|]. split; [reflexivity|exact K].
  - split; [exact Hb|left; now split].
Qed.

(** ** The command line *)
Definition ev (s : setting) : event :=
  match s with Port n => Opt 112 (show_int n) | Threads n => Opt 116 (show_int n) | Timeout d => Opt 111 d | AsServer => Opt 115 [] | Help => Opt 104 [] end.
Lemma starts_firstn p n : starts p n -> exists k, p = firstn k n /\ (k <= length n)%nat.
Proof. intros (r & ->). exists (length p). rewrite firstn_app, Nat.sub_diag, firstn_all, firstn_O, app_nil_r, app_length. split; [reflexivity|lia]. Qed.
Ltac cases k := destruct k as [|k]; [|first [exfalso; lia|cases k]].
Lemma abbreviates_ok p n o : In (n, o) opts -> abbreviates p n -> find_long p = Some o /\ strchr 61 p = None /\ p <> [] /\ (forall v, strchr 61 (p ++ 61 :: v) = Some (p, v)).
Proof.
  intros Ho (Hs & Hu). destruct (starts_firstn p n Hs) as (k & -> & Hk).
  assert (N : forall m, In m long_names -> m <> n -> ~ starts (firstn k n) m) by (intros m Hm D K; apply D; now apply Hu).
  assert (P : forall a b, a = firstn k n ++ b -> starts (firstn k n) a) by (intros a b ->; now exists b).
  unfold opts in Ho. cbn [In] in Ho. destruct Ho as [[= <- <-]|[[= <- <-]|[[= <- <-]|[[= <- <-]|[[= <- <-]|[]]]]]].
  all: vm_compute in Hk; cases k; try (split; [reflexivity|]; split; [reflexivity|]; split; [discriminate|]; intros v; reflexivity).
  all: exfalso.
  - apply (N (str "help")); [cbn; tauto|discriminate|]. eapply (P _ (str "help")). reflexivity.
  - apply (N (str "help")); [cbn; tauto|discriminate|]. eapply (P _ (str "help")). reflexivity.
  - apply (N (str "timeout")); [cbn; tauto|discriminate|]. eapply (P _ (str "imeout")). reflexivity.
  - apply (N (str "help")); [cbn; tauto|discriminate|]. eapply (P _ (str "help")). reflexivity.
  - apply (N (str "thread")); [cbn; tauto|discriminate|]. eapply (P _ (str "hread")). reflexivity.
  - apply (N (str "port")); [cbn; tauto|discriminate|]. eapply (P _ (str "port")). reflexivity.
  - apply (N (str "port")); [cbn; tauto|discriminate|]. eapply (P _ (str "port")). reflexivity.
Qed.
Lemma long_taken p x r : p <> [] -> getopt ((str "--" ++ p ++ x) :: r) =
  let '(es, took) := long_word (p ++ x) r in
  let '(es', l) := if took then match r with _ :: r' => getopt r' | [] => ([], []) end else getopt r in (es ++ es', l).
Proof. intros Hp. destruct p as [|c p]; [congruence|]. reflexivity. Qed.
Lemma given_opt l n d ws r : In (n, (l, true)) opts -> given l n d ws -> fst (getopt (ws ++ r)) = Opt l d :: fst (getopt r).
Proof.
  intros Ho Hg.
  assert (Hl : (l =? 112) || (l =? 116) || (l =? 111) = true /\ l =? 45 = false).
  { unfold opts in Ho. cbn [In] in Ho. destruct Ho as [[= _ <-]|[[= _ <-]|[[= _ <-]|[H|[H|[]]]]]]; try discriminate H; split; reflexivity. }
  destruct Hl as (Hl & Hm). destruct Hg as [|Hd|p Hp|p Hp].
  - cbn [app getopt]. rewrite Hm. cbn [Z.eqb Pos.eqb andb letters]. rewrite Hl. destruct (getopt r) as (es & x). reflexivity.
  - cbn [app getopt]. rewrite Hm. cbn [Z.eqb Pos.eqb andb letters]. rewrite Hl. destruct d as [|c d]; [congruence|]. destruct (getopt r) as (es & x). reflexivity.
  - destruct (abbreviates_ok p n _ Ho Hp) as (E1 & E2 & E3 & _). change ([str "--" ++ p; d] ++ r) with ((str "--" ++ p) :: d :: r). rewrite <- (app_nil_r p), (long_taken p [] _ E3), app_nil_r.
    unfold long_word. rewrite E2, E1. destruct (getopt r) as (es & x). reflexivity.
  - destruct (abbreviates_ok p n _ Ho Hp) as (E1 & _ & E3 & E4). change ([str "--" ++ p ++ 61 :: d] ++ r) with ((str "--" ++ p ++ 61 :: d) :: r). rewrite (long_taken p (61 :: d) _ E3).
    unfold long_word. rewrite E4, E1. destruct (getopt r) as (es & x). reflexivity.
Qed.
Lemma flag_opt p n l r : In (n, (l, false)) opts -> abbreviates p n -> fst (getopt ((str "--" ++ p) :: r)) = Opt l [] :: fst (getopt r).
Proof.
  intros Ho Hp. destruct (abbreviates_ok p n _ Ho Hp) as (E1 & E2 & E3 & _). rewrite <- (app_nil_r p), (long_taken p [] _ E3), app_nil_r.
  unfold long_word. rewrite E2, E1. destruct (getopt r) as (es & x). reflexivity.
Qed.
Lemma written_events ws ss : written ws ss -> fst (getopt ws) = map ev ss.
Proof.
  induction 1 as [|n ws r ss Hg Hn Hw IH|n ws r ss Hg Hn Hw IH|d ws r ss Hg Hw IH|w r ss Hg Hw IH|w r ss Hg Hw IH|l s c w r ss Hl Hc Hw IH|w r ss Hg Hw IH|r].
  - reflexivity.
  - rewrite (given_opt _ _ _ _ r ltac:(now left) Hg), IH. reflexivity.
  - rewrite (given_opt _ _ _ _ r ltac:(right; now left) Hg), IH. reflexivity.
  - rewrite (given_opt _ _ _ _ r ltac:(do 2 right; now left) Hg), IH. reflexivity.
  - destruct Hg as [->|(p & Hp & ->)].
    + cbn [map ev]. rewrite <- IH. change (str "-s") with [45; 115]. cbn [getopt Z.eqb Pos.eqb andb letters orb]. destruct (getopt r). reflexivity.
    + rewrite (flag_opt p _ 115 r ltac:(do 4 right; now left) Hp), IH. reflexivity.
  - destruct Hg as [->|(p & Hp & ->)].
    + cbn [map ev]. rewrite <- IH. change (str "-h") with [45; 104]. cbn [getopt Z.eqb Pos.eqb andb letters orb]. destruct (getopt r). reflexivity.
    + rewrite (flag_opt p _ 104 r ltac:(do 3 right; now left) Hp), IH. reflexivity.
  - cbn [map]. rewrite <- IH. cbn [getopt]. apply Z.eqb_neq in Hc. rewrite Hc. cbn [Z.eqb Pos.eqb andb].
    assert (E : letters (l :: c :: w) r = (ev s :: fst (letters (c :: w) r), snd (letters (c :: w) r))).
    { cbn [letters]. destruct Hl as [(-> & ->)|(-> & ->)]; cbn [Z.eqb Pos.eqb orb ev];
        match goal with |- context [if ?b then ?x else ?y] => destruct (if b then x else y) end; reflexivity. }
    assert (Hl45 : l =? 45 = false) by (destruct Hl as [(-> & _)|(-> & _)]; reflexivity). rewrite Hl45. cbn [andb]. rewrite E. destruct (letters (c :: w) r) as (es & b). cbn [fst snd].
    destruct (if b then _ else _). reflexivity.
  - cbn [getopt]. destruct w as [|a [|b x]]; [destruct (getopt r); exact IH|destruct (getopt r); exact IH|]. destruct (Z.eqb_spec a 45) as [->|Ha].
    + specialize (Hg _ eq_refl). discriminate.
    + cbn [andb]. destruct (getopt r); exact IH.
  - reflexivity.
Qed.
Lemma show_int_nonzero n : ~ In 0 (show_int n).
Proof.
  intros H. unfold show_int in H. destruct (Z.ltb_spec n 0).
  - destruct H as [H|H]; [discriminate|]. pose proof (dec_text_digits (- n) ltac:(lia)) as F. rewrite Forall_forall in F. specialize (F _ H). vm_compute in F. intuition congruence.
  - pose proof (dec_text_digits n ltac:(lia)) as F. rewrite Forall_forall in F. specialize (F _ H). vm_compute in F. intuition congruence.
Qed.
Lemma atoi_show n : - 2 ^ 31 <= n < 2 ^ 31 -> atoi (show_int n) = n.
Proof.
  intros Hn. unfold atoi. rewrite Ipv4_Proof.c_str_id by apply show_int_nonzero. unfold strtol. rewrite Cast_Proof.scan_show. cbn [fst].
  replace (if n <? 0 then - Z.abs n else Z.abs n) with n by (destruct (Z.ltb_spec n 0); lia). unfold Ipv4_Model.wrap32, Ipv4_Model.sat64. rewrite Z.max_r, Z.min_r by lia. rewrite Z.mod_small by lia. lia.
Qed.
Definition small (s : setting) : Prop := match s with Port n | Threads n => - 2 ^ 31 <= n < 2 ^ 31 | _ => True end.
Lemma written_small ws ss : written ws ss -> Forall small ss.
Proof. induction 1 as [| | | | | |l s c w r ss [(-> & ->)|(-> & ->)] Hc Hw IH| |]; try assumption; constructor; try assumption; exact I. Qed.
Lemma settings_step argv0 s r p t o : small s -> settings argv0 (ev s :: r) p t o =
  match complaint argv0 s with
  | Some m => Exit m
  | None => settings argv0 r (match s with Port n => n | _ => p end) (match s with Threads n => n | _ => t end) (match s with Timeout d => Some d | _ => o end)
  end.
Proof.
  intros Hs. destruct s as [n|n|d| |]; cbn [ev complaint small] in *.
  - cbn [settings Z.eqb Pos.eqb]. cbv zeta. rewrite (atoi_show n Hs). destruct (Z.leb_spec 1 n), (Z.leb_spec n 65535); cbn [andb]; try reflexivity. now rewrite Z.mod_small by lia.
  - cbn [settings Z.eqb Pos.eqb]. cbv zeta. rewrite (atoi_show n Hs). destruct (Z.leb_spec 1 n), (Z.leb_spec n 1024), (Z.leb_spec n 0); cbn [andb]; try reflexivity; lia.
  - reflexivity.
  - reflexivity.
  - reflexivity.
Qed.
Lemma settings_listen argv0 ss : Forall small ss -> (forall s, In s ss -> complaint argv0 s = None) -> forall p t o,
  settings argv0 (map ev ss) p t o = Listen (last (ports ss) p) (last (threads ss) t) (last (map Some (timeouts ss)) o).
Proof.
  assert (L : forall (T : Type) (x d : T) l, last (x :: l) d = last l x).
  { intros T x d l. revert x d. induction l as [|y l IH]; intros x d; [reflexivity|]. change (last (y :: l) d = last (y :: l) x). now rewrite !IH. }
  induction 1 as [|s ss Hs Hss IH]; intros Hc p t o; [reflexivity|]. cbn [map]. rewrite (settings_step argv0 s _ p t o Hs). rewrite (Hc s (or_introl eq_refl)).
  rewrite IH by (intros x Hx; apply Hc; now right). unfold ports, threads, timeouts. destruct s; cbn [flat_map app map]; rewrite ?L; reflexivity.
Qed.
Lemma settings_exit argv0 pre s post m : Forall small (pre ++ s :: post) -> (forall x, In x pre -> complaint argv0 x = None) -> complaint argv0 s = Some m -> forall p t o,
  settings argv0 (map ev (pre ++ s :: post)) p t o = Exit m.
Proof.
  induction pre as [|y pre IH]; intros Hs Hp Hm p t o; cbn [app map] in *; rewrite settings_step by exact (Forall_inv Hs).
  - now rewrite Hm.
  - rewrite (Hp y (or_introl eq_refl)). apply IH; [exact (Forall_inv_tail Hs)| |exact Hm]. intros x Hx. apply Hp. now right.
Qed.
