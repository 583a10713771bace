From Verif Require Import Common CommonLemmas NumText_Model NumText_Proof Xhtml_Model Socket_Spec Socket_Model Socket_Proof Http_Spec Http_Model Http_Proof HttpMsg_Spec HttpMsg_Model HttpMsg_Proof.
From Verif Require Import Cgi_Model CgiServer_Spec CgiServer_Model.
From Verif Require Cast_Model Cast_Spec Cast_Proof Ipv4_Model Uri_Model Cgi_Spec Cgi_Proof.
Local Open Scope Z_scope.
Ltac Zify.zify_post_hook ::= Z.div_mod_to_equations.

(** * Reading leaves the sending side alone *)
Definition quiet (x x' : st) : Prop := kout (snd x') = kout (snd x) /\ wb (fst x') = wb (fst x) /\ conn (fst x') = conn (fst x).
Lemma quiet_refl x : quiet x x.
Proof. repeat split. Qed.
Lemma quiet_trans x y z : quiet x y -> quiet y z -> quiet x z.
Proof. intros (A1 & A2 & A3) (B1 & B2 & B3). repeat split; congruence. Qed.
Section Live.
Context (rc : nat -> Z) (Hrc : forall i, 0 < rc i).
Lemma getc_quiet x c s : alive x -> stream x = c :: s -> exists x', getc rc x = (c, x') /\ alive x' /\ stream x' = s /\ quiet x x'.
Proof.
  intros Ha Hs. destruct (getc_at rc Hrc x c s Ha Hs) as (x' & E1 & E2 & E3 & E4 & E5). exists x'. split; [exact E1|]. split; [exact E2|]. split; [exact E3|].
  split; [exact E4|]. split; [exact E5|]. unfold getc in E1. destruct (rb (fst x)) as [|d r] eqn:Er.
  - destruct (recv rc buf_size x) as [q x1] eqn:Eq. pose proof (recv_spec rc (fun _ => 1) _ x q x1 (ok_open _ (al_ok x Ha)) Eq) as (H1 & H2 & H3 & H4). destruct q as [d|n].
    + destruct H4 as (Hd & _ & _ & Hf & _). destruct d as [|a d]; [congruence|]. injection E1 as _ <-. unfold set_rb. cbn [fst snd conn]. now rewrite Hf.
    + injection E1 as E1 _. pose proof (stream_bytes x Ha) as B. rewrite Hs in B. inversion B as [|? ? Bc _]. subst. unfold is_byte in Bc. lia.
  - injection E1 as _ <-. reflexivity.
Qed.
Lemma getline_loop_quiet f : forall ret n x r x', alive x -> In 10 (stream x) -> getline_loop rc f ret n x = Ok (r, x') -> quiet x x'.
Proof.
  induction f as [|f IH]; intros ret n x r x' Ha Hi E; [discriminate E|]. cbn [getline_loop] in E.
  destruct (stream x) as [|c s] eqn:Es; [contradiction Hi|]. destruct (getc_quiet x c s Ha Es) as (x1 & E1 & E2 & E3 & E4).
  pose proof (stream_bytes x Ha) as B. rewrite Es in B. apply Forall_inv in B. unfold is_byte in B.
  assert (G : quiet x x1 /\ (c =? 10 = false -> In 10 (stream x1))).
  { split; [exact E4|]. intros N. rewrite E3. destruct Hi as [->|Hi]; [discriminate N|exact Hi]. }
  destruct G as [G1 G2]. rewrite E1 in E. replace (c =? -1) with false in E by lia.
  destruct n as [[|m]|]; [injection E as _ <-; apply quiet_refl| |]; (destruct (c =? 10); [injection E as _ <-; exact G1|]; exact (quiet_trans x x1 x' G1 (IH _ _ x1 r x' E2 (G2 eq_refl) E))).
Qed.
Lemma getline_quiet l x r x' : alive x -> In 10 (stream x) -> getline rc l x = Ok (r, x') -> quiet x x'.
Proof. unfold getline. apply getline_loop_quiet. Qed.
Notation getl := (getline rc line_limit).
Notation fieldline f := (fst f ++ [58; 32] ++ snd f).
Lemma in_lf a s : In 10 (a ++ 13 :: 10 :: s).
Proof. apply in_or_app. right. right. now left. Qed.
Lemma getl_field_q fl x s : field_ok fl -> alive x -> stream x = fieldline fl ++ 13 :: 10 :: s ->
  exists x', getl x = Ok (Some (fieldline fl), x') /\ alive x' /\ stream x' = s /\ quiet x x'.
Proof.
  intros Hf Ha Hs. destruct (getl_field rc Hrc fl x s Hf Ha Hs) as (x' & E1 & E2 & E3). exists x'. split; [exact E1|]. split; [exact E2|]. split; [exact E3|].
  refine (getline_quiet line_limit x _ x' Ha _ E1); rewrite Hs; apply in_lf.
Qed.
Lemma rov_next f val fl x s : field_ok fl -> alive x -> stream x = fieldline fl ++ 13 :: 10 :: s ->
  exists x', rest_of_value getl (S f) val x = Ok (val, Some (fieldline fl), x') /\ alive x' /\ stream x' = s /\ quiet x x'.
Proof.
  intros Hf Ha Hs. destruct (getl_field_q fl x s Hf Ha Hs) as (x' & E1 & E2 & E3 & E4).
  cbn [rest_of_value]. rewrite E1. cbn [obind]. exists x'. split; [|auto].
  destruct Hf as ([Hn Ht] & _). destruct fl as [k v]. cbn [fst snd] in *. destruct k as [|c k]; [easy|]. cbn [app].
  inversion Ht; subst. destruct (token_char_facts c) as (_ & _ & F1 & F2); [auto|].
  rewrite F2. unfold eqs. destruct (list_eq_dec _ _ _) as [F|F]; [congruence|]. reflexivity.
Qed.
Lemma rov_end f val x s : alive x -> stream x = 13 :: 10 :: s ->
  exists x', rest_of_value getl (S f) val x = Ok (val, None, x') /\ alive x' /\ stream x' = s /\ quiet x x'.
Proof.
  intros Ha Hs. destruct (getline_at rc Hrc x line_limit [] s Ha Hs) as (x' & E1 & E2 & E3 & _); [intros []|cbn; unfold line_limit; lia|].
  cbn [rest_of_value]. rewrite E1. cbn [obind]. exists x'. split; [auto|]. split; [auto|]. split; [auto|].
  refine (getline_quiet line_limit x _ x' Ha _ E1); rewrite Hs; apply (in_lf []).
Qed.
Lemma fields_q s h : forall f fl done x, field_ok fl -> Forall field_ok h -> (length h < f)%nat -> alive x ->
  stream x = wire h ++ s -> NoDup (map (fun g => lower (fst g)) (done ++ fl :: h)) ->
  exists x', read_fields getl f (fieldline fl) done x = Ok (done ++ fl :: h, x') /\ alive x' /\ stream x' = s /\ quiet x x'.
Proof.
  induction h as [|g h IH]; intros f fl done x Hf Hh Hl Ha Hs Hn; (destruct f as [|f]; [cbn in Hl; lia|]);
    cbn [read_fields]; rewrite split_field by auto.
  - destruct (rov_end f (32 :: snd fl) x s Ha Hs) as (x' & E1 & E2 & E3 & E4). rewrite E1. cbn [obind].
    exists x'. split; [|auto]. rewrite ltrim_value by auto. rewrite (set_new done fl [] (snd fl) Hn). now destruct fl.
  - inversion Hh; subst. rewrite wire_cons in Hs.
    destruct (rov_next f (32 :: snd fl) g x _ H1 Ha Hs) as (x1 & E1 & E2 & E3 & E4). rewrite E1. cbn [obind].
    rewrite ltrim_value by auto. rewrite (set_new done fl (g :: h) (snd fl) Hn).
    destruct (IH f g (done ++ [(fst fl, snd fl)]) x1) as (x' & F1 & F2 & F3 & F4); auto.
    { cbn in Hl. lia. }
    { rewrite <- app_assoc. cbn [app]. now destruct fl. }
    exists x'. rewrite F1, <- app_assoc. cbn [app]. split; [now destruct fl|]. split; [auto|]. split; [auto|]. exact (quiet_trans x x1 x' E4 F4).
Qed.
Lemma header_q h x s : Forall field_ok h -> NoDup (map (fun g => lower (fst g)) h) -> alive x -> stream x = wire h ++ s ->
  exists x', header_from rc x = Ok (h, x') /\ alive x' /\ stream x' = s /\ quiet x x'.
Proof.
  intros Hh Hn Ha Hs. destruct (header_from_wire rc Hrc h x s Hh Hn Ha Hs) as (x' & E1 & E2 & E3). exists x'. split; [exact E1|]. split; [exact E2|]. split; [exact E3|].
  unfold header_from, read_header in E1. destruct h as [|g h].
  - destruct (getline_at rc Hrc x line_limit [] s Ha Hs) as (x1 & G1 & _); [intros []|cbn; unfold line_limit; lia|].
    rewrite G1 in E1. cbn [obind] in E1. injection E1 as <-. refine (getline_quiet line_limit x _ x1 Ha _ G1); rewrite Hs; apply (in_lf []).
  - pose proof (Forall_inv Hh) as H1; pose proof (Forall_inv_tail Hh) as H2. pose proof Hs as Hs0. rewrite wire_cons in Hs. destruct (getl_field_q g x _ H1 Ha Hs) as (x1 & G1 & G2 & G3 & G4). rewrite G1 in E1. cbn [obind] in E1.
    assert (L : (length h < fuel x)%nat).
    { assert (W : forall l : list (list Z * list Z), (length l <= length (wire l))%nat).
      { intros l. unfold wire. rewrite app_length. induction l as [|f l IH]; [cbn; lia|]. cbn [flat_map length]. rewrite !app_length in *. cbn [length] in *. lia. }
      pose proof (W (g :: h)) as Wg. apply (f_equal (@length Z)) in Hs0. unfold stream in Hs0. rewrite !app_length in Hs0. cbn [length] in Wg. unfold fuel. lia. }
    destruct (fields_q s h (fuel x) g [] x1 H1 H2 L G2 G3 Hn) as (x2 & F1 & _ & _ & F4).
    destruct (fieldline g) as [|c l] eqn:El; [destruct g as [[|] v]; [destruct H1 as ((K & _) & _); cbn in K; congruence|discriminate El]|].
    rewrite F1 in E1. injection E1 as <-. exact (quiet_trans x x1 x2 G4 F4).
Qed.
Lemma request_q m u c ma mi h hd bd dat s x : alive x -> word_ok m -> word_ok u -> int ma -> int mi -> (length (request_line m u ma mi) <= 4094)%nat ->
  Uri_Model.uri u = Ok c -> Forall field_ok h -> NoDup (map (fun g => lower (fst g)) h) -> choose_body h = Ok (hd, bd) ->
  stream x = message (request_line m u ma mi) h dat ++ s ->
  exists x', recv_request rc x = Ok (mkRec (m, c, (ma, mi)) hd bd, x') /\ alive x' /\ stream x' = dat ++ s /\ quiet x x'.
Proof.
  intros Ha Hm Hu H1 H2 Hl Hp Hf Hn Hc Hs. destruct (request_at rc Hrc m u c ma mi h hd bd dat s x Ha Hm Hu H1 H2 Hl Hp Hf Hn Hc Hs) as (x' & E1 & E2 & E3).
  exists x'. split; [exact E1|]. split; [exact E2|]. split; [exact E3|]. rewrite message_split in Hs. unfold recv_request in E1.
  destruct (getl_line rc Hrc x _ _ Ha Hs) as (x1 & G1 & G2 & G3); [|exact Hl|].
  { unfold request_line. intros K. destruct Hm as [_ Hm], Hu as [_ Hu].
    repeat (apply in_app_or in K; destruct K as [K|K]; [first [now apply (no_lf _ Hm) in K | now apply (no_lf _ Hu) in K | destruct K as [K|[]]; discriminate K]|]).
    pose proof (version_plain ma mi) as P. rewrite Forall_forall in P. destruct (P 10 K) as (_ & _ & _ & P4). congruence. }
  rewrite G1 in E1. cbn [obind] in E1. destruct (word _) as [m1 l1] in E1. destruct (word l1) as [u1 l2] in E1. destruct (word l2) as [v1 l3] in E1.
  destruct (Uri_Model.uri u1) as [c1| | |]; cbn [obind] in E1; try discriminate E1. destruct (scan_version (map toupper v1)); [|discriminate E1].
  destruct (header_q h x1 (dat ++ s) Hf Hn G2 G3) as (x2 & F1 & _ & _ & F4). rewrite F1 in E1. cbn [obind] in E1. rewrite Hc in E1. cbn [obind] in E1. injection E1 as _ _ _ <-.
  apply (quiet_trans x x1 x2); [|exact F4]. refine (getline_quiet line_limit x _ x1 Ha _ G1); rewrite Hs; apply in_lf.
Qed.
(** the body *)
Lemma sized_read dat : forall s x, alive x -> stream x = dat ++ s -> exists b x',
  read_n (sized_step rc Next) (length dat) (mkZ (negb (Z.of_nat (length dat) =? 0)) (Z.of_nat (length dat)) (-1), x) = Ok (dat, false, (b, x')) /\ alive x' /\ stream x' = s /\ quiet x x'.
Proof.
  induction dat as [|c d IH]; intros s x Ha Hs.
  - eexists _, x. split; [reflexivity|]. split; [exact Ha|]. split; [exact Hs|apply quiet_refl].
  - destruct (getc_quiet x c (d ++ s) Ha Hs) as (x1 & E1 & E2 & E3 & E4). destruct (IH s x1 E2 E3) as (b & x2 & F1 & F2 & F3 & F4). exists b, x2.
    cbn [length read_n]. unfold sized_step at 1. cbn [z_buf z_sock z_rest]. change (-1 =? -1) with true. cbv iota.
    replace (Z.of_nat (S (length d)) =? 0) with false by lia. cbn [negb]. rewrite E1. cbv iota. cbn [obind z_sock z_rest].
    pose proof (stream_bytes x Ha) as B. rewrite Hs in B. apply Forall_inv in B. unfold is_byte in B. replace (c =? -1) with false by lia.
    replace (Z.of_nat (S (length d)) - 1) with (Z.of_nat (length d)) by lia. rewrite F1. cbn [obind]. replace (c mod 256) with c by (symmetry; apply Z.mod_small; lia).
    split; [reflexivity|]. split; [exact F2|]. split; [exact F3|]. exact (quiet_trans x x1 x2 E4 F4).
Qed.
End Live.

(** * Reading back what the program has printed *)
Notation fieldline f := (fst f ++ [58; 32] ++ snd f).
Definition printed (h : header) : list Z := flat_map (fun g => fst g ++ str ": " ++ snd g ++ [10]) h.
Lemma blank_line s : istream_getline (Good (10 :: s)) = Ok (Some [], Good s).
Proof. exact (Cgi_Proof.getline_line [] s (fun K => K)). Qed.
Lemma printed_cons g h s : printed (g :: h) ++ s = fieldline g ++ 10 :: printed h ++ s.
Proof. unfold printed. cbn [flat_map]. rewrite <- !app_assoc. reflexivity. Qed.
Lemma line_no_lf f : line_field f -> ~ In 10 (fieldline f).
Proof.
  intros (H1 & (_ & _ & H3) & _). rewrite !in_app_iff. intros [H|[H|H]].
  - revert H. apply (token_no 10); [auto|]. intros d Hd ->. now destruct (token_char_facts _ Hd) as (_ & K & _).
  - destruct H as [H|[H|[]]]; discriminate H.
  - contradiction.
Qed.
Lemma split_back fl : line_field fl -> split_line [] (fieldline fl) = (fst fl, 32 :: snd fl).
Proof.
  intros (Hk & _). change ([58; 32] ++ snd fl) with (58 :: 32 :: snd fl). rewrite split_line_key.
  - cbn [app]. now rewrite rtrim_token.
  - apply (token_no 58); [auto|]. intros d Hd ->. now destruct (token_char_facts _ Hd).
Qed.
Lemma ltrim_back fl : line_field fl -> ltrim (32 :: snd fl) = snd fl.
Proof.
  intros (_ & _ & Hb). cbn [ltrim]. change (isspace 32) with true. cbn match.
  destruct (snd fl) as [|c v]; [reflexivity|]. cbn. destruct (isspace c) eqn:E; [|reflexivity].
  apply isspace_blank in E. now elim (Hb c v).
Qed.
Lemma back_next f val fl s : line_field fl -> rest_of_value istream_getline (S f) val (Good (fieldline fl ++ 10 :: s)) = Ok (val, Some (fieldline fl), Good s).
Proof.
  intros Hf. cbn [rest_of_value]. rewrite Cgi_Proof.getline_line by now apply line_no_lf. cbn [obind].
  destruct Hf as ([Hn Ht] & _). destruct fl as [k v]. cbn [fst snd] in *. destruct k as [|c k]; [easy|]. cbn [app].
  inversion Ht; subst. destruct (token_char_facts c) as (_ & _ & F1 & F2); [auto|].
  rewrite F2. unfold eqs. destruct (list_eq_dec _ _ _) as [F|F]; [congruence|]. reflexivity.
Qed.
Lemma fields_back s h : forall f fl done, line_field fl -> Forall line_field h -> (length h < f)%nat ->
  NoDup (map (fun g => lower (fst g)) (done ++ fl :: h)) ->
  read_fields istream_getline f (fieldline fl) done (Good (printed h ++ 10 :: s)) = Ok (done ++ fl :: h, Good s).
Proof.
  induction h as [|g h IH]; intros f fl done Hf Hh Hl Hn; (destruct f as [|f]; [cbn in Hl; lia|]); cbn [read_fields]; rewrite split_back by auto.
  - cbn [printed flat_map app]. cbn [rest_of_value]. rewrite blank_line. cbn [obind].
    rewrite ltrim_back by auto. rewrite (set_new done fl [] (snd fl) Hn). now destruct fl.
  - pose proof (Forall_inv Hh) as H1; pose proof (Forall_inv_tail Hh) as H2. rewrite printed_cons. rewrite back_next by auto. cbn [obind].
    rewrite ltrim_back by auto. rewrite (set_new done fl (g :: h) (snd fl) Hn).
    rewrite (IH f g (done ++ [(fst fl, snd fl)])); auto.
    + rewrite <- app_assoc. cbn [app]. now destruct fl.
    + cbn in Hl. lia.
    + rewrite <- app_assoc. cbn [app]. now destruct fl.
Qed.
Lemma header_back h s : page_ok h -> read_header istream_getline (S (length (output h s))) (Good (output h s)) = Ok (h, Good s).
Proof.
  intros [Hh Hn]. unfold output. change (flat_map _ h) with (printed h). unfold read_header. destruct h as [|g h].
  - cbn [printed flat_map app]. rewrite blank_line. reflexivity.
  - pose proof (Forall_inv Hh) as H1; pose proof (Forall_inv_tail Hh) as H2. rewrite printed_cons. change ([10] ++ s) with (10 :: s). rewrite Cgi_Proof.getline_line by now apply line_no_lf. cbn [obind].
    destruct (fieldline g) as [|c l] eqn:El; [destruct g as [[|] v]; [destruct H1 as ((K & _) & _); cbn in K; congruence|discriminate El]|]. rewrite <- El.
    apply (fields_back s h _ g []); auto. assert (W : (length h <= length (printed h))%nat).
    { clear. induction h as [|f l IH]; [cbn; lia|]. unfold printed in *. cbn [flat_map length]. rewrite !app_length. cbn [length]. lia. }
    rewrite !app_length. cbn [length]. rewrite !app_length. lia.
Qed.

(** * The response *)
Lemma has_value h k : has_key h k = if value_of k h then true else false.
Proof. induction h as [|[a v] h IH]; [reflexivity|]. cbn [has_key value_of]. rewrite cicmp_same. destruct (same a k); [reflexivity|exact IH]. Qed.
Lemma ref_value h k : const_ref h k = or_else [] (value_of k h).
Proof. induction h as [|[a v] h IH]; [reflexivity|]. cbn [const_ref value_of]. rewrite cicmp_same. destruct (same a k); [reflexivity|exact IH]. Qed.
Lemma value_names a b h : lower a = lower b -> value_of a h = value_of b h.
Proof.
  intros E. induction h as [|[k v] h IH]; [reflexivity|]. cbn [value_of]. rewrite (same_sym k a), (same_sym k b). rewrite (same_trans a b k) by now apply same_eq. now rewrite IH.
Qed.
Lemma filter_id {A} (p : A -> bool) l : Forall (fun x => p x = true) l -> filter p l = l.
Proof. induction 1 as [|x l H _ IH]; [reflexivity|]. cbn [filter]. now rewrite H, IH. Qed.
Lemma erase_filter h k : NoDup (map (fun g => lower (fst g)) h) -> erase h k = filter (fun g => negb (same (fst g) k)) h.
Proof.
  induction h as [|[a v] h IH]; intros N; [reflexivity|]. cbn [map fst] in N. inversion N as [|? ? N1 N2]; subst. cbn [erase filter fst]. rewrite cicmp_same. destruct (same a k) eqn:E; cbn [negb].
  - rewrite filter_id; [reflexivity|]. apply Forall_forall. intros [b w] I. cbn [fst]. destruct (same b k) eqn:F; [|reflexivity]. exfalso. apply N1.
    apply same_eq in E, F. apply in_map_iff. exists (b, w). cbn [fst]. split; [congruence|exact I].
  - now rewrite IH.
Qed.
Lemma erase_absent h k : has_key h k = false -> erase h k = h.
Proof. intros K. induction h as [|[a v] h IH]; [reflexivity|]. cbn [has_key erase] in *. destruct (cicmp a k); [discriminate K|]. now rewrite IH. Qed.
Lemma filter_names (p : list Z * list Z -> bool) h : NoDup (map (fun g => lower (fst g)) h) -> NoDup (map (fun g => lower (fst g)) (filter p h)).
Proof.
  induction h as [|g h IH]; intros N; [exact N|]. cbn [map] in N. inversion N as [|? ? N1 N2]; subst. cbn [filter]. destruct (p g); [|auto]. cbn [map]. constructor; [|auto].
  intros I. apply N1. apply in_map_iff in I. destruct I as (f & E & I). apply filter_In in I. apply in_map_iff. exists f. split; [exact E|apply I].
Qed.
Lemma value_filter a (p : list Z * list Z -> bool) h : (forall g, same (fst g) a = true -> p g = true) -> value_of a (filter p h) = value_of a h.
Proof.
  intros H. induction h as [|[k v] h IH]; [reflexivity|]. cbn [filter value_of]. destruct (p (k, v)) eqn:P; cbn [value_of]; [now rewrite IH|].
  destruct (same k a) eqn:E; [|exact IH]. rewrite (H (k, v) E) in P. discriminate P.
Qed.
Lemma fold_set h : forall done, NoDup (map (fun g => lower (fst g)) (done ++ h)) -> fold_left (fun r g => set r (fst g) (snd g)) h done = done ++ h.
Proof.
  induction h as [|[k v] h IH]; intros done N; cbn [fold_left]; [now rewrite app_nil_r|]. pose proof (set_new done (k, v) h v N) as E. cbn [fst snd] in *. rewrite E. rewrite IH; rewrite <- app_assoc; [reflexivity|exact N].
Qed.
Lemma c_str_app s : ~ In 0 s -> Ipv4_Model.c_str s = s.
Proof.
  induction s as [|c s IH]; intros H; [reflexivity|]. cbn [Ipv4_Model.c_str]. destruct (Z.eqb_spec c 0) as [->|_]; [elim H; now left|]. rewrite IH; [reflexivity|]. intros K. apply H. now right.
Qed.
Lemma strtol_status code reason : int code -> ~ In 0 reason -> (match reason with c :: _ => ~ blank c | [] => True end) ->
  (let (n, q) := strtol (Ipv4_Model.c_str (show_int code ++ str " " ++ reason)) in (n, skip q)) = (code, reason).
Proof.
  intros Hc H0 Hb. rewrite c_str_app.
  - unfold strtol. change (str " ") with [32]. cbn [app]. rewrite (Cast_Proof.scan_leading _ _ _ _ (Cast_Proof.leading_show code (32 :: reason) ltac:(unfold Cast_Spec.digit; lia))).
    replace (if code <? 0 then - Z.abs code else Z.abs code) with code by (destruct (Z.ltb_spec code 0); lia). rewrite wrap_int by exact Hc.
    f_equal. exact (skip_none reason Hb).
  - intros K. apply in_app_or in K. destruct K as [K|K].
    + pose proof (show_plain code) as P. rewrite Forall_forall in P. destruct (P 0 K) as (_ & _ & P3 & _). congruence.
    + destruct K as [K|K]; [discriminate K|contradiction].
Qed.
Lemma page_names h : NoDup (map (fun g => lower (fst g)) h) -> NoDup (map (fun g => lower (fst g)) (page_fields h)).
Proof.
  intros N. unfold page_fields. rewrite map_app. cbn [map fst]. set (p := fun g => _ && _). pose proof (filter_names p h N) as F. apply NoDup_rev in F.
  rewrite <- (rev_involutive (_ ++ _)). apply NoDup_rev. rewrite rev_app_distr. cbn [rev app]. constructor; [|exact F].
  rewrite <- in_rev. intros I. apply in_map_iff in I. destruct I as (g & E & I). apply filter_In in I. destruct I as [_ I]. unfold p in I.
  apply andb_true_iff in I. destruct I as [I _]. apply negb_true_iff in I. assert (K : same (fst g) (str "Content-Type") = true) by now apply same_eq. congruence.
Qed.
Lemma gen_ok h s code reason : page_ok h -> status_of h code reason -> gen_resp (output h s) = Ok (code, reason, page_fields h, s).
Proof.
  intros Hp Hs. unfold gen_resp. rewrite header_back by exact Hp. cbn [obind]. destruct Hp as [_ N].
  set (ct := str "content-type"). set (stt := str "status"). set (loc := str "location").
  assert (E1 : (if has_key h ct then erase h ct else h) = filter (fun g => negb (same (fst g) ct)) h).
  { rewrite <- erase_filter by exact N. destruct (has_key h ct) eqn:K; [reflexivity|]. symmetry. now apply erase_absent. }
  rewrite E1. set (h1 := filter (fun g => negb (same (fst g) ct)) h). assert (N1 : NoDup (map (fun g => lower (fst g)) h1)) by now apply filter_names.
  assert (D : forall k, lower k <> lower ct -> value_of k h1 = value_of k h).
  { intros k Hk. apply value_filter. intros g G. destruct (same (fst g) ct) eqn:F; [|reflexivity]. apply same_eq in F, G. congruence. }
  assert (L : (if has_key h1 loc then (302, str "Found") else (200, str "OK")) = if value_of (str "Location") h then (302, str "Found") else (200, str "OK")).
  { rewrite has_value, D by (vm_compute; discriminate). rewrite (value_names loc (str "Location")) by reflexivity. now destruct (value_of (str "Location") h). }
  rewrite L. clear L.
  assert (S1 : has_key h1 stt = if value_of (str "Status") h then true else false).
  { rewrite has_value, D by (vm_compute; discriminate). now rewrite (value_names stt (str "Status")) by reflexivity. }
  assert (S2 : const_ref h1 stt = or_else [] (value_of (str "Status") h)).
  { rewrite ref_value, D by (vm_compute; discriminate). now rewrite (value_names stt (str "Status")) by reflexivity. }
  set (h2 := filter (fun g => negb (same (fst g) (str "Content-Type")) && negb (same (fst g) (str "Status"))) h).
  assert (N2 : filter (fun g => negb (same (fst g) stt)) h1 = h2).
  { unfold h1, h2. clear. induction h as [|g h IH]; [reflexivity|]. cbn [filter]. change (same (fst g) ct) with (same (fst g) (str "Content-Type")).
    destruct (same (fst g) (str "Content-Type")); cbn [negb andb filter]; [exact IH|]. change (same (fst g) stt) with (same (fst g) (str "Status")). destruct (same (fst g) (str "Status")); cbn [negb]; now rewrite IH. }
  assert (E2 : (if has_key h1 stt then erase h1 stt else h1) = h2).
  { rewrite <- N2. rewrite <- erase_filter by exact N1. destruct (has_key h1 stt) eqn:K; [reflexivity|]. symmetry. now apply erase_absent. }
  assert (T : (if has_key h ct then const_ref h ct else str "text/html; charset=utf-8") = or_else (str "text/html; charset=utf-8") (value_of (str "Content-Type") h)).
  { rewrite has_value, ref_value. rewrite (value_names ct (str "Content-Type")) by reflexivity. now destruct (value_of (str "Content-Type") h). }
  assert (A : has_key h2 (str "Content-Type") = false).
  { apply has_key_none. apply Forall_forall. intros g G. apply filter_In in G. destruct G as [_ G]. apply andb_true_iff in G. destruct G as [G _]. now apply negb_true_iff in G. }
  assert (F : forall (c : Z) (r : list Z), Ok (c, r, fold_left (fun r g => set r (fst g) (snd g)) (set h2 (str "Content-Type") (if has_key h ct then const_ref h ct else str "text/html; charset=utf-8")) [], s) = Ok (c, r, page_fields h, s)).
  { intros c r. rewrite set_absent by exact A. rewrite T. change (h2 ++ [(str "Content-Type", or_else (str "text/html; charset=utf-8") (value_of (str "Content-Type") h))]) with (page_fields h).
    rewrite (fold_set (page_fields h) []); [reflexivity|]. cbn [app]. now apply page_names. }
  unfold status_of in Hs. rewrite S2. revert E2. rewrite S1. destruct (value_of (str "Status") h) as [v|]; intros E2.
  - destruct Hs as (-> & H1 & H2 & H3). cbn [or_else]. pose proof (strtol_status code reason H1 H2 H3) as R. destruct (strtol _) as [n q]. injection R as -> ->.
    destruct (if value_of (str "Location") h then (302, str "Found") else (200, str "OK")) as [c0 r0]. rewrite E2. apply F.
  - rewrite E2. destruct (value_of (str "Location") h); destruct Hs as [-> ->]; apply F.
Qed.

(** * The environment *)
Lemma find_put env k v k' : find (put env k v) k' = if eqs k k' then Some v else find env k'.
Proof. unfold put. now rewrite Cgi_Proof.find_upd. Qed.
Lemma find_touch env k k' v : find env k' = Some v -> find (touch env k) k' = Some v.
Proof.
  intros H. unfold touch. rewrite Cgi_Proof.find_upd. destruct (eqs k k') eqn:E; [|exact H]. apply Cgi_Proof.eqs_iff in E. subst. now rewrite H.
Qed.
Lemma eqs_head c d a b : c <> d -> eqs (c :: a) (d :: b) = false.
Proof. intros H. unfold eqs. destruct (list_eq_dec Z.eq_dec (c :: a) (d :: b)) as [E|]; [injection E; congruence|reflexivity]. Qed.
Definition HV (k : list Z) : list Z := str "HTTP_" ++ map toupper k.
Lemma http_other k h : forall env, Forall (fun g => lower (fst g) <> lower k) h ->
  find (fold_left (fun env g => put env (str "HTTP_" ++ map toupper (fst g)) (snd g)) h env) (HV k) = find env (HV k).
Proof.
  induction h as [|[a v] h IH]; intros env H; [reflexivity|]. cbn [fold_left fst snd]. rewrite IH by exact (Forall_inv_tail H). rewrite find_put.
  destruct (eqs (str "HTTP_" ++ map toupper a) (HV k)) eqn:E; [|reflexivity]. exfalso. apply (Forall_inv H). cbn [fst]. apply Cgi_Proof.eqs_iff in E. unfold HV in E. apply app_inv_head in E.
  assert (L : forall s, lower (map toupper s) = lower s).
  { intros s. unfold lower. rewrite map_map. apply map_ext. intros c. unfold toupper. destruct ((97 <=? c) && (c <=? 122)) eqn:C; [|reflexivity].
    replace ((65 <=? c - 32) && (c - 32 <=? 90)) with true by lia. replace ((65 <=? c) && (c <=? 90)) with false by lia. lia. }
  now rewrite <- (L a), E, L.
Qed.
Lemma http_found h h2 k v : NoDup (map (fun g => lower (fst g)) h) -> Forall (fun g => lower (fst g) <> lower k) h2 -> In (k, v) h ->
  find (http_env (h ++ h2)) (HV k) = Some v.
Proof.
  intros N H2 I. unfold http_env. rewrite fold_left_app. rewrite http_other by exact H2. clear H2 h2. generalize (@nil (list Z * list Z)). induction h as [|[a w] h IH]; intros env; [contradiction I|].
  cbn [fold_left fst snd]. cbn [map fst] in N. inversion N as [|? ? N1 N2]; subst. destruct I as [E|I].
  - injection E as -> ->. rewrite http_other.
    + rewrite find_put. unfold HV. now rewrite Cgi_Proof.eqs_refl.
    + apply Forall_forall. intros g G K. apply N1. rewrite <- K. now apply (in_map (fun g => lower (fst g))).
  - now apply IH.
Qed.
Lemma env_http i m u h k : find (environment i m u h) (HV k) = find (http_env h) (HV k).
Proof. unfold environment. rewrite !find_put. unfold HV. cbn [str String.list_ascii_of_string app map]. rewrite !eqs_head by discriminate. reflexivity. Qed.
Lemma env_vars i m u h : Forall (fun p => find (environment i m u h) (fst p) = Some (snd p))
  (variables m (Uri_Model.path u) (Uri_Model.query u) (const_ref h (str "Content-Type")) (const_ref h (str "Content-Length")) (i_addr i) (show_int (i_port i)) (show_int (i_server_port i)) (i_version i)).
Proof.
  unfold variables. repeat constructor; cbn [fst snd]; unfold environment; rewrite !find_put; try reflexivity.
  destruct (Uri_Model.query u) as [|c q]; reflexivity.
Qed.

(** * What the program is called with *)
Notation CLN := (str "Content-Length").
Notation CTN := (str "Content-Type").
Lemma value_app a h1 h2 : value_of a (h1 ++ h2) = match value_of a h1 with Some v => Some v | None => value_of a h2 end.
Proof. induction h1 as [|[k v] h1 IH]; [reflexivity|]. cbn [app value_of]. destruct (same k a); [reflexivity|exact IH]. Qed.
Lemma value_none a h : Forall (fun g => same (fst g) a = false) h -> value_of a h = None.
Proof. induction 1 as [|[k v] h H _ IH]; [reflexivity|]. cbn [value_of fst] in *. now rewrite H. Qed.
Lemma ref_length h dat : fields_ok h -> const_ref (head_received h dat) CLN = length_text dat.
Proof.
  intros (_ & _ & K). rewrite ref_value. unfold head_received. destruct dat as [|c d]; rewrite value_app, value_none by (eapply Forall_impl; [|exact K]; intros g G; apply G); reflexivity.
Qed.
Lemma ref_type h dat : const_ref (head_received h dat) CTN = or_else [] (value_of CTN h).
Proof. rewrite ref_value. unfold head_received. destruct dat as [|c d]; rewrite value_app; destruct (value_of CTN h); reflexivity. Qed.
Lemma http_received h dat k v : fields_ok h -> In (k, v) h -> find (http_env (head_received h dat)) (HV k) = Some v.
Proof.
  intros (_ & N & K) I. rewrite Forall_forall in K. destruct (K _ I) as [K1 K2]. cbn [fst] in K1, K2.
  assert (L1 : lower CLN <> lower k). { intros E. symmetry in E. apply same_eq in E. congruence. }
  assert (L2 : lower (str "Transfer-Encoding") <> lower k). { intros E. symmetry in E. apply same_eq in E. congruence. }
  unfold head_received. destruct dat as [|c d]; (apply http_found; [exact N| |exact I]); repeat constructor; assumption.
Qed.
Definition seen (i : info) (m : list Z) (u : Uri_Model.comps) (h : header) (dat : list Z) (c : call) : Prop :=
  c_method c = m /\ c_head c = [(CTN, str "text/plain; charset=utf-8")] /\
  Forall (fun p => find (c_env c) (fst p) = Some (snd p))
    (variables m (Uri_Model.path u) (Uri_Model.query u) (or_else [] (value_of CTN h)) (length_text dat) (i_addr i) (show_int (i_port i)) (show_int (i_server_port i)) (i_version i)) /\
  forall k v, In (k, v) h -> find (c_env c) (str "HTTP_" ++ upper k) = Some v.
Definition received_env i m u h dat := environment i m u (head_received h dat).
Lemma env_seen i m u h dat env c : fields_ok h -> (forall k v, find (received_env i m u h dat) k = Some v -> find env k = Some v) -> seen i m u h dat (mkCall m env c plain_head).
Proof.
  intros Hf H. split; [reflexivity|]. split; [reflexivity|]. cbn [c_env]. split.
  - pose proof (env_vars i m u (head_received h dat)) as E. rewrite ref_type, ref_length in E by exact Hf. eapply Forall_impl; [|exact E]. intros p Hp. now apply H.
  - intros k v I. apply H. unfold received_env. change (str "HTTP_" ++ upper k) with (HV k). rewrite env_http. now apply http_received.
Qed.
Lemma env_get i m u h dat n v : find (received_env i m u h dat) n = Some v -> forall k, get_attr (touch (received_env i m u h dat) k) n = v.
Proof. intros H k. unfold get_attr. now rewrite (find_touch _ k n v H). Qed.
Section Prepare.
Context {S : Type} (next : S -> outcome (Z * S)) (i : info) (u : Uri_Model.comps) (h : header) (dat : list Z) (Hf : fields_ok h) (Hlen : Z.of_nat (length dat) < 2 ^ 63).
Notation vars := (env_vars i _ u (head_received h dat)).
Lemma var_of m n v : In (n, v) (variables m (Uri_Model.path u) (Uri_Model.query u) (or_else [] (value_of CTN h)) (length_text dat) (i_addr i) (show_int (i_port i)) (show_int (i_server_port i)) (i_version i)) ->
  find (received_env i m u h dat) n = Some v.
Proof.
  pose proof (env_vars i m u (head_received h dat)) as E. rewrite ref_type, ref_length in E by exact Hf. rewrite Forall_forall in E. exact (E (n, v)).
Qed.
Ltac var := apply var_of; unfold variables; cbn [In]; tauto.
Lemma method_var m : get_attr (received_env i m u h dat) (str "REQUEST_METHOD") = m.
Proof. unfold get_attr. rewrite (var_of m (str "REQUEST_METHOD") m) by (unfold variables; cbn [In]; tauto). reflexivity. Qed.
Lemma prepare_get max ps x : Cgi_Spec.form_text ps (Uri_Model.query u) -> exists c, prepare next max (received_env i (str "GET") u h dat) x = Ok (Run c, x) /\
  seen i (str "GET") u h dat c /\ c_data c = Cgi_Proof.add_all ps empty_cgi.
Proof.
  intros Hq. unfold prepare. rewrite method_var. rewrite Cgi_Proof.eqs_refl. rewrite (env_get i _ u h dat (str "QUERY_STRING") (Uri_Model.query u)) by var.
  unfold parse_input. rewrite (Cgi_Proof.parse_form ps _ Hq) by lia. cbn [obind]. eexists. split; [reflexivity|]. split; [|reflexivity].
  apply env_seen; [exact Hf|]. intros k v E. now do 2 apply find_touch.
Qed.
Lemma prepare_other max m x : m <> str "GET" -> m <> str "POST" -> exists c, prepare next max (received_env i m u h dat) x = Ok (Run c, x) /\ seen i m u h dat c /\ c_data c = empty_cgi.
Proof.
  intros H1 H2. unfold prepare. rewrite method_var. replace (eqs m (str "GET")) with false by (unfold eqs; destruct (list_eq_dec Z.eq_dec m (str "GET")); [contradiction|reflexivity]).
  replace (eqs m (str "POST")) with false by (unfold eqs; destruct (list_eq_dec Z.eq_dec m (str "POST")); [contradiction|reflexivity]).
  eexists. split; [reflexivity|]. split; [|reflexivity]. apply env_seen; [exact Hf|]. intros k v E. now apply find_touch.
Qed.
Lemma length_read : match Cast_Model.from_string (Cast_Model.TNum false 64) (length_text dat) with Ok n => n | _ => 0 end = Z.of_nat (length dat).
Proof.
  unfold length_text. destruct dat as [|c d]; [reflexivity|]. unfold Cast_Model.from_string. rewrite Cast_Proof.extract_show; [reflexivity|discriminate|]. cbn [Cast_Model.lo Cast_Model.hi]. lia.
Qed.
Notation P := (str "POST").
Lemma prepare_long max x : max < Z.of_nat (length dat) -> prepare next max (received_env i P u h dat) x =
  Ok (Refuse (str "Content length is too long: got " ++ show_int (Z.of_nat (length dat)) ++ str " bytes, expect less than " ++ show_int max ++ str " bytes"), x).
Proof.
  intros Hm. unfold prepare. rewrite method_var. change (eqs P (str "GET")) with false. cbv iota. rewrite Cgi_Proof.eqs_refl.
  rewrite (env_get i _ u h dat (str "CONTENT_LENGTH") (length_text dat)) by var. rewrite length_read. now replace (max <? Z.of_nat (length dat)) with true by lia.
Qed.
Lemma prepare_post max x x1 ps : Z.of_nat (length dat) <= max -> read_n next (length dat) x = Ok (dat, false, x1) ->
  ~ Cgi_Spec.contains (str "multipart/") (or_else [] (value_of CTN h)) -> Cgi_Spec.form_text ps dat ->
  exists c, prepare next max (received_env i P u h dat) x = Ok (Run c, x1) /\ seen i P u h dat c /\ c_data c = Cgi_Proof.add_all ps empty_cgi.
Proof.
  intros Hm Hr Hc Hp. unfold prepare. rewrite method_var. change (eqs P (str "GET")) with false. cbv iota. rewrite Cgi_Proof.eqs_refl.
  rewrite (env_get i _ u h dat (str "CONTENT_LENGTH") (length_text dat)) by var. rewrite length_read. replace (max <? Z.of_nat (length dat)) with false by lia.
  rewrite Nat2Z.id, Hr. cbn [obind]. unfold get_attr at 1. rewrite (find_touch _ _ _ (or_else [] (value_of CTN h))) by (apply find_touch; var).
  rewrite Cgi_Proof.find_sub_none by exact Hc. unfold parse_input. rewrite (Cgi_Proof.parse_form ps _ Hp) by lia. cbn [obind]. eexists. split; [reflexivity|]. split; [|reflexivity].
  apply env_seen; [exact Hf|]. intros k v E. now do 3 apply find_touch.
Qed.
Lemma prepare_multi max x x1 bd ps pre epi : Z.of_nat (length dat) <= max -> read_n next (length dat) x = Ok (dat, false, x1) ->
  value_of CTN h = Some (str "multipart/form-data; boundary=" ++ bd) -> ~ In 10 bd -> Cgi_Spec.preamble_ok bd pre -> Forall Cgi_Spec.part_ok ps ->
  dat = Cgi_Spec.lines pre ++ Cgi_Spec.multipart_text bd ps ++ epi ->
  exists c, prepare next max (received_env i P u h dat) x = Ok (Run c, x1) /\ seen i P u h dat c /\ c_data c = fold_left Cgi_Proof.step ps empty_cgi.
Proof.
  intros Hm Hr Hv Hb Hpre Hps Hd. unfold prepare. rewrite method_var. change (eqs P (str "GET")) with false. cbv iota. rewrite Cgi_Proof.eqs_refl.
  rewrite (env_get i _ u h dat (str "CONTENT_LENGTH") (length_text dat)) by var. rewrite length_read. replace (max <? Z.of_nat (length dat)) with false by lia.
  rewrite Nat2Z.id, Hr. cbn [obind]. unfold get_attr. rewrite (find_touch _ _ _ (or_else [] (value_of CTN h))) by (apply find_touch; var). rewrite Hv. cbn [or_else].
  change (find_sub (str "multipart/") (str "multipart/form-data; boundary=" ++ bd)) with (Some 0%nat). cbv iota.
  change (find_sub (str "boundary=") (str "multipart/form-data; boundary=" ++ bd)) with (Some 21%nat). cbv iota.
  change (substr (str "multipart/form-data; boundary=" ++ bd) (21 + 9) None) with bd. replace (parse_multipart_input dat bd empty_cgi) with (Ok (fold_left Cgi_Proof.step ps empty_cgi)) by (rewrite Hd; symmetry; now apply Cgi_Proof.multipart_all). cbn [obind].
  eexists. split; [reflexivity|]. split; [|reflexivity]. apply env_seen; [exact Hf|]. intros k v E. now do 3 apply find_touch.
Qed.
End Prepare.

(** * Serving a connection *)
Section Serve.
Context (rc sc : nat -> Z) (Hrc : forall i, 0 < rc i) (Hsc : forall i, 0 < sc i).
Definition calls (max : Z) (i : info) (x : st) (c : call) (x2 : st) : Prop := forall run, serve rc sc run max i x =
  (let* (out, hd) := run c in let* (code, reason, h, body) := gen_resp (output hd out) in send_response sc 1 1 code reason h body x2).
Context (max : Z) (i : info) (x : st) (t : list Z) (u : Uri_Model.comps) (ma mi : Z) (h : header) (dat s : list Z).
Context (Ha : alive x) (Ht : word_ok t) (Hma : int ma) (Hmi : int mi) (Hu : Uri_Model.uri t = Ok u) (Hf : fields_ok h) (Hlen : Z.of_nat (length dat) < 2 ^ 63).
Definition arrives (m : list Z) : Prop := word_ok m /\ (length (request_line m t ma mi) <= 4094)%nat /\ stream x = message (request_line m t ma mi) (with_length h dat) dat ++ s.
Lemma arrived m : arrives m -> exists x1, recv_request rc x = Ok (mkRec (m, u, (ma, mi)) (head_received h dat) (kind dat), x1) /\ alive x1 /\ stream x1 = dat ++ s /\ quiet x x1.
Proof.
  intros (Hm & Hl & Hs). destruct (with_length_ok h dat Hf Hlen) as [F N]. exact (request_q rc Hrc m t u ma mi _ _ _ dat s x Ha Hm Ht Hma Hmi Hl Hu F N (choose_ok h dat Hf Hlen) Hs).
Qed.
Lemma serve_kind m x1 run : recv_request rc x = Ok (mkRec (m, u, (ma, mi)) (head_received h dat) (kind dat), x1) ->
  serve rc sc run max i x = (let* (text, x2) := exec_on rc run (kind dat) max (received_env i m u h dat) x1 in
    let* (code, reason, h, body) := gen_resp text in send_response sc 1 1 code reason h body x2).
Proof. intros E. unfold serve. rewrite E. reflexivity. Qed.
(** a method without a body *)
Lemma calls_any m d : arrives m ->
  (forall (S : Type) (next : S -> outcome (Z * S)) y, exists c, prepare next max (received_env i m u h dat) y = Ok (Run c, y) /\ seen i m u h dat c /\ c_data c = d) ->
  exists c x2, calls max i x c x2 /\ alive x2 /\ quiet x x2 /\ seen i m u h dat c /\ c_data c = d.
Proof.
  intros Hm Hp. destruct (arrived m Hm) as (x1 & E1 & E2 & _ & E3). unfold kind in E1. destruct dat as [|z d0] eqn:Ed.
  - destruct (Hp _ (raw_step rc Next) (-1, x1)) as (c & P1 & P2 & P3). exists c, x1. split; [|auto]. intros run. rewrite <- Ed in *. rewrite (serve_kind m x1 run) by (rewrite E1, Ed; reflexivity).
    unfold kind. rewrite Ed. unfold exec_on, exec. rewrite Ed in P1. rewrite P1. cbn [obind]. destruct (run c) as [[out hd]| | |]; reflexivity.
  - destruct (Hp _ (sized_step rc Next) (sized_init (Z.of_nat (length (z :: d0))), x1)) as (c & P1 & P2 & P3). exists c, x1. split; [|auto]. intros run. rewrite <- Ed in *. rewrite (serve_kind m x1 run) by (rewrite E1, Ed; reflexivity).
    unfold kind. rewrite Ed. unfold exec_on, exec. rewrite Ed in P1. rewrite P1. cbn [obind]. destruct (run c) as [[out hd]| | |]; reflexivity.
Qed.
(** a form in the body *)
Lemma calls_body m d : arrives m ->
  (forall (S : Type) (next : S -> outcome (Z * S)) y y1, read_n next (length dat) y = Ok (dat, false, y1) ->
    exists c, prepare next max (received_env i m u h dat) y = Ok (Run c, y1) /\ seen i m u h dat c /\ c_data c = d) ->
  exists c x2, calls max i x c x2 /\ alive x2 /\ quiet x x2 /\ seen i m u h dat c /\ c_data c = d.
Proof.
  intros Hm Hp. destruct (arrived m Hm) as (x1 & E1 & E2 & E4 & E3). destruct (sized_read rc Hrc dat s x1 E2 E4) as (b & x2 & R1 & R2 & _ & R3). unfold kind in E1. destruct dat as [|z d0] eqn:Ed.
  - destruct (Hp _ (raw_step rc Next) (-1, x1) (-1, x1) eq_refl) as (c & P1 & P2 & P3). exists c, x1. split; [|auto]. intros run. rewrite <- Ed in *. rewrite (serve_kind m x1 run) by (rewrite E1, Ed; reflexivity).
    unfold kind. rewrite Ed. unfold exec_on, exec. rewrite Ed in P1. rewrite P1. cbn [obind]. destruct (run c) as [[out hd]| | |]; reflexivity.
  - destruct (Hp _ (sized_step rc Next) (sized_init (Z.of_nat (length (z :: d0))), x1) (b, x2) R1) as (c & P1 & P2 & P3). exists c, x2. split; [|split; [auto|split; [exact (quiet_trans x x1 x2 E3 R3)|auto]]]. intros run. rewrite <- Ed in *. rewrite (serve_kind m x1 run) by (rewrite E1, Ed; reflexivity).
    unfold kind. rewrite Ed. unfold exec_on, exec. rewrite Ed in P1. rewrite P1. cbn [obind]. destruct (run c) as [[out hd]| | |]; reflexivity.
Qed.
End Serve.

(** * Answering *)
Lemma no_length hd : Forall (fun g => same (fst g) CLN = false) hd -> has_key (page_fields hd) CLN = false.
Proof.
  intros H. apply has_key_none. unfold page_fields. apply Forall_app. split; [|repeat constructor].
  apply Forall_forall. intros g G. apply filter_In in G. rewrite Forall_forall in H. apply H, G.
Qed.
Lemma respond sc (Hsc : forall i, 0 < sc i) x x2 code reason hd out : conn (fst x) = true -> alive x2 -> quiet x x2 -> page_ok hd -> status_of hd code reason ->
  Forall (fun g => same (fst g) CLN = false) hd ->
  exists x', (let* (code, reason, h, body) := gen_resp (output hd out) in send_response sc 1 1 code reason h body x2) = Ok x' /\ wb (fst x') = [] /\
  kout (snd x') = kout (snd x) ++ wb (fst x) ++ message (status_line 1 1 code reason) (with_length (page_fields hd) out) out.
Proof.
  intros Hc Ha (Q1 & Q2 & Q3) Hp Hs Hn. rewrite (gen_ok hd out code reason Hp Hs). cbn [obind]. unfold send_response. rewrite status_line_text.
  destruct (send_message_live sc Hsc (status_line 1 1 code reason) (page_fields hd) out x2 (no_length hd Hn) (al_ok x2 Ha)) as (x' & E1 & _ & _ & E2 & E3 & _); [congruence|].
  exists x'. split; [exact E1|]. split; [exact E2|]. rewrite E3. unfold wout. rewrite Q1, Q2. now rewrite <- app_assoc.
Qed.
Definition refusal : header := [(CTN, str "text/plain; charset=utf-8"); (str "Status", str "500 Internal Server Error")].
Lemma text_token s : s <> [] -> forallb (fun c => (97 <=? c) && (c <=? 122) || (65 <=? c) && (c <=? 90) || (c =? 45)) s = true -> token s.
Proof.
  intros Hn Hf. split; [exact Hn|]. rewrite forallb_forall in Hf. apply Forall_forall. intros c Hc. specialize (Hf c Hc). unfold token_char.
  split; [lia|]. split; [|lia]. intros K. vm_compute in K. lia.
Qed.
Lemma text_field k c v : k <> [] -> forallb (fun c => (97 <=? c) && (c <=? 122) || (65 <=? c) && (c <=? 90) || (c =? 45)) k = true ->
  forallb (fun c => (32 <=? c) && (c <=? 126)) (c :: v) = true -> c <> 32 -> line_field (k, c :: v).
Proof.
  intros H1 H2 H3 H4. rewrite forallb_forall in H3. unfold line_field. cbn [fst snd]. split; [now apply text_token|]. split.
  - split; [apply Forall_forall; intros a Ka; specialize (H3 a Ka); unfold is_byte; lia|]. split; intros Ka; specialize (H3 _ Ka); discriminate H3.
  - intros a w E. injection E as <- <-. specialize (H3 c (or_introl eq_refl)). unfold blank. lia.
Qed.
Lemma refusal_ok : page_ok refusal /\ status_of refusal 500 (str "Internal Server Error") /\ Forall (fun g => same (fst g) CLN = false) refusal /\
  page_fields refusal = [(CTN, str "text/plain; charset=utf-8")].
Proof.
  split; [split|].
  - constructor; [|constructor; [|constructor]]; apply text_field; try discriminate; reflexivity.
  - repeat constructor; cbn; intuition discriminate.
  - split; [|split; [repeat constructor|reflexivity]]. split; [reflexivity|]. split; [unfold int; lia|]. split; [intros K; vm_compute in K; lia|]. change (~ blank 73). unfold blank. lia.
Qed.
Lemma encode_app a b : html_encode (a ++ b) = html_encode a ++ html_encode b.
Proof. induction a as [|c a IH]; [reflexivity|]. cbn [app html_encode]. now rewrite IH, app_assoc. Qed.
Lemma encode_show n : 0 <= n -> html_encode (show_int n) = show_int n.
Proof.
  intros Hn. unfold show_int. replace (n <? 0) with false by lia. pose proof (dec_text_digits n Hn) as D. induction (dec_text n) as [|c l IH]; [reflexivity|].
  cbn [html_encode]. rewrite IH by exact (Forall_inv_tail D). apply Forall_inv in D. unfold isdigit in D. unfold html_encode1.
  replace (c =? 38) with false by lia. replace (c =? 34) with false by lia. replace (c =? 39) with false by lia. replace (c =? 60) with false by lia. now replace (c =? 62) with false by lia.
Qed.
Lemma page_text msg : exists a b, pretty 0 (error_page msg) = a ++ html_encode msg ++ b.
Proof.
  unfold error_page. cbn [pretty flat_map]. rewrite app_nil_r. 
  repeat match goal with |- exists a b, ?c :: ?l = _ => 
    assert (K : exists a b, l = a ++ html_encode msg ++ b); [|destruct K as (a & b & K); exists (c :: a), b; rewrite K; reflexivity]
   | |- exists a b, html_encode msg ++ ?l = _ => now exists [], l
   | |- exists a b, ?c ++ ?l = _ => 
    match c with context [msg] => rewrite <- ?app_assoc; rewrite <- ?app_comm_cons | _ =>
    assert (K : exists a b, l = a ++ html_encode msg ++ b); [|destruct K as (a & b & K); exists (c ++ a), b; rewrite K; now rewrite <- app_assoc] end
  end.
Qed.
Lemma refuse_long rc sc (Hrc : forall i, 0 < rc i) (Hsc : forall i, 0 < sc i) run max i x t u ma mi h dat s : alive x -> conn (fst x) = true -> word_ok t -> int ma -> int mi -> Uri_Model.uri t = Ok u ->
  fields_ok h -> Z.of_nat (length dat) < 2 ^ 63 -> arrives x t ma mi h dat s (str "POST") -> 0 <= max < Z.of_nat (length dat) ->
  exists x' a b page, page = a ++ str "Content length is too long: got " ++ show_int (Z.of_nat (length dat)) ++ str " bytes, expect less than " ++ show_int max ++ str " bytes" ++ b /\
  serve rc sc run max i x = Ok x' /\ wb (fst x') = [] /\
  kout (snd x') = kout (snd x) ++ wb (fst x) ++ message (status_line 1 1 500 (str "Internal Server Error")) (with_length [(CTN, str "text/plain; charset=utf-8")] page) page.
Proof.
  intros Ha Hc Ht Hma Hmi Hu Hf Hlen Hm Hmax. destruct (arrived rc Hrc x t u ma mi h dat s Ha Ht Hma Hmi Hu Hf Hlen _ Hm) as (x1 & E1 & E2 & _ & E3).
  set (msg := str "Content length is too long: got " ++ show_int (Z.of_nat (length dat)) ++ str " bytes, expect less than " ++ show_int max ++ str " bytes").
  destruct (page_text msg) as (a & b & Hp). destruct refusal_ok as (R1 & R2 & R3 & R4).
  destruct (respond sc Hsc x x1 500 (str "Internal Server Error") refusal (pretty 0 (error_page msg)) Hc E2 E3 R1 R2 R3) as (x' & S1 & S2 & S3). rewrite R4 in S3.
  exists x', a, b, (pretty 0 (error_page msg)). split; [|split; [|split; [exact S2|exact S3]]].
  - rewrite Hp. f_equal. unfold msg. rewrite !encode_app, !encode_show by lia. rewrite <- !app_assoc. reflexivity.
  - rewrite (serve_kind rc sc max i x u ma mi h dat _ x1 run E1). rewrite <- S1. destruct dat as [|c d]; [cbn in Hmax; lia|]. unfold kind, exec_on, exec.
    rewrite (prepare_long (sized_step rc Next) i u h (c :: d) Hf Hlen max) by lia. reflexivity.
Qed.
