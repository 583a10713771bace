(** Numbers out of range, and several values from one stream. *)
From Verif Require Import Common CommonLemmas NumText_Model NumText_Proof Double_Model Double_Spec Double_Proof Utf8_Model Utf8_Spec Utf8_Proof
  Json_Model Json_Spec JsonParse_Proof JsonComplete_Proof JsonPrint_Proof JsonSafe_Proof.
Local Open Scope Z_scope.

Lemma strtoll_out t n : int_token t n -> ~ (- 2 ^ 63 <= n < 2 ^ 63) -> strtoll t = None.
Proof.
  intros [sg neg ip Hsg Hip] Hn. destruct (int_part_digits ip Hip) as (d & ds & -> & Hd & Hds).
  assert (HF : Forall (fun c => isdigit c = true) (d :: ds)) by (apply all_isdigit; constructor; auto).
  unfold strtoll.
  assert (E : match sg ++ d :: ds with 45 :: r => (true, r) | _ => (false, sg ++ d :: ds) end = (neg, d :: ds)).
  { destruct Hsg; cbn [app]; [|reflexivity]. apply no_sign. unfold digit in Hd. lia. }
  assert (E' : fst (spanb isdigit (d :: ds)) = d :: ds).
  { rewrite <- (app_nil_r (d :: ds)) at 1. rewrite spanb_app by (auto; intros; discriminate). reflexivity. }
  rewrite E, E'. rewrite num_dec in Hn. cbv zeta.
  destruct neg; replace (_ || _) with true by lia; reflexivity.
Qed.

Lemma number_rejected fbk sg neg ip ft fp et x w r : sign_part sg neg -> int_part ip -> frac_part ft fp -> exponent et x ->
  (forall st, finish (sg ++ ip ++ ft ++ et) (nonempty ft || nonempty et) st = JParse) ->
  ws w -> ends_value r -> (r = [] -> ~ bare_exponent (sg ++ ip ++ ft ++ et)) ->
  parse fbk (start (w ++ (sg ++ ip ++ ft ++ et) ++ r)) = JParse.
Proof.
  intros Hsg Hip Hft Het Hfin Hw Hr Hbare.
  destruct (number_head sg neg ip (ft ++ et) Hsg Hip) as (c & q & E & Hc).
  pose proof (number_headok dec0 (fun _ _ _ _ H _ => H) c Hc) as (Ha & Hsp & _).
  unfold parse, parse_stream, bind. rewrite E. cbn [app].
  destruct (ss_skip fbk c (q ++ r) w (start (w ++ c :: q ++ r)) Ha Hsp Hw ltac:(apply (Rem0 _ 256))) as (st & -> & H' & Ek).
  replace (at_end st && match cbuf st with None => true | _ => false end) with false
    by (inversion H' as [s' k' EE|c' e' s' k' He' EE]; subst; [reflexivity|cbn; now rewrite andb_false_r]).
  replace (2 * length (inp st) + 4)%nat with (S (2 * length (inp st) + 3)) by lia. rewrite parse_impl_S. unfold bind.
  destruct (ss_skip fbk c (q ++ r) [] st Ha Hsp ltac:(apply Forall_nil) H') as (st' & -> & H'' & Ek').
  rewrite (peek_ascii fbk _ _ _ H'' Ha).
  replace (c =? 123) with false by (unfold digit in Hc; lia). replace (c =? 91) with false by (unfold digit in Hc; lia).
  replace (isdigit c || (c =? 45)) with true by (unfold digit, isdigit in *; lia).
  destruct (parse_number_ok fbk sg neg ip ft fp et x (at1 c (q ++ r) (cap st')) r Hsg Hip Hft Het) as (st2 & H2 & C2 & E2).
  { rewrite E. now apply Rem1_ascii. }
  { assumption. }
  { intros Er (e' & c' & Ee'). subst et. apply (Hbare Er). exists (sg ++ ip ++ ft), e', c'. split; [now rewrite <- !app_assoc|].
    inversion Het; subst; auto. }
  rewrite E2, Hfin. reflexivity.
Qed.

Theorem int_out_of_range fbk t n w r : int_token t n -> ~ (- 2 ^ 63 <= n < 2 ^ 63) -> ws w -> ends_value r -> parse fbk (start (w ++ t ++ r)) = JParse.
Proof.
  intros H Hn Hw Hr. pose proof (strtoll_out _ _ H Hn) as HS. destruct H as [sg neg ip Hsg Hip].
  pose proof (number_rejected fbk sg neg ip [] [] [] 0 w r Hsg Hip fp_none ex_none) as G. rewrite !app_nil_r in G. apply G; auto.
  - intros st. unfold finish. cbn [nonempty orb]. now rewrite HS.
  - intros _ (p & e & c & E & He & _). apply (f_equal (fun l => nth 1 (rev l) 0)) in E. rewrite (rev_app_distr p) in E. cbn [rev app nth] in E.
    destruct (int_part_digits ip Hip) as (d & ds & -> & Hd & Hds).
    assert (HF : Forall (fun c => c = 45 \/ c = 0 \/ digit c) (0 :: rev (sg ++ d :: ds))).
    { constructor; [auto|]. apply Forall_rev, Forall_app. split; [destruct Hsg; repeat constructor|]. constructor; [auto|].
      eapply Forall_impl; [|exact Hds]. auto. }
    assert (HN : forall l i, Forall (fun c => c = 45 \/ c = 0 \/ digit c) (0 :: l) -> (nth i l 0 = 45 \/ nth i l 0 = 0 \/ digit (nth i l 0))).
    { intros l i H. inversion H as [|? ? _ Hl]; subst. destruct (nth_in_or_default i l 0) as [HI| ->]; [|auto]. rewrite Forall_forall in Hl. now apply Hl. }
    specialize (HN _ 1%nat HF). cbn [app] in E. rewrite E in HN. unfold digit in HN. lia.
Qed.
Theorem float_out_of_range fbk t neg D k w r : float_token t neg D k -> (forall d, ~ dec_value neg D k d) -> ws w -> ends_value r ->
  (r = [] -> ~ bare_exponent t) -> parse fbk (start (w ++ t ++ r)) = JParse.
Proof.
  intros H Hn Hw Hr Hb. destruct H as [sg neg ip ft fp et x Hsg Hip Hft Het Hne].
  apply (number_rejected fbk sg neg ip ft fp et x w r); auto.
  intros st. unfold finish. replace (nonempty ft || nonempty et) with true by (destruct ft, et; cbn; try reflexivity; destruct Hne; congruence).
  rewrite (strtod_ok sg neg ip ft fp et x) by assumption.
  destruct (dec_double neg (num (ip ++ fp)) (x - Z.of_nat (length fp))) as [d|] eqn:E; [|reflexivity].
  apply dec_double_spec in E; [destruct (Hn d E)|].
  destruct (int_part_digits ip Hip) as (d0 & ds & -> & Hd & Hds).
  rewrite num_dec. assert (HF : Forall (fun c => isdigit c = true) ((d0 :: ds) ++ fp)).
  { apply Forall_app. split; [apply all_isdigit; constructor; auto|]. destruct Hft as [|c q Hc Hq]; [constructor|apply all_isdigit; constructor; auto]. }
  apply dec_val_bound in HF. lia.
Qed.

(** ** Several values from one stream, by one parser *)
Fixpoint parse_many (fbk : list Z -> Z) (n : nat) : P (list json) :=
  match n with O => ret [] | S n' => v <- parse fbk ;; vs <- parse_many fbk n' ;; ret (v :: vs) end.

Lemma many_ok fbk (Dec : bool -> Z -> Z -> double -> Prop) (HDec : forall neg D k d, Dec neg D k d -> 0 <= D -> dec_double neg D k = DOk d) B s vs :
  2 * (B + 8) < 2 ^ 31 -> Z.of_nat (length s) <= B -> value_stream Dec s vs ->
  forall st, Rem st s -> cap_ok B (cap st) -> exists st', parse_many fbk (length vs) st = JOk (vs, st').
Proof.
  intros HB HL H. revert HL. induction H as [w Hw|w t v Hw Hv Hb|w t v c r vs Hw Hv Hc Hr IH]; intros HL st HR Hk.
  - exists st. reflexivity.
  - rewrite app_length in HL.
    destruct (parse_value fbk Dec HDec B t v w st []) as (st' & E & _ & _); auto; [lia|rewrite app_nil_r; assumption|exact I|].
    exists st'. cbn [length parse_many]. unfold bind. now rewrite E.
  - rewrite !app_length in HL. cbn [length] in HL.
    destruct (parse_value fbk Dec HDec B t v w st (c :: r)) as (st' & E & HR' & Hk'); auto; [lia| |discriminate|].
    + cbn. unfold digit. destruct Hc as [->|[->|[->| ->]]]; lia.
    + destruct (IH ltac:(cbn [length]; lia) st' HR' Hk') as (st2 & E2). exists st2. cbn [length parse_many]. unfold bind. now rewrite E, E2.
Qed.

Lemma text_nil : text [].
Proof. exists []. split; [constructor|intros []]. Qed.
