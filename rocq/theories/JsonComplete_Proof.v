(** The parser accepts every RFC 8259 text and returns what it denotes: numbers and values. *)
From Verif Require Import Common CommonLemmas NumText_Model NumText_Proof Double_Model Utf8_Model Utf8_Spec Utf8_Proof Json_Model Json_Spec JsonParse_Proof.
Local Open Scope Z_scope.

Ltac Zify.zify_post_hook ::= Z.div_mod_to_equations.

(** ** Number texts *)
Lemma num_acc ds a : fold_left (fun a c => 10 * a + (c - 48)) ds a = fold_left (fun a d => a * 10 + d) (map (fun c => c - 48) ds) a.
Proof.
  revert a. induction ds as [|c ds IH]; intros a; [reflexivity|]. cbn [fold_left map]. rewrite IH. f_equal. lia.
Qed.
Lemma num_dec ds : num ds = dec_val ds.
Proof. apply num_acc. Qed.

Lemma no_sign {A} (d : Z) (ds : list Z) (f : list Z -> A) (y : A) : d <> 45 ->
  match d :: ds with 45 :: r => f r | _ => y end = y.
Proof.
  intros Hd. destruct d as [|p|p]; try reflexivity.
  do 6 (destruct p as [p|p|]; try reflexivity). congruence.
Qed.
Lemma no_sign2 {A} (d : Z) (a b y : A) : d <> 45 -> d <> 43 ->
  match d with 45 => a | 43 => b | _ => y end = y.
Proof.
  intros Hd Hd'. destruct d as [|p|p]; try reflexivity.
  do 6 (destruct p as [p|p|]; try reflexivity); congruence.
Qed.
Lemma no_point {A} (s : list Z) (f : list Z -> A) (y : A) : (forall c r, s = c :: r -> c <> 46) ->
  match s with 46 :: r => f r | _ => y end = y.
Proof.
  intros Hd. destruct s as [|d ds]; [reflexivity|]. specialize (Hd d ds eq_refl). destruct d as [|p|p]; try reflexivity.
  do 6 (destruct p as [p|p|]; try reflexivity). congruence.
Qed.

Lemma all_isdigit ds : Forall digit ds -> Forall (fun c => isdigit c = true) ds.
Proof. apply Forall_impl. intros c H. now apply digit_isdigit. Qed.

Lemma int_part_digits ip : int_part ip -> exists d ds, ip = d :: ds /\ digit d /\ Forall digit ds.
Proof.
  intros [|c q Hc Hq]; [exists 48, []|exists c, q]; repeat split; unfold digit; try lia; auto.
Qed.

Lemma strtoll_ok t n : int_token t n -> - 2 ^ 63 <= n < 2 ^ 63 -> strtoll t = Some n.
Proof.
  intros [sg neg ip Hsg Hip] Hn. destruct (int_part_digits ip Hip) as (d & ds & -> & Hd & Hds).
  assert (HF : Forall (fun c => isdigit c = true) (d :: ds)) by (apply all_isdigit; constructor; auto).
  unfold strtoll.
  assert (E : match sg ++ d :: ds with 45 :: r => (true, r) | _ => (false, sg ++ d :: ds) end = (neg, d :: ds)).
  { destruct Hsg; cbn [app]; [|reflexivity]. apply no_sign. unfold digit in Hd. lia. }
  assert (E' : fst (spanb isdigit (d :: ds)) = d :: ds).
  { rewrite <- (app_nil_r (d :: ds)) at 1. rewrite spanb_app by (auto; intros; discriminate). reflexivity. }
  rewrite E, E'. rewrite num_dec in Hn |- *. cbv zeta.
  destruct neg.
  - replace (_ || _) with false by lia. reflexivity.
  - replace (_ || _) with false by lia. reflexivity.
Qed.

Lemma exp_part_ok et x : exponent et x -> exp_part et = x.
Proof.
  assert (S : forall ds, Forall digit ds -> fst (spanb isdigit ds) = ds).
  { intros ds Hds. rewrite <- (app_nil_r ds) at 1. rewrite spanb_app; [reflexivity|now apply all_isdigit|intros; discriminate]. }
  intros [|e c q Ee Hc Hq|e c q Ee Hc Hq|e c q Ee Hc Hq]; [reflexivity| | |]; unfold exp_part;
    replace ((e =? 101) || (e =? 69)) with true by lia.
  - etransitivity; [apply no_sign2; unfold digit in Hc; lia|]. rewrite S by (constructor; auto). symmetry; apply num_dec.
  - rewrite S by (constructor; auto). symmetry; apply num_dec.
  - rewrite S by (constructor; auto). now rewrite num_dec.
Qed.

Lemma exponent_head et x c r : exponent et x -> et = c :: r -> c = 101 \/ c = 69.
Proof. intros H E. destruct H; try discriminate; injection E as <- _; auto. Qed.

Lemma strtod_ok sg neg ip ft fp et x : sign_part sg neg -> int_part ip -> frac_part ft fp -> exponent et x ->
  strtod (sg ++ ip ++ ft ++ et) = dec_double neg (num (ip ++ fp)) (x - Z.of_nat (length fp)).
Proof.
  intros Hsg Hip Hft Het. destruct (int_part_digits ip Hip) as (d & ds & -> & Hd & Hds).
  unfold strtod.
  assert (E : match sg ++ (d :: ds) ++ ft ++ et with 45 :: r => (true, r) | _ => (false, sg ++ (d :: ds) ++ ft ++ et) end
              = (neg, (d :: ds) ++ ft ++ et)).
  { destruct Hsg; cbn [app]; [|reflexivity]. apply no_sign. unfold digit in Hd. lia. }
  rewrite E. rewrite spanb_app.
  2: { apply all_isdigit; constructor; auto. }
  2: { intros c r Ec. destruct Hft as [|c' q Hc Hq]; cbn [app] in Ec.
       - pose proof (exponent_head _ _ _ _ Het Ec). unfold isdigit. lia.
       - injection Ec as <- _. reflexivity. }
  assert (E2 : match ft ++ et with 46 :: r => spanb isdigit r | _ => ([], ft ++ et) end = (fp, et)).
  { destruct Hft as [|c' q Hc Hq]; cbn [app].
    - apply no_point. intros c r Ec. pose proof (exponent_head _ _ _ _ Het Ec). lia.
    - change (c' :: q ++ et) with ((c' :: q) ++ et). apply spanb_app; [apply all_isdigit; constructor; auto|].
      intros c r Ec. pose proof (exponent_head _ _ _ _ Het Ec). unfold isdigit. lia. }
  rewrite E2. cbn [app]. rewrite (exp_part_ok _ _ Het), num_dec. reflexivity.
Qed.

Lemma ascii_forallb s : forallb (fun c => (0 <=? c) && (c <? 128)) s = true -> Forall (fun c => 0 <= c < 128) s.
Proof. intros H. apply Forall_forall. intros c Hc. rewrite forallb_forall in H. specialize (H c Hc). lia. Qed.

(** ** The recursive functions, one step *)
Lemma parse_impl_S fbk f : parse_impl fbk (S f) =
  (ss fbk ;;; c <- peek fbk ;;
   if c =? 123 then smatch fbk 123 ;;; es <- obj_loop fbk f true ;; ret (EObjS :: es ++ [EObjE])
   else if c =? 91 then smatch fbk 91 ;;; es <- arr_loop fbk f true ;; ret (EArrS :: es ++ [EArrE])
   else if isdigit c || (c =? 45) then parse_number fbk
   else if c =? 34 then s <- parse_string_prim fbk ;; ret [EStr s]
   else if c =? 102 then match_all fbk (str "false") ;;; ret [EBool false]
   else if c =? 110 then match_all fbk (str "null") ;;; ret [ENull]
   else if c =? 116 then match_all fbk (str "true") ;;; ret [EBool true]
   else fail).
Proof. reflexivity. Qed.
Lemma obj_loop_S fbk f first : obj_loop fbk (S f) first =
  (c <- speek fbk ;;
   if c =? 125 then smatch fbk 125 ;;; ret []
   else (if first then ret tt else smatch fbk 44) ;;;
        ss fbk ;;; k <- parse_string_prim fbk ;; smatch fbk 58 ;;;
        es <- parse_impl fbk f ;; rest <- obj_loop fbk f false ;; ret (EKey k :: es ++ rest)).
Proof. reflexivity. Qed.
Lemma arr_loop_S fbk f first : arr_loop fbk (S f) first =
  (c <- speek fbk ;;
   if c =? 93 then smatch fbk 93 ;;; ret []
   else (if first then ret tt else smatch fbk 44) ;;;
        es <- parse_impl fbk f ;; rest <- arr_loop fbk f false ;; ret (es ++ rest)).
Proof. reflexivity. Qed.

(** ** First characters *)
Section V.
  Context (fbk : list Z -> Z) (Dec : bool -> Z -> Z -> double -> Prop).
  Context (HDec : forall neg D k d, Dec neg D k d -> 0 <= D -> dec_double neg D k = DOk d).

  Definition headok (c : Z) : Prop := 0 <= c < 128 /\ jspace c = false /\ c <> 93 /\ c <> 125 /\ c <> 44.

  Lemma number_head sg neg ip r : sign_part sg neg -> int_part ip ->
    exists c q, sg ++ ip ++ r = c :: q /\ (digit c \/ c = 45).
  Proof.
    intros Hsg Hip. destruct (int_part_digits ip Hip) as (d & ds & -> & Hd & Hds).
    destruct Hsg; cbn [app]; eauto.
  Qed.

  Lemma number_headok c : digit c \/ c = 45 -> headok c.
  Proof. unfold digit, headok, jspace. lia. Qed.

  Lemma jval_head t v : jval Dec t v -> exists c q, t = c :: q /\ headok c.
  Proof.
    intros H. destruct H as [| | |t n Ht Hn|t neg D k d Ht Hd|t s Ht|w Hw|t l Ht|w Hw|t kvs Ht].
    1: exists 110. 2: exists 116. 3: exists 102.
    1-3: eexists; split; [reflexivity|]; unfold headok, jspace; lia.
    - destruct Ht as [sg neg ip Hsg Hip]. destruct (number_head sg neg ip [] Hsg Hip) as (c & q & E & Hc).
      rewrite app_nil_r in E. exists c, q. split; [exact E|]. now apply number_headok.
    - destruct Ht as [sg neg ip ft fp et x Hsg Hip _ _ _]. destruct (number_head sg neg ip (ft ++ et) Hsg Hip) as (c & q & E & Hc).
      exists c, q. split; [exact E|]. now apply number_headok.
    - destruct Ht as [t s Ht]. exists 34, (t ++ [34]). split; [reflexivity|]. unfold headok, jspace; lia.
    - exists 91; eexists; split; [reflexivity|]. unfold headok, jspace; lia.
    - exists 91; eexists; split; [reflexivity|]. unfold headok, jspace; lia.
    - exists 123; eexists; split; [reflexivity|]. unfold headok, jspace; lia.
    - exists 123; eexists; split; [reflexivity|]. unfold headok, jspace; lia.
  Qed.

  (** ** The builder *)
  Definition builds (es : list ev) (v : json) : Prop :=
    forall S K I, bsteps (mkB S K I) es = Ok (mkB (S ++ [v]) K I).
  Definition builds_list (es : list ev) (l : list json) : Prop :=
    forall S K I, bsteps (mkB S K I) es = Ok (mkB (S ++ l) K I).
  Definition builds_mem (es : list ev) (kvs : list (list Z * json)) : Prop :=
    forall S K I, bsteps (mkB S K I) es = Ok (mkB (S ++ map snd kvs) (K ++ map fst kvs) I).

  Lemma bsteps_app es1 es2 b : bsteps b (es1 ++ es2) = let* b' := bsteps b es1 in bsteps b' es2.
  Proof.
    revert b. induction es1 as [|e es1 IH]; intros b; [reflexivity|]. cbn [app bsteps].
    destruct (bstep b e); cbn; auto.
  Qed.

  Lemma builds_nil : builds_list [] [].
  Proof. intros S K I. now rewrite app_nil_r. Qed.
  Lemma builds_cons es v es' l : builds es v -> builds_list es' l -> builds_list (es ++ es') (v :: l).
  Proof. intros H H' S K I. rewrite bsteps_app, H. cbn. rewrite H', <- app_assoc. reflexivity. Qed.
  Lemma builds_mem_nil : builds_mem [] [].
  Proof. intros S K I. cbn. now rewrite !app_nil_r. Qed.
  Lemma builds_mem_cons k es v es' l : builds es v -> builds_mem es' l -> builds_mem (EKey k :: es ++ es') ((k, v) :: l).
  Proof.
    intros H H' S K I. cbn [bsteps bstep stk keys ixs obind]. rewrite bsteps_app, H. cbn [obind]. rewrite H'. cbn [map fst snd].
    rewrite <- !app_assoc. reflexivity.
  Qed.
  Lemma builds_arr es l : builds_list es l -> builds (EArrS :: es ++ [EArrE]) (JArr l).
  Proof.
    intros H S K I. cbn [bsteps bstep stk keys ixs obind]. rewrite bsteps_app, H. cbn [obind bsteps bstep stk keys ixs].
    replace (length (S ++ l) <? length S)%nat with false by (symmetry; apply Nat.ltb_ge; rewrite app_length; lia).
    cbn [obind]. rewrite firstn_app, firstn_all, Nat.sub_diag, skipn_app, skipn_all, Nat.sub_diag. cbn. now rewrite app_nil_r.
  Qed.

  Lemma keyeqb_dec (a b : list Z) : keyeqb a b = true <-> a = b.
  Proof. unfold keyeqb. destruct (list_eq_dec Z.eq_dec a b); split; congruence. Qed.

  Lemma obj_add_assign m k v : obj_add m k v = assign m k v.
  Proof.
    induction m as [|[k' v'] m IH]; [reflexivity|]. cbn [obj_add assign]. unfold keyeqb.
    destruct (list_eq_dec Z.eq_dec k k'); [reflexivity|]. now rewrite IH.
  Qed.
  Lemma add_all_object_of m : add_all m = object_of m.
  Proof.
    unfold add_all, object_of. generalize (@nil (list Z * json)) as acc. induction m as [|[k v] m IH]; intros acc; [reflexivity|].
    cbn [fold_left fst snd]. rewrite obj_add_assign. apply IH.
  Qed.
  Lemma combine_split (kvs : list (list Z * json)) : combine (map fst kvs) (map snd kvs) = kvs.
  Proof. induction kvs as [|[k v] l IH]; [reflexivity|]. cbn. now rewrite IH. Qed.

  Lemma builds_obj es kvs : builds_mem es kvs -> builds (EObjS :: es ++ [EObjE]) (JObj (object_of kvs)).
  Proof.
    intros H S K I. cbn [bsteps bstep stk keys ixs obind]. rewrite bsteps_app, H. cbn [obind bsteps bstep stk keys ixs].
    replace (length (S ++ map snd kvs) - length S)%nat with (length kvs) by (rewrite app_length, map_length; lia).
    replace (length (K ++ map fst kvs) - length kvs)%nat with (length K) by (rewrite app_length, map_length; lia).
    replace (_ || _)%nat with false
      by (symmetry; apply orb_false_iff; split; apply Nat.ltb_ge; rewrite app_length, map_length; lia).
    cbn [obind]. rewrite !firstn_app, !firstn_all, !Nat.sub_diag, !skipn_app, !skipn_all, !Nat.sub_diag. cbn [firstn skipn app].
    rewrite !app_nil_r, combine_split, add_all_object_of. reflexivity.
  Qed.

  (** ** Values *)
  Scheme jval_mut := Minimality for jval Sort Prop
    with jelems_mut := Minimality for jelems Sort Prop
    with jmembers_mut := Minimality for jmembers Sort Prop.
  Combined Scheme jtext_mut from jval_mut, jelems_mut, jmembers_mut.

  Context (B : Z) (HB : 2 * (B + 8) < 2 ^ 31).

  Definition goodv (t : list Z) (v : json) : Prop :=
    forall f st w r, ws w -> Rem st (w ++ t ++ r) -> ends_value r -> (r = [] -> ~ bare_exponent t) ->
      cap_ok B (cap st) -> Z.of_nat (length t) <= B -> (2 * length t <= f)%nat ->
      exists es st', parse_impl fbk f st = JOk (es, st') /\ Rem st' r /\ cap_ok B (cap st') /\ builds es v.
  (** Inside a list: [pre] is what stands before the element. *)
  Definition prefix_ok (first : bool) (pre : list Z) : Prop :=
    if first then pre = [] else exists w, pre = w ++ [44] /\ ws w.
  Definition goode (t : list Z) (l : list json) : Prop :=
    forall first f st pre r, prefix_ok first pre -> Rem st (pre ++ t ++ [93] ++ r) ->
      cap_ok B (cap st) -> Z.of_nat (length t) <= B -> (2 * length t + 1 <= f)%nat ->
      exists es k', arr_loop fbk f first st = JOk (es, at0 r k') /\ cap_ok B k' /\ builds_list es l.
  Definition goodm (t : list Z) (kvs : list (list Z * json)) : Prop :=
    forall first f st pre r, prefix_ok first pre -> Rem st (pre ++ t ++ [125] ++ r) ->
      cap_ok B (cap st) -> Z.of_nat (length t) <= B -> (2 * length t + 1 <= f)%nat ->
      exists es k', obj_loop fbk f first st = JOk (es, at0 r k') /\ cap_ok B k' /\ builds_mem es kvs.

  Lemma ws_ends w c r : ws w -> c = 44 \/ c = 93 \/ c = 125 -> ends_value (w ++ c :: r).
  Proof.
    intros Hw Hc. destruct Hw as [|x w Hx Hw]; cbn [app ends_value]; unfold digit; lia.
  Qed.

  Lemma arr_end w f st r first : ws w -> Rem st (w ++ 93 :: r) ->
    arr_loop fbk (S f) first st = JOk ([], at0 r (cap st)).
  Proof.
    intros Hw H. rewrite arr_loop_S. unfold bind. rewrite (speek_skip fbk 93 r w st ltac:(lia) eq_refl Hw H). cbn [Z.eqb Pos.eqb].
    rewrite (smatch_skip fbk 93 r [] _ ltac:(lia) eq_refl ltac:(constructor) (Rem1_ascii 93 r _ ltac:(lia))). reflexivity.
  Qed.
  Lemma obj_end w f st r first : ws w -> Rem st (w ++ 125 :: r) ->
    obj_loop fbk (S f) first st = JOk ([], at0 r (cap st)).
  Proof.
    intros Hw H. rewrite obj_loop_S. unfold bind. rewrite (speek_skip fbk 125 r w st ltac:(lia) eq_refl Hw H). cbn [Z.eqb Pos.eqb].
    rewrite (smatch_skip fbk 125 r [] _ ltac:(lia) eq_refl ltac:(constructor) (Rem1_ascii 125 r _ ltac:(lia))). reflexivity.
  Qed.

  (** The common start of one step of the list loops: look at the first character, take the comma. *)
  Lemma loop_start first pre w1 c s st : prefix_ok first pre -> ws w1 -> headok c -> Rem st (pre ++ w1 ++ c :: s) ->
    exists c0 st0 st1 w', speek fbk st = JOk (c0, st0) /\ c0 <> 93 /\ c0 <> 125 /\
      (if first then ret tt else smatch fbk 44) st0 = JOk (tt, st1) /\ cap st1 = cap st /\ ws w' /\ Rem st1 (w' ++ c :: s).
  Proof.
    intros Hp Hw (Hc & Hs & H93 & H125 & H44) H. destruct first; cbn [prefix_ok] in Hp.
    - subst pre. cbn [app] in H. exists c, (at1 c s (cap st)), (at1 c s (cap st)), [].
      split; [exact (speek_skip fbk c s w1 st Hc Hs Hw H)|]. repeat split; auto; [constructor|]. now apply Rem1_ascii.
    - destruct Hp as (w & -> & Hww). rewrite <- app_assoc in H. cbn [app] in H.
      exists 44, (at1 44 (w1 ++ c :: s) (cap st)), (at0 (w1 ++ c :: s) (cap st)), w1.
      split; [exact (speek_skip fbk 44 _ w st ltac:(lia) eq_refl Hww H)|]. repeat split; auto; try lia; [|constructor].
      exact (smatch_skip fbk 44 _ [] _ ltac:(lia) eq_refl ltac:(constructor) (Rem1_ascii 44 _ _ ltac:(lia))).
  Qed.

  Lemma jtext_ok : (forall t v, jval Dec t v -> goodv t v) /\ (forall t l, jelems Dec t l -> goode t l) /\
    (forall t kvs, jmembers Dec t kvs -> goodm t kvs).
  Proof.
    assert (NUM : forall sg neg ip ft fp et x v e, sign_part sg neg -> int_part ip -> frac_part ft fp -> exponent et x ->
      (forall st, finish (sg ++ ip ++ ft ++ et) (nonempty ft || nonempty et) st = JOk ([e], st)) -> builds [e] v ->
      goodv (sg ++ ip ++ ft ++ et) v).
    { intros sg neg ip ft fp et x v e Hsg Hip Hft Het Hfin Hb f st w r Hw HR Hr Hbare Hk Hl Hf.
      destruct (number_head sg neg ip (ft ++ et) Hsg Hip) as (c & q & E & Hc).
      destruct f as [|f]; [rewrite E in Hf; cbn in Hf; lia|]. rewrite parse_impl_S. unfold bind.
      pose proof (number_headok c Hc) as (Ha & Hsp & _).
      rewrite E in HR. cbn [app] in HR. destruct (ss_skip fbk c (q ++ r) w st Ha Hsp Hw HR) as (st' & -> & H' & Ek).
      rewrite (peek_ascii fbk _ _ _ H' Ha).
      replace (c =? 123) with false by (unfold digit in Hc; lia). replace (c =? 91) with false by (unfold digit in Hc; lia).
      replace (isdigit c || (c =? 45)) with true by (unfold digit, isdigit in *; lia).
      destruct (parse_number_ok fbk sg neg ip ft fp et x (at1 c (q ++ r) (cap st')) r Hsg Hip Hft Het) as (st2 & H2 & C2 & E2).
      { rewrite E. now apply Rem1_ascii. }
      { assumption. }
      { intros Er (e' & c' & Ee'). subst et. apply (Hbare Er). exists (sg ++ ip ++ ft), e', c'. split; [now rewrite <- !app_assoc|].
        inversion Het; subst; auto. }
      rewrite E2, Hfin. exists [e], st2. split; [reflexivity|]. split; [assumption|]. split; [rewrite C2; cbn; now rewrite Ek|assumption]. }
    apply (jtext_mut Dec goodv goode goodm).
    - (* null *) intros f st w r Hw HR Hr _ Hk Hl Hf. destruct f as [|f]; [cbn in Hf; lia|]. rewrite parse_impl_S. unfold bind.
      cbn [str app] in HR. destruct (ss_skip fbk 110 _ w st ltac:(lia) eq_refl Hw HR) as (st' & -> & H' & Ek).
      rewrite (peek_ascii fbk _ _ _ H' ltac:(lia)). cbn [isdigit Z.eqb Pos.eqb Z.leb Z.compare Pos.compare Pos.compare_cont andb orb].
      rewrite (match_all_ascii fbk (str "null") (ascii_forallb (str "null") eq_refl) _ r (Rem1_ascii 110 _ _ ltac:(lia)) ltac:(discriminate)).
      exists [ENull], (at0 r (cap st')). split; [reflexivity|]. split; [constructor|]. split; [cbn; now rewrite Ek|]. intros S K I. reflexivity.
    - (* true *) intros f st w r Hw HR Hr _ Hk Hl Hf. destruct f as [|f]; [cbn in Hf; lia|]. rewrite parse_impl_S. unfold bind.
      cbn [str app] in HR. destruct (ss_skip fbk 116 _ w st ltac:(lia) eq_refl Hw HR) as (st' & -> & H' & Ek).
      rewrite (peek_ascii fbk _ _ _ H' ltac:(lia)). cbn [isdigit Z.eqb Pos.eqb Z.leb Z.compare Pos.compare Pos.compare_cont andb orb].
      rewrite (match_all_ascii fbk (str "true") (ascii_forallb (str "true") eq_refl) _ r (Rem1_ascii 116 _ _ ltac:(lia)) ltac:(discriminate)).
      exists [EBool true], (at0 r (cap st')). split; [reflexivity|]. split; [constructor|]. split; [cbn; now rewrite Ek|]. intros S K I. reflexivity.
    - (* false *) intros f st w r Hw HR Hr _ Hk Hl Hf. destruct f as [|f]; [cbn in Hf; lia|]. rewrite parse_impl_S. unfold bind.
      cbn [str app] in HR. destruct (ss_skip fbk 102 _ w st ltac:(lia) eq_refl Hw HR) as (st' & -> & H' & Ek).
      rewrite (peek_ascii fbk _ _ _ H' ltac:(lia)). cbn [isdigit Z.eqb Pos.eqb Z.leb Z.compare Pos.compare Pos.compare_cont andb orb].
      rewrite (match_all_ascii fbk (str "false") (ascii_forallb (str "false") eq_refl) _ r (Rem1_ascii 102 _ _ ltac:(lia)) ltac:(discriminate)).
      exists [EBool false], (at0 r (cap st')). split; [reflexivity|]. split; [constructor|]. split; [cbn; now rewrite Ek|]. intros S K I. reflexivity.
    - (* integer *) intros t n Ht Hn. pose proof (strtoll_ok t n Ht Hn) as Hv. destruct Ht as [sg neg ip Hsg Hip].
      replace (sg ++ ip) with (sg ++ ip ++ [] ++ []) by (cbn [app]; now rewrite app_nil_r).
      apply (NUM sg neg ip [] [] [] 0 _ (EInt (if neg then - num ip else num ip)) Hsg Hip fp_none ex_none).
      + intros st. cbn [nonempty orb app]. rewrite app_nil_r. unfold finish. now rewrite Hv.
      + intros S K I. reflexivity.
    - (* float *) intros t neg D k d Ht Hd. destruct Ht as [sg neg ip ft fp et x Hsg Hip Hft Het Hne].
      apply (NUM sg neg ip ft fp et x _ (ENum d) Hsg Hip Hft Het).
      + intros st. replace (nonempty ft || nonempty et) with true
          by (destruct ft; destruct et; try reflexivity; destruct Hne; congruence).
        unfold finish. rewrite (strtod_ok sg neg ip ft fp et x Hsg Hip Hft Het).
        rewrite (HDec _ _ _ _ Hd); [reflexivity|]. rewrite num_dec. apply dec_val_bound.
        apply Forall_app. split.
        * destruct (int_part_digits ip Hip) as (a & q & -> & Ha & Hq). apply all_isdigit; constructor; auto.
        * destruct Hft; [constructor|]. apply all_isdigit; constructor; auto.
      + intros S K I. reflexivity.
    - (* string *) intros t s Ht f st w r Hw HR Hr _ Hk Hl Hf.
      destruct f as [|f]; [destruct Ht; cbn in Hf; lia|]. rewrite parse_impl_S. unfold bind.
      assert (Ht' : exists q, t = 34 :: q) by (destruct Ht; eexists; reflexivity). destruct Ht' as (q & Eq).
      rewrite Eq in HR. cbn [app] in HR.
      destruct (ss_skip fbk 34 _ w st ltac:(lia) eq_refl Hw HR) as (st' & -> & H' & Ek).
      rewrite (peek_ascii fbk _ _ _ H' ltac:(lia)). cbn [isdigit Z.eqb Pos.eqb Z.leb Z.compare Pos.compare Pos.compare_cont andb orb].
      destruct (parse_string_ok fbk B t s Ht HB (at1 34 (q ++ r) (cap st')) r) as (k' & E & Hk').
      { rewrite Eq. apply Rem1_ascii. lia. } { cbn. now rewrite Ek. } { assumption. }
      rewrite E. exists [EStr s], (at0 r k'). split; [reflexivity|]. split; [constructor|]. split; [assumption|]. intros S K I. reflexivity.
    - (* [] *) intros w0 Hw0 f st w r Hw HR Hr _ Hk Hl Hf. destruct f as [|f]; [cbn in Hf; lia|]. rewrite parse_impl_S. unfold bind.
      rewrite <- !app_assoc in HR. cbn [app] in HR.
      destruct (ss_skip fbk 91 _ w st ltac:(lia) eq_refl Hw HR) as (st' & -> & H' & Ek).
      rewrite (peek_ascii fbk _ _ _ H' ltac:(lia)). cbn [isdigit Z.eqb Pos.eqb Z.leb Z.compare Pos.compare Pos.compare_cont andb orb].
      rewrite (smatch_skip fbk 91 _ [] _ ltac:(lia) eq_refl ltac:(constructor) (Rem1_ascii 91 _ _ ltac:(lia))).
      destruct f as [|f]; [cbn in Hf; lia|]. rewrite (arr_end w0 f _ r true Hw0 (Rem0 _ _)).
      eexists. exists (at0 r (cap st')). split; [reflexivity|]. split; [constructor|]. split; [cbn; now rewrite Ek|].
      apply (builds_arr [] []), builds_nil.
    - (* [...] *) intros t l Ht IH f st w r Hw HR Hr _ Hk Hl Hf. destruct f as [|f]; [cbn in Hf; lia|]. rewrite parse_impl_S. unfold bind.
      rewrite <- !app_assoc in HR. cbn [app] in HR.
      destruct (ss_skip fbk 91 _ w st ltac:(lia) eq_refl Hw HR) as (st' & -> & H' & Ek).
      rewrite (peek_ascii fbk _ _ _ H' ltac:(lia)). cbn [isdigit Z.eqb Pos.eqb Z.leb Z.compare Pos.compare Pos.compare_cont andb orb].
      rewrite (smatch_skip fbk 91 _ [] _ ltac:(lia) eq_refl ltac:(constructor) (Rem1_ascii 91 _ _ ltac:(lia))).
      rewrite !app_length in Hl, Hf. cbn [length] in Hl, Hf.
      destruct (IH true f (at0 (t ++ 93 :: r) (cap st')) [] r eq_refl (Rem0 _ _)) as (es & k' & E & Hk' & Hb).
      { cbn. now rewrite Ek. } { lia. } { lia. }
      cbn [at1 cap]. rewrite E. eexists. exists (at0 r k'). split; [reflexivity|]. split; [constructor|]. split; [assumption|].
      now apply builds_arr.
    - (* {} *) intros w0 Hw0 f st w r Hw HR Hr _ Hk Hl Hf. destruct f as [|f]; [cbn in Hf; lia|]. rewrite parse_impl_S. unfold bind.
      rewrite <- !app_assoc in HR. cbn [app] in HR.
      destruct (ss_skip fbk 123 _ w st ltac:(lia) eq_refl Hw HR) as (st' & -> & H' & Ek).
      rewrite (peek_ascii fbk _ _ _ H' ltac:(lia)). cbn [isdigit Z.eqb Pos.eqb Z.leb Z.compare Pos.compare Pos.compare_cont andb orb].
      rewrite (smatch_skip fbk 123 _ [] _ ltac:(lia) eq_refl ltac:(constructor) (Rem1_ascii 123 _ _ ltac:(lia))).
      destruct f as [|f]; [cbn in Hf; lia|]. rewrite (obj_end w0 f _ r true Hw0 (Rem0 _ _)).
      eexists. exists (at0 r (cap st')). split; [reflexivity|]. split; [constructor|]. split; [cbn; now rewrite Ek|].
      apply (builds_obj [] []), builds_mem_nil.
    - (* {...} *) intros t l Ht IH f st w r Hw HR Hr _ Hk Hl Hf. destruct f as [|f]; [cbn in Hf; lia|]. rewrite parse_impl_S. unfold bind.
      rewrite <- !app_assoc in HR. cbn [app] in HR.
      destruct (ss_skip fbk 123 _ w st ltac:(lia) eq_refl Hw HR) as (st' & -> & H' & Ek).
      rewrite (peek_ascii fbk _ _ _ H' ltac:(lia)). cbn [isdigit Z.eqb Pos.eqb Z.leb Z.compare Pos.compare Pos.compare_cont andb orb].
      rewrite (smatch_skip fbk 123 _ [] _ ltac:(lia) eq_refl ltac:(constructor) (Rem1_ascii 123 _ _ ltac:(lia))).
      rewrite !app_length in Hl, Hf. cbn [length] in Hl, Hf.
      destruct (IH true f (at0 (t ++ 125 :: r) (cap st')) [] r eq_refl (Rem0 _ _)) as (es & k' & E & Hk' & Hb).
      { cbn. now rewrite Ek. } { lia. } { lia. }
      cbn [at1 cap]. rewrite E. eexists. exists (at0 r k'). split; [reflexivity|]. split; [constructor|]. split; [assumption|].
      now apply builds_obj.
    - (* last element *) intros w1 t v w2 Hw1 Ht IH Hw2 first f st pre r Hp HR Hk Hl Hf.
      destruct (jval_head t v Ht) as (c & q & Et & Hc).
      rewrite !app_length in Hl, Hf. destruct f as [|f]; [lia|].
      rewrite <- !app_assoc in HR.
      destruct (loop_start first pre w1 c (q ++ w2 ++ [93] ++ r) st Hp Hw1 Hc) as (c0 & st0 & st1 & w' & E0 & N1 & N2 & E1 & C1 & Hw' & H1).
      { rewrite Et in HR. exact HR. }
      rewrite arr_loop_S. unfold bind. rewrite E0. replace (c0 =? 93) with false by lia. rewrite E1.
      destruct (IH f st1 w' (w2 ++ 93 :: r) Hw') as (es & st2 & E2 & H2 & C2 & Hb).
      { rewrite Et. exact H1. } { apply ws_ends; auto. } { intros Ee. destruct w2; discriminate. }
      { now rewrite C1. } { lia. } { rewrite Et in *. cbn [length] in *. lia. }
      rewrite E2. destruct f as [|f]; [rewrite Et in Hf; cbn [length] in Hf; lia|].
      rewrite (arr_end w2 f st2 r false Hw2 H2). eexists. exists (cap st2). split; [reflexivity|]. split; [assumption|].
      apply builds_cons; [assumption|apply builds_nil].
    - (* more elements *) intros w1 t v w2 t' l Hw1 Ht IH Hw2 Ht' IH' first f st pre r Hp HR Hk Hl Hf.
      destruct (jval_head t v Ht) as (c & q & Et & Hc).
      rewrite !app_length in Hl, Hf. cbn [length] in Hl, Hf. destruct f as [|f]; [lia|].
      rewrite <- !app_assoc in HR.
      destruct (loop_start first pre w1 c (q ++ w2 ++ [44] ++ t' ++ [93] ++ r) st Hp Hw1 Hc) as (c0 & st0 & st1 & w' & E0 & N1 & N2 & E1 & C1 & Hw' & H1).
      { rewrite Et in HR. exact HR. }
      rewrite arr_loop_S. unfold bind. rewrite E0. replace (c0 =? 93) with false by lia. rewrite E1.
      destruct (IH f st1 w' (w2 ++ 44 :: t' ++ 93 :: r) Hw') as (es & st2 & E2 & H2 & C2 & Hb).
      { rewrite Et. exact H1. } { apply ws_ends; auto. } { intros Ee. destruct w2; discriminate. }
      { now rewrite C1. } { lia. } { lia. }
      rewrite E2.
      destruct (IH' false f st2 (w2 ++ [44]) r) as (es' & k' & E3 & C3 & Hb').
      { exists w2. auto. } { rewrite <- !app_assoc. exact H2. } { assumption. } { lia. } { lia. }
      rewrite E3. eexists. exists k'. split; [reflexivity|]. split; [assumption|]. now apply builds_cons.
    - (* last member *) intros w1 kt k w2 w3 t v w4 Hw1 Hkt Hw2 Hw3 Ht IH Hw4 first f st pre r Hp HR Hk Hl Hf.
      assert (Ht' : exists q, kt = 34 :: q) by (destruct Hkt; eexists; reflexivity). destruct Ht' as (q & Eq).
      rewrite !app_length in Hl, Hf. cbn [length] in Hl, Hf. destruct f as [|f]; [lia|].
      rewrite <- !app_assoc in HR.
      destruct (loop_start first pre w1 34 (q ++ w2 ++ [58] ++ w3 ++ t ++ w4 ++ [125] ++ r) st Hp Hw1) as (c0 & st0 & st1 & w' & E0 & N1 & N2 & E1 & C1 & Hw' & H1).
      { unfold headok, jspace; lia. }
      { rewrite Eq in HR. exact HR. }
      rewrite obj_loop_S. unfold bind. rewrite E0. replace (c0 =? 125) with false by lia. rewrite E1.
      destruct (ss_skip fbk 34 _ w' st1 ltac:(lia) eq_refl Hw' H1) as (st1' & -> & H1' & Ek).
      destruct (parse_string_ok fbk B kt k Hkt HB st1' (w2 ++ [58] ++ w3 ++ t ++ w4 ++ [125] ++ r)) as (k1 & E & Hk1).
      { rewrite Eq. exact H1'. } { now rewrite Ek, C1. } { lia. }
      rewrite E. cbn [app]. rewrite (smatch_skip fbk 58 _ w2 _ ltac:(lia) eq_refl Hw2 (Rem0 _ _)). cbn [cap at0].
      destruct (IH f (at0 (w3 ++ t ++ w4 ++ 125 :: r) k1) w3 (w4 ++ 125 :: r) Hw3 (Rem0 _ _)) as (es & st2 & E2 & H2 & C2 & Hb).
      { apply ws_ends; auto. } { intros Ee. destruct w4; discriminate. }
      { assumption. } { lia. } { lia. }
      rewrite E2. destruct f as [|f]; [destruct (jval_head t v Ht) as (c & q' & Et & _); rewrite Et in Hf; cbn [length] in Hf; lia|].
      rewrite (obj_end w4 f st2 r false Hw4 H2). eexists. exists (cap st2). split; [reflexivity|]. split; [assumption|].
      apply builds_mem_cons; [assumption|apply builds_mem_nil].
    - (* more members *) intros w1 kt k w2 w3 t v w4 t' l Hw1 Hkt Hw2 Hw3 Ht IH Hw4 Ht' IH' first f st pre r Hp HR Hk Hl Hf.
      assert (Hkt' : exists q, kt = 34 :: q) by (destruct Hkt; eexists; reflexivity). destruct Hkt' as (q & Eq).
      rewrite !app_length in Hl, Hf. cbn [length] in Hl, Hf. destruct f as [|f]; [lia|].
      rewrite <- !app_assoc in HR.
      destruct (loop_start first pre w1 34 (q ++ w2 ++ [58] ++ w3 ++ t ++ w4 ++ [44] ++ t' ++ [125] ++ r) st Hp Hw1) as (c0 & st0 & st1 & w' & E0 & N1 & N2 & E1 & C1 & Hw' & H1).
      { unfold headok, jspace; lia. }
      { rewrite Eq in HR. exact HR. }
      rewrite obj_loop_S. unfold bind. rewrite E0. replace (c0 =? 125) with false by lia. rewrite E1.
      destruct (ss_skip fbk 34 _ w' st1 ltac:(lia) eq_refl Hw' H1) as (st1' & -> & H1' & Ek).
      destruct (parse_string_ok fbk B kt k Hkt HB st1' (w2 ++ [58] ++ w3 ++ t ++ w4 ++ [44] ++ t' ++ [125] ++ r)) as (k1 & E & Hk1).
      { rewrite Eq. exact H1'. } { now rewrite Ek, C1. } { lia. }
      rewrite E. cbn [app]. rewrite (smatch_skip fbk 58 _ w2 _ ltac:(lia) eq_refl Hw2 (Rem0 _ _)). cbn [cap at0].
      destruct (IH f (at0 (w3 ++ t ++ w4 ++ 44 :: t' ++ 125 :: r) k1) w3 (w4 ++ 44 :: t' ++ 125 :: r) Hw3 (Rem0 _ _)) as (es & st2 & E2 & H2 & C2 & Hb).
      { apply ws_ends; auto. } { intros Ee. destruct w4; discriminate. }
      { assumption. } { lia. } { lia. }
      rewrite E2.
      destruct (IH' false f st2 (w4 ++ [44]) r) as (es' & k' & E3 & C3 & Hb').
      { exists w4. auto. } { rewrite <- !app_assoc. exact H2. } { assumption. } { lia. } { lia. }
      rewrite E3. eexists. exists k'. split; [reflexivity|]. split; [assumption|]. now apply builds_mem_cons.
  Qed.
End V.

(** One value read by parse() from any parser state. *)
Theorem parse_value fbk (Dec : bool -> Z -> Z -> double -> Prop)
  (HDec : forall neg D k d, Dec neg D k d -> 0 <= D -> dec_double neg D k = DOk d) B t v w st r :
  2 * (B + 8) < 2 ^ 31 -> cap_ok B (cap st) -> Z.of_nat (length t) <= B ->
  jval Dec t v -> ws w -> Rem st (w ++ t ++ r) -> ends_value r -> (r = [] -> ~ bare_exponent t) ->
  exists st', parse fbk st = JOk (v, st') /\ Rem st' r /\ cap_ok B (cap st').
Proof.
  intros HB Hk Hl Ht Hw HR Hr Hbare.
  destruct (jval_head fbk Dec HDec t v Ht) as (c & q & Et & (Hc & Hsp & _)).
  unfold parse, parse_stream. unfold bind at 1. unfold bind at 1.
  destruct (ss_skip fbk c (q ++ r) w st Hc Hsp Hw) as (st1 & -> & H1 & C1); [rewrite Et in HR; exact HR|].
  assert (HL : (length t <= length (inp st1) + 1)%nat /\ at_end st1 && match cbuf st1 with None => true | _ => false end = false).
  { inversion H1 as [s' k E1 E2|c' e' s' k He' E1 E2]; subst.
    - cbn [at0 inp at_end cbuf length]. rewrite app_length. split; [lia|reflexivity].
    - destruct (utf8_char_prefix _ _ _ _ [c] (q ++ r) He' (ascii_char c Hc) E2) as [-> ->].
      cbn [at1 inp at_end cbuf length]. rewrite app_length. split; [lia|now rewrite andb_false_r]. }
  destruct HL as [HL ->].
  destruct (jtext_ok fbk Dec HDec B HB) as [HV _].
  destruct (HV t v Ht (2 * length (inp st1) + 4)%nat st1 [] r) as (es & st2 & E2 & H2 & C2 & Hb); auto.
  { constructor. } { rewrite Et. exact H1. } { now rewrite C1. } { lia. }
  rewrite E2, Hb. exists st2. auto.
Qed.
