(** What is printed is an RFC 8259 text that denotes the value. *)
From Verif Require Import Common CommonLemmas NumText_Model NumText_Proof Double_Model Utf8_Model Utf8_Spec Utf8_Proof Json_Model Json_Spec
  JsonParse_Proof JsonComplete_Proof.
Local Open Scope Z_scope.

Ltac Zify.zify_post_hook ::= Z.div_mod_to_equations.

(** ** Induction on values *)
Section Ind.
  Context (P : json -> Prop) (H0 : P JNull) (H1 : forall b, P (JBool b)) (H2 : forall n, P (JInt n)) (H3 : forall d, P (JFloat d))
    (H4 : forall s, P (JStr s)) (H5 : forall l, (forall x, In x l -> P x) -> P (JArr l))
    (H6 : forall m, (forall k x, In (k, x) m -> P x) -> P (JObj m)).
  Fixpoint json_ind' (v : json) : P v :=
    match v with
    | JNull => H0 | JBool b => H1 b | JInt n => H2 n | JFloat d => H3 d | JStr s => H4 s
    | JArr l => H5 l ((fix go l : forall x, In x l -> P x :=
        match l with
        | [] => fun x F => match F with end
        | y :: r => fun x HI => match HI with or_introl E => eq_ind y P (json_ind' y) x E | or_intror F => go r x F end
        end) l)
    | JObj m => H6 m ((fix go m : forall k x, In (k, x) m -> P x :=
        match m with
        | [] => fun k x F => match F with end
        | y :: r => fun k x HI => match HI with
                                  | or_introl E => eq_ind (snd y) P (json_ind' (snd y)) x (f_equal snd E)
                                  | or_intror F => go r k x F
                                  end
        end) m)
    end.
End Ind.

(** ** Strings *)
Lemma jhex_ok v : 0 <= v < 16 -> hexdig (jhex v) v.
Proof. intros H. unfold hexdig, jhex. destruct (Z.leb_spec v 9); lia. Qed.

Lemma nibble u k : 0 <= u -> 0 <= k -> Z.land (Z.shiftr u k) 15 = (u / 2 ^ k) mod 16.
Proof. intros. change 15 with (2 ^ 4 - 1). rewrite land_mod by lia. rewrite Z.shiftr_div_pow2 by lia. reflexivity. Qed.

Lemma print_u4_ok u : 0 <= u < 65536 -> exists h, print_u4 u = 92 :: 117 :: h /\ hex4 h u.
Proof.
  intros Hu. unfold print_u4. eexists. split; [reflexivity|]. rewrite !nibble by lia.
  replace (Z.land u 15) with ((u / 2 ^ 0) mod 16) by (rewrite <- nibble by lia; now rewrite Z.shiftr_0_r).
  change (2 ^ 12) with 4096. change (2 ^ 8) with 256. change (2 ^ 4) with 16. change (2 ^ 0) with 1.
  replace u with ((((u / 4096) mod 16 * 16 + (u / 256) mod 16) * 16 + (u / 16) mod 16) * 16 + (u / 1) mod 16) at 5 by lia.
  constructor; apply jhex_ok; lia.
Qed.

Lemma print_low_ok c : 0 < c <= 127 -> jchar (print_low c) [c].
Proof.
  intros Hc. unfold print_low. destruct (assoc escs c) as [x|] eqn:E.
  - apply jc_short. unfold escs, assoc in E.
    repeat match type of E with context [?a =? c] => destruct (Z.eqb_spec a c); [injection E as <-; subst c; cbn; tauto|] end. discriminate.
  - destruct (iscntrl c) eqn:Ec.
    + change (str "\u00" ++ [jhex (Z.land (Z.shiftr c 4) 15); jhex (Z.land c 15)])
        with (92 :: 117 :: [48; 48; jhex (Z.land (Z.shiftr c 4) 15); jhex (Z.land c 15)]).
      apply jc_unicode with (u := c); [|constructor; lia].
      rewrite nibble by lia. replace (Z.land c 15) with ((c / 2 ^ 0) mod 16) by (rewrite <- nibble by lia; now rewrite Z.shiftr_0_r).
      change (2 ^ 4) with 16. change (2 ^ 0) with 1.
      replace c with (((0 * 16 + 0) * 16 + (c / 16) mod 16) * 16 + (c / 1) mod 16) at 3 by lia.
      constructor; try (unfold hexdig; lia); apply jhex_ok; lia.
    + apply jc_plain with (c := c); [constructor; lia| | |].
      * unfold iscntrl in Ec. lia.
      * intros ->. discriminate.
      * intros ->. discriminate.
Qed.

Lemma print_char_ok u e : utf8_char u e -> u <> 0 -> jchar (print_char u) e.
Proof.
  intros He Hz. pose proof (utf8_char_scalar u e He) as Hs. unfold print_char, scalar in *.
  destruct (Z.leb_spec u 127).
  - replace e with [u] by (apply (utf8_char_fun u); [constructor; lia|assumption]). apply print_low_ok. lia.
  - destruct (Z.ltb_spec u 65536).
    + destruct (print_u4_ok u ltac:(lia)) as (h & -> & Hh). now apply jc_unicode with (u := u).
    + destruct (print_u4_ok (55296 + (u - 65536) / 1024) ltac:(lia)) as (h1 & -> & Hh1).
      destruct (print_u4_ok (56320 + (u - 65536) mod 1024) ltac:(lia)) as (h2 & -> & Hh2).
      cbn [app]. eapply jc_pair; eauto; try lia.
      replace (65536 + _ + _) with u by lia. assumption.
Qed.

Lemma print_esc_ok cs s : utf8 cs s -> ~ In 0 cs -> forall f, (length s <= f)%nat -> jchars (print_esc f s) s.
Proof.
  intros H. induction H as [|c cs e s Hc H IH]; intros Hz f Hf.
  - destruct f; constructor.
  - destruct (utf8_char_ne c e Hc) as (b & q & Ee). destruct f as [|f]; [subst; cbn in Hf; lia|].
    cbn [print_esc]. rewrite Ee. cbn [app].
    assert (Hb : b <> 0).
    { intros ->. apply Hz. left. apply (f_equal (hd 0)) in Ee. clear - Hc Ee. destruct Hc; cbn [hd] in Ee; lia. }
    replace (b =? 0) with false by lia. unfold chars_to_uchar. change (b :: q ++ s) with ((b :: q) ++ s).
    rewrite <- Ee. rewrite (decode_encoded c e s Hc). constructor.
    + apply print_char_ok; auto. intros ->. apply Hz. now left.
    + apply IH; [intros HI; apply Hz; now right|]. rewrite Ee in Hf. cbn in Hf. rewrite app_length in Hf. lia.
Qed.

Lemma print_raw_high e s : Forall (fun b => 128 <= b) e -> print_raw (e ++ s) = e ++ print_raw s.
Proof.
  intros H. induction H as [|b e Hb H IH]; [reflexivity|]. cbn [app print_raw]. replace (b =? 0) with false by lia.
  rewrite IH. unfold print_low.
  replace (assoc escs b) with (@None Z).
  2: { unfold escs, assoc. repeat match goal with |- context [?a =? b] => replace (a =? b) with false by lia end. reflexivity. }
  replace (iscntrl b) with false by (unfold iscntrl; lia). reflexivity.
Qed.

Lemma print_raw_ok cs s : utf8 cs s -> ~ In 0 cs -> jchars (print_raw s) s.
Proof.
  intros H. induction H as [|c cs e s Hc H IH]; intros Hz; [constructor|].
  assert (Hz' : ~ In 0 cs) by (intros HI; apply Hz; now right). assert (Hc0 : c <> 0) by (intros ->; apply Hz; now left).
  destruct (Z_le_gt_dec c 127) as [Hl|Hg].
  - replace e with [c] by (apply (utf8_char_fun c); [constructor; pose proof (utf8_char_scalar c e Hc); unfold scalar in *; lia|assumption]).
    cbn [app print_raw]. replace (c =? 0) with false by lia. apply (jcs_cons _ [c]); [|auto]. apply print_low_ok.
    pose proof (utf8_char_scalar c e Hc); unfold scalar in *; lia.
  - rewrite print_raw_high by (destruct Hc; repeat constructor; lia).
    constructor; [|auto]. apply jc_plain with (c := c); auto; lia.
Qed.

Lemma print_string_ok esc s : text s -> jstring (print_string esc s) s.
Proof.
  intros (cs & H & Hz). unfold print_string. constructor. destruct esc; [eapply print_esc_ok|eapply print_raw_ok]; eauto.
Qed.

(** ** Integers *)
Lemma dec_text_int_part n : 0 <= n -> int_part (dec_text n).
Proof.
  intros Hn. destruct (Z.eq_dec n 0) as [->|Hnz]; [constructor|].
  destruct (dec_text_head n ltac:(lia)) as (c & r & E & Hc). pose proof (dec_text_digits n Hn) as HF. rewrite E in *.
  constructor; [lia|]. inversion HF as [|? ? ? HF']; subst. eapply Forall_impl; [|exact HF']. unfold isdigit, digit. intros; lia.
Qed.
Lemma show_int_ok n : int_token (show_int n) n.
Proof.
  unfold show_int. destruct (Z.ltb_spec n 0).
  - replace n with (if true then - num (dec_text (- n)) else num (dec_text (- n))) at 2
      by (rewrite num_dec, dec_text_val; lia).
    apply (it_intro [45] true); [constructor|apply dec_text_int_part; lia].
  - replace n with (if false then - num (dec_text n) else num (dec_text n)) at 2 by (rewrite num_dec, dec_text_val; lia).
    apply (it_intro [] false); [constructor|apply dec_text_int_part; lia].
Qed.

(** ** Objects *)
Lemma assign_fresh m k v : ~ In k (map fst m) -> assign m k v = m ++ [(k, v)].
Proof.
  induction m as [|[k' v'] m IH]; intros H; [reflexivity|]. cbn [assign map fst app] in *.
  destruct (list_eq_dec Z.eq_dec k k') as [->|]; [exfalso; apply H; now left|]. rewrite IH; [reflexivity|]. intros HI. apply H. now right.
Qed.
Lemma object_of_nodup m : NoDup (map fst m) -> object_of m = m.
Proof.
  intros H. unfold object_of.
  assert (G : forall r acc, NoDup (map fst (acc ++ r)) -> fold_left (fun m kv => assign m (fst kv) (snd kv)) r acc = acc ++ r).
  { induction r as [|[k v] r IH]; intros acc Hn; [cbn; now rewrite app_nil_r|]. cbn [fold_left fst snd].
    rewrite assign_fresh.
    - rewrite IH; rewrite <- app_assoc; [reflexivity|exact Hn].
    - rewrite map_app in Hn. cbn [map fst] in Hn. apply NoDup_remove_2 in Hn. intros HI. apply Hn. apply in_or_app. now left. }
  exact (G m [] H).
Qed.

Section PV.
  Context (Dec : bool -> Z -> Z -> double -> Prop) (F : double -> Prop).
  (** What the text of a float denotes; for integral floats it is an integer text. *)
  Context (R : json -> json -> Prop).

  Lemma sep_cons sep x y l : sep_by sep (x :: y :: l) = x ++ sep ++ sep_by sep (y :: l).
  Proof. reflexivity. Qed.

  Lemma elems_ok (w t : json -> list Z) wend l : ws wend -> l <> [] ->
    (forall x, In x l -> ws (w x) /\ jval Dec (t x) x) ->
    jelems Dec (sep_by [44] (map (fun x => w x ++ t x) l) ++ wend) l.
  Proof.
    intros He. induction l as [|x l IH]; intros Hne H; [congruence|]. destruct (H x (or_introl eq_refl)) as [Hw Ht].
    destruct l as [|y l].
    - cbn [map sep_by]. rewrite <- app_assoc. now constructor.
    - cbn [map]. rewrite sep_cons. rewrite <- !app_assoc.
      apply (je_cons Dec (w x) (t x) x []); auto; [constructor|]. apply IH; [discriminate|]. intros z Hz. apply H. now right.
  Qed.

  Lemma members_ok (w w3 : list Z) esc (t : json -> list Z) wend m : ws w -> ws w3 -> ws wend -> m <> [] ->
    (forall k x, In (k, x) m -> text k /\ jval Dec (t x) x) ->
    jmembers Dec (sep_by [44] (map (fun kv => w ++ print_string esc (fst kv) ++ [58] ++ w3 ++ t (snd kv)) m) ++ wend) m.
  Proof.
    intros Hw Hw3 He. induction m as [|[k x] m IH]; intros Hne H; [congruence|]. destruct (H k x (or_introl eq_refl)) as [Hk Ht].
    pose proof (print_string_ok esc k Hk) as Hs. destruct m as [|y m].
    - cbn [map sep_by fst snd]. rewrite <- !app_assoc. apply (jm_one Dec w _ k [] w3); auto. constructor.
    - cbn [map]. rewrite sep_cons. cbn [fst snd]. rewrite <- !app_assoc.
      apply (jm_cons Dec w _ k [] w3 (t x) x []); auto; try constructor. apply IH; [discriminate|]. intros k' z Hz. apply (H k'). now right.
  Qed.
End PV.

Lemma holds_arr P l : holds P (JArr l) -> forall x, In x l -> holds P x.
Proof. cbn [holds]. induction l as [|y l IH]; cbn; intros H x HI; [contradiction|]. destruct HI as [->|HI]; [tauto|]. apply IH; tauto. Qed.
Lemma holds_obj P m : holds P (JObj m) -> forall k x, In (k, x) m -> P k /\ holds P x.
Proof.
  cbn [holds]. induction m as [|[k' y] m IH]; cbn; intros H k x HI; [contradiction|]. destruct HI as [E|HI]; [injection E as -> ->; tauto|]. apply IH; tauto.
Qed.
Lemma value_arr F l : value F (JArr l) -> forall x, In x l -> value F x.
Proof. cbn [value]. induction l as [|y l IH]; cbn; intros H x HI; [contradiction|]. destruct HI as [->|HI]; [tauto|]. apply IH; tauto. Qed.
Lemma value_obj F m : value F (JObj m) -> NoDup (map fst m) /\ forall k x, In (k, x) m -> value F x.
Proof.
  cbn [value]. intros [Hn H]. split; [assumption|]. clear Hn. induction m as [|[k' y] m IH]; cbn in H |- *; intros k x HI; [contradiction|].
  destruct HI as [E|HI]; [injection E as -> ->; tauto|]. eapply IH; [tauto|eauto].
Qed.

Lemma print_jval Dec esc v : value no_floats v -> holds text v -> jval Dec (print esc v) v.
Proof.
  induction v as [|b|n|d|s|l IH|m IH] using json_ind'; intros Hv Hh.
  - constructor.
  - destruct b; constructor.
  - constructor; [apply show_int_ok|exact Hv].
  - destruct Hv.
  - constructor. now apply print_string_ok.
  - cbn [print]. destruct l as [|x l]; [apply (jv_arr0 Dec []); constructor|].
    apply jv_arr. rewrite <- (app_nil_r (sep_by _ _)).
    apply (elems_ok Dec (fun _ => []) (print esc) []); [constructor|discriminate|].
    intros y Hy. split; [constructor|]. apply IH; auto; [eapply value_arr; eauto|eapply holds_arr; eauto].
  - destruct (value_obj _ _ Hv) as [Hn Hv']. cbn [print]. destruct m as [|x m]; [apply (jv_obj0 Dec []); constructor|].
    rewrite <- (object_of_nodup (x :: m) Hn) at 2.
    apply jv_obj. rewrite <- (app_nil_r (sep_by _ _)).
    apply (members_ok Dec [] [] esc (print esc) []); [apply Forall_nil|apply Forall_nil|apply Forall_nil|discriminate|].
    intros k y Hy. destruct (holds_obj _ _ Hh k y Hy). split; [assumption|]. eapply IH; eauto.
Qed.

Lemma spaces_ws n : ws ([10] ++ spaces n).
Proof. constructor; [auto|]. unfold spaces. induction n; constructor; auto. Qed.

Lemma pretty_jval Dec esc v : value no_floats v -> holds text v -> forall lv, jval Dec (pretty_at esc lv v) v.
Proof.
  induction v as [|b|n|d|s|l IH|m IH] using json_ind'; intros Hv Hh lv.
  1-5: now apply print_jval.
  - cbn [pretty_at]. destruct l as [|x l].
    + change ([91] ++ sep_by [44] (map _ []) ++ ?r) with ([91] ++ r). rewrite app_assoc. rewrite <- (app_assoc [91]).
      rewrite (app_assoc [10]). apply (jv_arr0 Dec ([10] ++ spaces (lv * 2))). apply spaces_ws.
    + rewrite (app_assoc [10] (spaces (lv * 2))), (app_assoc (sep_by _ _)). apply jv_arr.
      replace (map _ (x :: l)) with (map (fun y => ([10] ++ spaces ((lv + 1) * 2)) ++ pretty_at esc (lv + 1) y) (x :: l)) by (apply map_ext; intros; now rewrite <- app_assoc).
      apply (elems_ok Dec (fun _ => [10] ++ spaces ((lv + 1) * 2)) (pretty_at esc (lv + 1))); [apply spaces_ws|discriminate|].
      intros y Hy. split; [apply spaces_ws|]. apply IH; auto; [eapply value_arr; eauto|eapply holds_arr; eauto].
  - destruct (value_obj _ _ Hv) as [Hn Hv']. cbn [pretty_at]. destruct m as [|x m].
    + change ([123] ++ sep_by [44] (map _ []) ++ ?r) with ([123] ++ r). rewrite app_assoc. rewrite <- (app_assoc [123]).
      rewrite (app_assoc [10]). apply (jv_obj0 Dec ([10] ++ spaces (lv * 2))). apply spaces_ws.
    + rewrite <- (object_of_nodup (x :: m) Hn) at 2.
      rewrite (app_assoc [10] (spaces (lv * 2))), (app_assoc (sep_by _ _)). apply jv_obj.
      replace (map _ (x :: m)) with (map (fun kv => ([10] ++ spaces ((lv + 1) * 2)) ++ print_string esc (fst kv) ++ [58] ++ [32] ++ pretty_at esc (lv + 1) (snd kv)) (x :: m))
        by (apply map_ext; intros; now rewrite <- app_assoc).
      apply (members_ok Dec ([10] ++ spaces ((lv + 1) * 2)) [32] esc (pretty_at esc (lv + 1))); [apply spaces_ws|constructor; [auto|apply Forall_nil]|apply spaces_ws|discriminate|].
      intros k y Hy. destruct (holds_obj _ _ Hh k y Hy). split; [assumption|]. eapply IH; eauto.
Qed.

(** ** The last characters *)
Lemma last_app {A} (p q : list A) a b : p ++ [a] = q ++ [b] -> p = q /\ a = b.
Proof. intros H. apply app_inj_tail in H. exact H. Qed.

Lemma print_not_bare esc v : value no_floats v -> ~ bare_exponent (print esc v).
Proof.
  intros Hv (p & e & c & E & He & Hc). unfold digit in Hc.
  assert (EL : exists q, print esc v = q ++ [c]) by (exists (p ++ [e]); rewrite E, <- app_assoc; reflexivity).
  destruct EL as (q & EL).
  destruct v as [|b|n|d|s|l|m]; cbn [print] in *.
  - change (str "null") with ((str "nul") ++ [108]) in EL. apply last_app in EL as [_ <-]. lia.
  - destruct b.
    + change (str "true") with ((str "tru") ++ [101]) in EL. apply last_app in EL as [_ <-]. lia.
    + change (str "false") with ((str "fals") ++ [101]) in EL. apply last_app in EL as [_ <-]. lia.
  - assert (HI : In e (show_int n)) by (rewrite E; apply in_or_app; right; now left).
    unfold show_int in HI. destruct (Z.ltb_spec n 0).
    + destruct HI as [HI|HI]; [lia|]. pose proof (dec_text_digits (- n) ltac:(lia)) as HF. rewrite Forall_forall in HF.
      specialize (HF e HI). unfold isdigit in HF. lia.
    + pose proof (dec_text_digits n ltac:(lia)) as HF. rewrite Forall_forall in HF. specialize (HF e HI). unfold isdigit in HF. lia.
  - destruct Hv.
  - unfold print_string in EL. rewrite app_assoc in EL. apply last_app in EL as [_ <-]. lia.
  - rewrite app_assoc in EL. apply last_app in EL as [_ <-]. lia.
  - rewrite app_assoc in EL. apply last_app in EL as [_ <-]. lia.
Qed.

(** ** The round trip *)
Definition dec0 : bool -> Z -> Z -> double -> Prop := fun neg D k d => dec_double neg D k = DOk d.

Lemma start_cap B s : 256 <= Z.max 256 (2 * (B + 8)) -> cap_ok B (cap (start s)).
Proof. unfold cap_ok; cbn. lia. Qed.

Theorem print_parse fbk esc v : value no_floats v -> holds text v -> Z.of_nat (length (print esc v)) < 2 ^ 30 - 8 ->
  exists st, parse fbk (start (print esc v)) = JOk (v, st) /\ inp st = [].
Proof.
  intros Hv Hh HL.
  destruct (parse_value fbk dec0 ltac:(auto) (Z.of_nat (length (print esc v))) (print esc v) v [] (start (print esc v)) []) as (st & E & HR & _).
  - lia.
  - apply start_cap. lia.
  - lia.
  - now apply print_jval.
  - constructor.
  - rewrite app_nil_r. constructor.
  - exact I.
  - intros _. now apply print_not_bare.
  - exists st. split; [assumption|]. pose proof (rem_nil_end st HR) as Hend. unfold at_end in Hend. destruct (inp st); [reflexivity|discriminate].
Qed.

Theorem pretty_parse fbk esc v : value no_floats v -> holds text v -> Z.of_nat (length (pretty esc v)) < 2 ^ 30 - 8 ->
  exists st, parse fbk (start (pretty esc v)) = JOk (v, st) /\ Rem st [10].
Proof.
  intros Hv Hh HL. unfold pretty in *. rewrite app_length in HL. cbn [length] in HL.
  destruct (parse_value fbk dec0 ltac:(auto) (Z.of_nat (length (pretty_at esc 0 v))) (pretty_at esc 0 v) v [] (start (pretty_at esc 0 v ++ [10])) [10]) as (st & E & HR & _).
  - lia.
  - apply start_cap. lia.
  - lia.
  - now apply pretty_jval.
  - constructor.
  - constructor.
  - cbn. unfold digit. lia.
  - discriminate.
  - exists st. split; assumption.
Qed.
