(** Printed documents with floating numbers are read back. *)
From Verif Require Import Common CommonLemmas NumText_Model NumText_Proof Double_Model Double_Spec Double_Proof Json_Model Json_Spec JsonParse_Proof JsonComplete_Proof JsonPrint_Proof
  JsonEq_Proof JsonFloat_Spec JsonFloat_Proof JsonDoc_Spec.
Local Open Scope Z_scope.

Lemma elems2 (w t : json -> list Z) wend l : forall m, ws wend -> l <> [] ->
  Forall2 (fun x y => ws (w x) /\ jval dec_value (t x) y) l m -> jelems dec_value (sep_by [44] (map (fun x => w x ++ t x) l) ++ wend) m.
Proof.
  induction l as [|x l IH]; intros m He Hne H; [congruence|]. inversion H as [|? y ? m' [Hw Ht] H' E1 E2]; subst.
  destruct l as [|z l].
  - inversion H'; subst. cbn [map sep_by]. rewrite <- app_assoc. now constructor.
  - cbn [map]. rewrite sep_cons. rewrite <- !app_assoc. apply (je_cons dec_value (w x) (t x) y []); auto; [constructor|]. now apply IH.
Qed.
Lemma members2 (w w3 : list Z) esc (t : json -> list Z) wend l : forall m, ws w -> ws w3 -> ws wend -> l <> [] ->
  Forall2 (fun a b => text (fst a) /\ fst a = fst b /\ jval dec_value (t (snd a)) (snd b)) l m ->
  jmembers dec_value (sep_by [44] (map (fun kv => w ++ print_string esc (fst kv) ++ [58] ++ w3 ++ t (snd kv)) l) ++ wend) m.
Proof.
  induction l as [|[k x] l IH]; intros m Hw Hw3 He Hne H; [congruence|]. inversion H as [|? [k' y] ? m' (Hk & Ek & Ht) H' E1 E2]; subst. cbn [fst snd] in *. subst k'.
  pose proof (print_string_ok esc k Hk) as Hs. destruct l as [|z l].
  - inversion H'; subst. cbn [map sep_by fst snd]. rewrite <- !app_assoc. apply (jm_one dec_value w _ k [] w3); auto. constructor.
  - cbn [map]. rewrite sep_cons. cbn [fst snd]. rewrite <- !app_assoc. apply (jm_cons dec_value w _ k [] w3 (t x) y []); auto; try constructor. now apply IH.
Qed.

Lemma zero_text d : is_double d -> dman d = 0 -> jval dec_value (fmt12 d) (JInt 0).
Proof.
  intros H E. unfold fmt12. rewrite E. cbn [Z.eqb]. apply jv_int; [|lia]. destruct (dneg d).
  - apply (it_intro [45] true [48]); constructor.
  - apply (it_intro [] false [48]); constructor.
Qed.
Lemma float_text d : readable d -> exists w, reread (JFloat d) w /\ jval dec_value (fmt12 d) w.
Proof.
  intros [[H E]|H].
  - exists (JInt 0). split; [now apply rr_zero|now apply zero_text].
  - pose proof H as [Hd Hm]. assert (N : dman d <> 0) by (intros K; rewrite K in Hm; now apply Hm). destruct (fmt12_denotes d Hd N) as (n & k & R & Dn).
    destruct (rounded_readable (dneg d) d n k H R) as (d' & V). destruct (denotes_value _ _ _ _ Dn (ex_intro _ d' V)) as (v & J & Nv). exists v. split; [now apply (rr_float d n k)|exact J].
Qed.
Lemma forall2_exists {A B} (P : A -> B -> Prop) l : (forall x, In x l -> exists y, P x y) -> exists m, Forall2 P l m.
Proof.
  induction l as [|x l IH]; intros H; [exists []; constructor|]. destruct (H x (or_introl eq_refl)) as (y & Hy). destruct IH as (m & Hm); [intros z Hz; apply H; now right|]. exists (y :: m). now constructor.
Qed.
Lemma forall2_imp {A B} (P Q : A -> B -> Prop) l m : (forall x y, In x l -> P x y -> Q x y) -> Forall2 P l m -> Forall2 Q l m.
Proof. intros H F. induction F as [|x y l m Hx F IH]; constructor; [apply H; [now left|exact Hx]|]. apply IH. intros a b Ha. apply H. now right. Qed.
Lemma forall2_keys (l m : list (list Z * json)) (P : json -> json -> Prop) : Forall2 (fun a b => fst a = fst b /\ P (snd a) (snd b)) l m -> map fst m = map fst l.
Proof. induction 1 as [|x y l m [E _] F IH]; cbn; congruence. Qed.

Theorem document v : value readable v -> holds text v ->
  exists w, reread v w /\ (forall esc, jval dec_value (print esc v) w) /\ forall esc lv, jval dec_value (pretty_at esc lv v) w.
Proof.
  induction v as [|b|n|d|s|l IH|m IH] using json_ind'; intros Hv Hh.
  - exists JNull. repeat split; constructor.
  - exists (JBool b). repeat split; destruct b; constructor.
  - exists (JInt n). repeat split; constructor; (apply show_int_ok || exact Hv).
  - destruct (float_text d Hv) as (w & R & J). exists w. split; [exact R|]. split; intros; exact J.
  - exists (JStr s). repeat split; constructor; now apply print_string_ok.
  - assert (G : forall x, In x l -> exists y, reread x y /\ (forall esc, jval dec_value (print esc x) y) /\ forall esc lv, jval dec_value (pretty_at esc lv x) y).
    { intros x Hx. apply IH; [exact Hx|eapply value_arr; eauto|eapply holds_arr; eauto]. }
    destruct (forall2_exists _ l G) as (m & F). exists (JArr m). split; [|split].
    + apply rr_arr. eapply forall2_imp; [|exact F]. intros x y _ (R & _). exact R.
    + intros esc. cbn [print]. destruct l as [|x l]; [inversion F; subst; apply (jv_arr0 dec_value []); constructor|]. apply jv_arr. rewrite <- (app_nil_r (sep_by _ _)).
      apply (elems2 (fun _ => []) (print esc) []); [constructor|discriminate|]. eapply forall2_imp; [|exact F]. intros a y _ (_ & J & _). split; [constructor|apply J].
    + intros esc lv. cbn [pretty_at]. destruct l as [|x l].
      * inversion F; subst. change ([91] ++ sep_by [44] (map _ []) ++ ?r) with ([91] ++ r). rewrite app_assoc. rewrite <- (app_assoc [91]).
        rewrite (app_assoc [10]). apply (jv_arr0 dec_value ([10] ++ spaces (lv * 2))). apply spaces_ws.
      * rewrite (app_assoc [10] (spaces (lv * 2))), (app_assoc (sep_by _ _)). apply jv_arr.
        replace (map _ (x :: l)) with (map (fun y => ([10] ++ spaces ((lv + 1) * 2)) ++ pretty_at esc (lv + 1) y) (x :: l)) by (apply map_ext; intros; now rewrite <- app_assoc).
        apply (elems2 (fun _ => [10] ++ spaces ((lv + 1) * 2)) (pretty_at esc (lv + 1))); [apply spaces_ws|discriminate|].
        eapply forall2_imp; [|exact F]. intros a y _ (_ & _ & J). split; [apply spaces_ws|apply J].
  - destruct (value_obj _ _ Hv) as [Hn Hv'].
    assert (G : forall a, In a m -> exists b, fst a = fst b /\ reread (snd a) (snd b) /\ text (fst a) /\ (forall esc, jval dec_value (print esc (snd a)) (snd b)) /\ forall esc lv, jval dec_value (pretty_at esc lv (snd a)) (snd b)).
    { intros [k x] Hx. destruct (holds_obj _ _ Hh k x Hx) as [Tk Hx']. destruct (IH k x Hx (Hv' k x Hx) Hx') as (y & R & J1 & J2). exists (k, y). cbn. auto. }
    destruct (forall2_exists _ m G) as (m' & F).
    assert (K : map fst m' = map fst m) by (apply (forall2_keys m m' reread); eapply forall2_imp; [|exact F]; intros a b _ (A1 & A2 & _); auto).
    assert (O : object_of m' = m') by (apply object_of_nodup; now rewrite K).
    exists (JObj m'). split; [|split].
    + apply rr_obj. eapply forall2_imp; [|exact F]. intros a b _ (A1 & A2 & _). auto.
    + intros esc. cbn [print]. destruct m as [|x m]; [inversion F; subst; apply (jv_obj0 dec_value []); constructor|]. rewrite <- O. apply jv_obj. rewrite <- (app_nil_r (sep_by _ _)).
      apply (members2 [] [] esc (print esc) []); [apply Forall_nil|apply Forall_nil|apply Forall_nil|discriminate|]. eapply forall2_imp; [|exact F]. intros a b _ (A1 & _ & A3 & A4 & _). auto.
    + intros esc lv. cbn [pretty_at]. destruct m as [|x m].
      * inversion F; subst. change ([123] ++ sep_by [44] (map _ []) ++ ?r) with ([123] ++ r). rewrite app_assoc. rewrite <- (app_assoc [123]).
        rewrite (app_assoc [10]). apply (jv_obj0 dec_value ([10] ++ spaces (lv * 2))). apply spaces_ws.
      * rewrite <- O. rewrite (app_assoc [10] (spaces (lv * 2))), (app_assoc (sep_by _ _)). apply jv_obj.
        replace (map _ (x :: m)) with (map (fun kv => ([10] ++ spaces ((lv + 1) * 2)) ++ print_string esc (fst kv) ++ [58] ++ [32] ++ pretty_at esc (lv + 1) (snd kv)) (x :: m))
          by (apply map_ext; intros; now rewrite <- app_assoc).
        apply (members2 ([10] ++ spaces ((lv + 1) * 2)) [32] esc (pretty_at esc (lv + 1))); [apply spaces_ws|constructor; [auto|apply Forall_nil]|apply spaces_ws|discriminate|].
        eapply forall2_imp; [|exact F]. intros a b _ (A1 & _ & A3 & _ & A5). auto.
Qed.
Lemma not_bare esc v : value readable v -> ~ bare_exponent (print esc v).
Proof.
  intros Hv. destruct v as [|b|n|d|s|l|m].
  1-3,5: apply print_not_bare; cbn; auto.
  - apply fmt12_not_bare. destruct Hv as [[H _]|[H _]]; exact H.
  - intros (p & e & c & E & He & Hc). unfold digit in Hc. cbn [print] in E. assert (EL : exists q, p ++ [e; c] = q ++ [c]) by (exists (p ++ [e]); rewrite <- app_assoc; reflexivity).
    destruct EL as (q & EL). rewrite <- E, app_assoc in EL. apply last_app in EL as [_ <-]. lia.
  - intros (p & e & c & E & He & Hc). unfold digit in Hc. cbn [print] in E. assert (EL : exists q, p ++ [e; c] = q ++ [c]) by (exists (p ++ [e]); rewrite <- app_assoc; reflexivity).
    destruct EL as (q & EL). rewrite <- E, app_assoc in EL. apply last_app in EL as [_ <-]. lia.
Qed.
Lemma dec_ok : forall neg D k d, dec_value neg D k d -> 0 <= D -> dec_double neg D k = DOk d.
Proof. exact (fun neg D k d H HD => proj2 (dec_double_spec neg D k d HD) H). Qed.
Theorem document_parse fbk esc v : value readable v -> holds text v -> Z.of_nat (length (print esc v)) < 2 ^ 30 - 8 ->
  exists w st, parse fbk (start (print esc v)) = JOk (w, st) /\ inp st = [] /\ reread v w.
Proof.
  intros Hv Hh HL. destruct (document v Hv Hh) as (w & R & J & _).
  destruct (parse_value fbk dec_value dec_ok (Z.of_nat (length (print esc v))) (print esc v) w [] (start (print esc v)) []) as (st & E & HR & _).
  - lia.
  - apply start_cap. lia.
  - lia.
  - apply J.
  - constructor.
  - rewrite app_nil_r. constructor.
  - exact I.
  - intros _. now apply not_bare.
  - exists w, st. split; [exact E|]. split; [|exact R]. pose proof (rem_nil_end st HR) as Hend. unfold at_end in Hend. destruct (inp st); [reflexivity|discriminate].
Qed.
Theorem document_pretty fbk esc v : value readable v -> holds text v -> Z.of_nat (length (pretty esc v)) < 2 ^ 30 - 8 ->
  exists w st, parse fbk (start (pretty esc v)) = JOk (w, st) /\ reread v w.
Proof.
  intros Hv Hh HL. destruct (document v Hv Hh) as (w & R & _ & J). unfold pretty in *. rewrite app_length in HL. cbn [length] in HL.
  destruct (parse_value fbk dec_value dec_ok (Z.of_nat (length (pretty_at esc 0 v))) (pretty_at esc 0 v) w [] (start (pretty_at esc 0 v ++ [10])) [10]) as (st & E & HR & _).
  - lia.
  - apply start_cap. lia.
  - lia.
  - apply J.
  - constructor.
  - constructor.
  - cbn. unfold digit. lia.
  - discriminate.
  - eauto.
Qed.

Lemma value_imp (F G : double -> Prop) v : (forall d, F d -> G d) -> value F v -> value G v.
Proof.
  intros H. induction v as [|b|n|d|s|l IH|m IH] using json_ind'; cbn [value]; auto.
  - intros V. induction l as [|x l IHl]; cbn in *; [exact I|]. destruct V as [V1 V2]. split; [apply IH; auto|apply IHl; auto].
  - intros [N V]. split; [exact N|]. clear N. induction m as [|[k x] m IHm]; cbn in *; [exact I|]. destruct V as [V1 V2]. split; [eapply IH; eauto|apply IHm; eauto].
Qed.
Lemma zero_eq d : dman d = 0 -> equals true (JFloat d) (JInt 0) = true.
Proof. intros E. cbn [equals andb]. unfold int_d_eq. change (int_to_double 0) with (DOk (mkD false 0 (-1074))). unfold d_eq. rewrite E. reflexivity. Qed.
Theorem short_equal v : forall w, value short v -> reread v w -> equals true v w = true.
Proof.
  induction v as [|b|n|d|s|l IH|m IH] using json_ind'; intros w Hv R.
  - inversion R; subst. reflexivity.
  - inversion R; subst. destruct b; reflexivity.
  - inversion R; subst. cbn. apply Z.eqb_refl.
  - inversion R as [| | | |? Ez E1|? n k ? Nz Rn Nm E1| |]; subst.
    + now apply zero_eq.
    + destruct Hv as [[_ Hz]|[H (D & j & HD & V)]]; [contradiction|]. apply (number_equal w (dneg d) n k d); [destruct Rn as (_ & A & _); lia|exact Nm|].
      eapply dec_same; [exact (rounds_exact _ d D j n k H HD V Rn)|exact V].
  - inversion R; subst. cbn. apply keyeqb_refl.
  - inversion R as [| | | | | |? m F E1|]; subst. pose proof (value_arr _ _ Hv) as Hl. clear R Hv. revert m F. cbn [equals]. induction l as [|x l IHl]; intros m F; inversion F as [|? y ? m' Hx F' E1 E2]; subst; [reflexivity|].
    rewrite (IH x (or_introl eq_refl) y (Hl x (or_introl eq_refl)) Hx). cbn [andb]. apply IHl; [intros a Ha; apply IH; now right|intros a Ha; apply Hl; now right|exact F'].
  - inversion R as [| | | | | | |? m' F E1]; subst. destruct (value_obj _ _ Hv) as [Hn Hl]. cbn [equals]. pose proof (forall2_keys _ _ _ F) as K.
    assert (L : length m = length m'). { rewrite <- (map_length fst m), <- (map_length fst m'). now rewrite K. }
    rewrite L, Nat.eqb_refl. cbn [andb].
    assert (G : forall k x, In (k, x) m -> exists y, obj_get m' k = Some y /\ reread x y).
    { clear - F Hn. intros k x Hx. induction F as [|[k1 x1] [k2 y2] l l' [E Rx] F IH]; [destruct Hx|]. cbn [fst snd] in *. subst k2. cbn [obj_get]. destruct Hx as [Hx|Hx].
      - injection Hx as -> ->. exists y2. now rewrite keyeqb_refl.
      - cbn [map fst] in Hn. inversion Hn as [|? ? Hni Hn' E1]; subst. destruct (IH Hn' Hx) as (y & Ey & Ry). exists y. split; [|exact Ry].
        destruct (keyeqb k k1) eqn:Ek; [|exact Ey]. apply keyeqb_dec in Ek. subst k1. destruct Hni. exact (in_map fst _ _ Hx). }
    assert (S : forall l, (forall k x, In (k, x) l -> In (k, x) m) -> (fix eqs l := match l with [] => true | (k, x) :: l' => match obj_get m' k with Some y => equals true x y | None => false end && eqs l' end) l = true).
    { induction l as [|[k x] l IHl]; intros Hs; [reflexivity|]. destruct (G k x (Hs k x (or_introl eq_refl))) as (y & -> & Rx). rewrite (IH k x (Hs k x (or_introl eq_refl)) y (Hl k x (Hs k x (or_introl eq_refl))) Rx). cbn [andb].
      apply IHl. intros a b Hab. apply Hs. now right. }
    apply S. auto.
Qed.
