(** C++ values with doubles through JSON archives. *)
From Verif Require Import Common CommonLemmas Double_Model Double_Spec Utf8_Model Utf8_Spec Utf8_Proof Json_Model Json_Spec JsonParse_Proof JsonComplete_Proof JsonPrint_Proof JsonEq_Proof
  JsonStream_Proof JsonCast_Model JsonCast_Spec JsonCast_Proof JsonArchive_Spec JsonArchive_Model JsonArchive_Proof JsonFloat_Spec JsonFloat_Proof JsonDoc_Spec JsonDoc_Proof.
Local Open Scope Z_scope.

Lemma solid_rec fs : solid (TRec fs) -> forall k u, In (k, u) fs -> solid u.
Proof. cbn [solid]. induction fs as [|[k' u'] fs IH]; cbn; intros H k u HI; [contradiction|]. destruct HI as [E|HI]; [injection E as -> ->; tauto|]. eapply IH; [tauto|exact HI]. Qed.
Lemma exact_short d : exact12 d -> short d.
Proof. intros [->|H]; [left|right; exact H]. split; [unfold is_double; cbn [dman dexp]; lia|reflexivity]. Qed.
Lemma exact_readable d : exact12 d -> readable d.
Proof. intros H. destruct (exact_short d H) as [X|[X _]]; [now left|now right]. Qed.
Lemma reread_get l m : Forall2 (fun a b => fst a = fst b /\ reread (snd a) (snd b)) l m -> forall k,
  match obj_get l k with Some x => exists y, obj_get m k = Some y /\ reread x y /\ In (k, x) l | None => obj_get m k = None end.
Proof.
  induction 1 as [|[k1 x1] [k2 y2] l m [E R] F IH]; intros k; [reflexivity|]. cbn [fst snd] in *. subst k2. cbn [obj_get]. destruct (keyeqb k k1) eqn:Ek.
  - apply keyeqb_dec in Ek. subst k1. exists y2. split; [reflexivity|]. split; [exact R|now left].
  - specialize (IH k). destruct (obj_get l k); [|exact IH]. destruct IH as (y & A & B & C). exists y. split; [exact A|]. split; [exact B|now right].
Qed.
Lemma not_null_reread j w : reread j w -> (j = JNull <-> w = JNull).
Proof. intros R. inversion R as [| | | | |d n k w' N Rn Nm| |]; subst; split; intros X; try discriminate; try reflexivity. subst w. destruct Nm. Qed.
Theorem same_cast t : forall j w u, solid t -> value exact12 j -> reread j w -> from_json t j = Ok u -> from_json t w = Ok u.
Proof.
  induction t as [| | | | | |t IH|t IH|t IH|fs IH] using ty_ind'; intros j w u S V R E; cbn [from_json] in E |- *.
  - destruct j; try discriminate. inversion R; subst. exact E.
  - destruct j; try discriminate. inversion R; subst. exact E.
  - destruct j; try discriminate. inversion R; subst. exact E.
  - destruct j as [|b|n|d|s|l|m]; try discriminate; [inversion R; subst; exact E|]. injection E as <-. cbn [value] in V.
    inversion R as [| | | |? Ez E1|? n k ? Nz Rn Nm E1| |]; subst.
    + destruct V as [->|[[_ Hm] _]]; [reflexivity|]. rewrite Ez in Hm. exfalso. now apply Hm.
    + destruct V as [->|[H (D & j & HD & V)]]; [now destruct Nz|].
      destruct (number_equal w (dneg d) n k d) as [_ [->|(m & -> & I)]]; [destruct Rn as (_ & A & _); lia|exact Nm| |reflexivity|now rewrite I].
      eapply dec_same; [exact (rounds_exact _ d D j n k H HD V Rn)|exact V].
  - destruct j; try discriminate. inversion R; subst. exact E.
  - destruct S.
  - destruct j as [|b|n|d|s|l|m]; try discriminate. inversion R as [| | | | | |? m F E1|]; subst. pose proof (value_arr _ _ V) as Hl. cbn [solid] in S.
    set (go := fix go l := match l with [] => Ok [] | x :: r => let* v := from_json t x in let* vs := go r in Ok (v :: vs) end) in *.
    assert (G : forall l m vs, Forall2 reread l m -> (forall x, In x l -> value exact12 x) -> go l = Ok vs -> go m = Ok vs).
    { clear - IH S. intros l m vs F. revert vs. induction F as [|x y l m Rx F IHF]; intros vs Hl E; [exact E|]. cbn [go] in *. destruct (from_json t x) as [v| | |] eqn:Ex; try discriminate.
      rewrite (IH x y v S (Hl x (or_introl eq_refl)) Rx Ex). cbn [obind] in *. destruct (go l) as [r| | |] eqn:Er; try discriminate. rewrite (IHF r (fun a Ha => Hl a (or_intror Ha)) eq_refl). exact E. }
    destruct (go l) as [vs| | |] eqn:Eg; try discriminate. rewrite (G l m vs F Hl Eg). exact E.
  - destruct j as [|b|n|d|s|l|m]; try discriminate. inversion R as [| | | | | | |? m' F E1]; subst. destruct (value_obj _ _ V) as [_ Hl]. cbn [solid] in S.
    set (go := fix go m acc := match m with [] => Ok acc | (k, x) :: r => let* v := from_json t x in go r (madd acc k v) end) in *.
    assert (G : forall l m acc vs, Forall2 (fun a b => fst a = fst b /\ reread (snd a) (snd b)) l m -> (forall k x, In (k, x) l -> value exact12 x) -> go l acc = Ok vs -> go m acc = Ok vs).
    { clear - IH S. intros l m acc vs F. revert acc. induction F as [|[k x] [k' y] l m [Ek Rx] F IHF]; intros acc Hl E; [exact E|]. cbn [fst snd] in *. subst k'. cbn [go] in *. destruct (from_json t x) as [v| | |] eqn:Ex; try discriminate.
      rewrite (IH x y v S (Hl k x (or_introl eq_refl)) Rx Ex). cbn [obind] in *. apply IHF; [intros a b Hab; exact (Hl a b (or_intror Hab))|exact E]. }
    destruct (go m []) as [vs| | |] eqn:Eg; try discriminate. rewrite (G m m' [] vs F Hl Eg). exact E.
  - cbn [solid] in S. pose proof (not_null_reread j w R) as N. destruct j as [|b|n|d|s|l|m]; [rewrite (proj1 N eq_refl); exact E| | | | | |];
      (destruct (from_json t _) as [v| | |] eqn:Ej in E; try discriminate; rewrite (IH _ w v S V R Ej); assert (w <> JNull) by (intros X; apply N in X; discriminate); destruct w; [congruence|exact E..]).
  - set (go := fix go fs := match fs with [] => Ok [] | (k, u) :: r => match j with JObj m => let* v := match obj_get m k with Some x => from_json u x | None => match u with TOpt _ => Ok (VOpt None) | _ => Throw end end in let* vs := go r in Ok ((k, v) :: vs) | _ => Throw end end) in E.
    set (go' := fix go' fs := match fs with [] => Ok [] | (k, u) :: r => match w with JObj m => let* v := match obj_get m k with Some x => from_json u x | None => match u with TOpt _ => Ok (VOpt None) | _ => Throw end end in let* vs := go' r in Ok ((k, v) :: vs) | _ => Throw end end).
    pose proof (solid_rec fs S) as Sf. clear S.
    assert (G : forall gs vs, (forall k x, In (k, x) gs -> In (k, x) fs) -> go gs = Ok vs -> go' gs = Ok vs).
    { induction gs as [|[k t] gs IHg]; intros vs Hs Eg; [exact Eg|]. cbn [go go'] in *. destruct j as [|b|n|d|s|l|m]; try discriminate. inversion R as [| | | | | | |? m' F E1]; subst.
      destruct (value_obj _ _ V) as [_ Hl]. pose proof (reread_get m m' F k) as Gk. destruct (obj_get m k) as [x|].
      - destruct Gk as (y & -> & Rx & Ix). destruct (from_json t x) as [v| | |] eqn:Ex; try discriminate.
        rewrite (IH k t (Hs k t (or_introl eq_refl)) x y v (Sf k t (Hs k t (or_introl eq_refl))) (Hl k x Ix) Rx Ex). cbn [obind] in *.
        destruct (go gs) as [r| | |] eqn:Er; try discriminate. rewrite (IHg r (fun a b Hab => Hs a b (or_intror Hab)) eq_refl). exact Eg.
      - rewrite Gk. destruct (match t with TOpt _ => Ok (VOpt None) | _ => Throw end) as [v| | |]; try discriminate. cbn [obind] in *.
        destruct (go gs) as [r| | |] eqn:Er; try discriminate. rewrite (IHg r (fun a b Hab => Hs a b (or_intror Hab)) eq_refl). exact Eg. }
    destruct (go fs) as [vs| | |] eqn:Eg; try discriminate. change (omap VRec (go' fs) = Ok u). rewrite (G fs vs (fun k x H => H) Eg). exact E.
Qed.

Lemma read_one_float fbk pr esc j s r : value readable j -> holds text j -> Z.of_nat (length (body pr esc j)) < 2 ^ 30 - 8 -> nl s (body pr esc j ++ 10 :: r) ->
  exists w s', read_json fbk s = JOk (w, s') /\ reread j w /\ nl s' r.
Proof.
  intros V K B N. destruct (document j V K) as (w & R & J1 & J2). exists w.
  assert (J : jval dec_value (body pr esc j) w) by (unfold body; destruct pr; auto).
  assert (P : exists pre, ws pre /\ s = pre ++ body pr esc j ++ 10 :: r) by (destruct N as [->| ->]; [exists []; split; [constructor|reflexivity]|exists [10]; split; [constructor; [auto|constructor]|reflexivity]]).
  destruct P as (pre & Hw & ->). unfold read_json.
  destruct (parse_value fbk dec_value dec_ok (Z.of_nat (length (body pr esc j))) (body pr esc j) w pre (start (pre ++ body pr esc j ++ 10 :: r)) (10 :: r)) as (st & E & HR & _); auto.
  - lia.
  - apply start_cap. lia.
  - lia.
  - constructor.
  - cbn. unfold digit. lia.
  - discriminate.
  - rewrite E. exists (inp st). split; [reflexivity|]. split; [exact R|]. inversion HR as [s' k E1 E2|c e s' k Hc E1 E2]; subst; cbn.
    + right. reflexivity.
    + left. destruct (utf8_char_prefix _ _ _ _ _ _ Hc (u1 10 ltac:(lia)) (E2 : e ++ s' = [10] ++ r)) as [_ F]. exact F.
Qed.
Theorem gets_floats fbk pr esc tvs : forall s,
  Forall (fun tv => plain (fst tv) /\ solid (fst tv) /\ typed (fst tv) (snd tv) /\ value exact12 (to_json (snd tv)) /\ holds text (to_json (snd tv)) /\ Z.of_nat (length (put pr esc (snd tv))) < 2 ^ 30 - 8) tvs ->
  nl s (puts pr esc (map snd tvs)) ->
  exists us r, gets fbk (map fst tvs) s = (map AValue us, Some r) /\ Forall2 veq (map snd tvs) us /\ forall t, get fbk t r = (AEnd, None).
Proof.
  induction tvs as [|[t v] tvs IH]; intros s F N.
  - exists [], s. split; [reflexivity|]. split; [constructor|]. intros t. unfold get. rewrite (read_end fbk s N). reflexivity.
  - destruct (Forall_inv F) as (P & S & T & V & K & B). cbn [fst snd] in *. rewrite put_body, app_length in B. cbn [length] in B.
    unfold puts in N. cbn [map concat snd] in N. rewrite put_body, <- app_assoc in N.
    destruct (read_one_float fbk pr esc (to_json v) s (puts pr esc (map snd tvs)) (value_imp _ _ _ exact_readable V) K ltac:(lia) N) as (w & s' & E & R & N').
    destruct (IH s' (Forall_inv_tail F) N') as (us & r & E2 & Q & E3).
    destruct (cast_round t v (to_json v) P T (same_refl _)) as (u & Eu & Qu).
    exists (u :: us), r. split; [|split; [constructor; assumption|exact E3]]. cbn [map gets fst]. unfold get at 1. rewrite E, (same_cast t _ _ _ S V R Eu), E2. reflexivity.
Qed.
