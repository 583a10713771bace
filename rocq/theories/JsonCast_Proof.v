(** Conversions between C++ values and JSON. *)
From Coq Require Import Permutation.
From Verif Require Import Common CommonLemmas Double_Model Double_Spec Double_Proof Json_Model Json_Spec JsonParse_Proof JsonComplete_Proof JsonPrint_Proof
  JsonSafe_Proof JsonEq_Proof JsonCast_Model JsonCast_Spec.
Local Open Scope Z_scope.

Section Ind.
  Context (P : ty -> Prop) (H1 : P TBool) (H2 : P TInt) (H3 : P TLong) (H4 : P TDouble) (H5 : P TStr) (H6 : P TJson)
    (H7 : forall t, P t -> P (TVec t)) (H8 : forall t, P t -> P (TMap t)) (H9 : forall t, P t -> P (TOpt t))
    (H10 : forall fs, (forall k t, In (k, t) fs -> P t) -> P (TRec fs)).
  Fixpoint ty_ind' (t : ty) : P t :=
    match t with
    | TBool => H1 | TInt => H2 | TLong => H3 | TDouble => H4 | TStr => H5 | TJson => H6
    | TVec u => H7 u (ty_ind' u) | TMap u => H8 u (ty_ind' u) | TOpt u => H9 u (ty_ind' u)
    | TRec fs => H10 fs ((fix go m : forall k x, In (k, x) m -> P x :=
        match m with
        | [] => fun k x F => match F with end
        | y :: r => fun k x HI => match HI with
                                  | or_introl E => eq_ind (snd y) P (ty_ind' (snd y)) x (f_equal snd E)
                                  | or_intror F => go r k x F
                                  end
        end) fs)
    end.
End Ind.

Lemma wrap32_id n : - 2 ^ 31 <= n < 2 ^ 31 -> wrap32 n = n.
Proof. intros H. unfold wrap32. rewrite Z.mod_small by lia. lia. Qed.
Lemma wrap32_range n : - 2 ^ 31 <= wrap32 n < 2 ^ 31.
Proof. unfold wrap32. pose proof (Z.mod_pos_bound (n + 2 ^ 31) (2 ^ 32) eq_refl). lia. Qed.

Lemma veq_mem_iff l m : veq_mem l m <-> Forall2 (fun a b => fst a = fst b /\ veq (snd a) (snd b)) l m.
Proof.
  split.
  - revert m. induction l as [|x l IH]; intros m H; inversion H; subst; constructor; auto.
  - intros H. induction H as [|[k x] [k' y] l m [E Hs] H IH]; [constructor|]. cbn [fst snd] in *. subst. constructor; auto.
Qed.
Lemma veq_list_iff l m : veq_list l m <-> Forall2 veq l m.
Proof.
  split.
  - revert m. induction l as [|x l IH]; intros m H; inversion H; subst; constructor; auto.
  - intros H. induction H; constructor; auto.
Qed.

Lemma copy_map (m : list (list Z * val)) : NoDup (map fst m) ->
  fold_left (fun acc kv => obj_add acc (fst kv) (snd kv)) (map (fun kv => (fst kv, to_json (snd kv))) m) [] = map (fun kv => (fst kv, to_json (snd kv))) m.
Proof. intros H. apply copy_get. unfold is_map. rewrite map_map. cbn [fst]. exact H. Qed.

(** obj_add at a new key appends *)
Lemma add_new {A} (m : list (list Z * A)) k v : ~ In k (map fst m) -> obj_add m k v = m ++ [(k, v)].
Proof.
  induction m as [|[k' v'] m IH]; intros H; [reflexivity|]. cbn [obj_add map fst] in *. rewrite keyeqb_ne by (intros ->; apply H; now left).
  cbn [app]. f_equal. apply IH. intros HI. apply H. now right.
Qed.
Lemma from_map_go u m w : Forall2 (fun kj kv => fst kj = fst kv /\ from_json u (snd kj) = Ok (snd kv)) m w -> forall acc, NoDup (map fst acc ++ map fst m) ->
  (fix go m acc := match m with
                   | [] => Ok acc
                   | (k, x) :: r => let* v := from_json u x in go r (madd acc k v)
                   end) m acc = Ok (acc ++ w).
Proof.
  intros H. induction H as [|[k x] [k' v] m w [E1 E2] H IH]; intros acc Hn; [now rewrite app_nil_r|].
  cbn [fst snd] in *. subst k'. rewrite E2. cbn [obind]. unfold madd. cbn [map fst] in Hn.
  rewrite add_new.
  2:{ intros HI. apply NoDup_remove_2 in Hn. apply Hn. apply in_or_app. now left. }
  unfold madd in IH. rewrite IH; [rewrite <- app_assoc; reflexivity|]. rewrite map_app. cbn [map fst]. rewrite <- app_assoc. exact Hn.
Qed.

Lemma same_obj_inv l j : same (JObj l) j -> exists m m', j = JObj m /\ same_members l m' /\ Permutation m' m.
Proof. intros H. inversion H; subst. eauto 6. Qed.

Lemma not_null t v j : never_null t -> typed t v -> same (to_json v) j -> j <> JNull.
Proof.
  intros Hn Ht Hs ->. destruct Ht; cbn in Hn; try contradiction; cbn [to_json] in Hs; inversion Hs.
Qed.

Theorem cast_round t v j : plain t -> typed t v -> same (to_json v) j -> exists v', from_json t j = Ok v' /\ veq v v'.
Proof.
  revert v j. induction t as [| | | | | |u IH|u IH|u IH|fs IH] using ty_ind'; intros v j Hp Ht Hs; inversion Ht; subst; cbn [to_json] in Hs.
  - inversion Hs; subst. eexists. split; [reflexivity|constructor].
  - inversion Hs; subst. eexists. split; [reflexivity|]. rewrite wrap32_id by assumption. constructor.
  - inversion Hs; subst. eexists. split; [reflexivity|constructor].
  - inversion Hs; subst. eexists. split; [reflexivity|constructor].
  - inversion Hs; subst. eexists. split; [reflexivity|constructor].
  - eexists. split; [reflexivity|]. now constructor.
  - inversion Hs as [| | | | |? m HS|]; subst. apply same_list_iff in HS. cbn [from_json].
    match goal with H : Forall (typed u) l |- _ => rename H into HF end.
    assert (G : exists w, (fix go l := match l with [] => Ok [] | x :: r => let* v := from_json u x in let* vs := go r in Ok (v :: vs) end) m = Ok w /\ Forall2 veq l w).
    { clear Hs Ht. revert m HS. induction HF as [|x l Hx HF IHl]; intros m HS; inversion HS as [|? y ? m' Hxy HS']; subst.
      - exists []. split; [reflexivity|constructor].
      - destruct (IH x y Hp Hx Hxy) as (v' & E & Hv). destruct (IHl m' HS') as (w & E' & Hw). exists (v' :: w).
        rewrite E. cbn [obind]. rewrite E'. split; [reflexivity|]. now constructor. }
    destruct G as (w & -> & Hw). exists (VVec w). split; [reflexivity|]. constructor. now apply veq_list_iff.
  - match goal with H : NoDup (map fst m) |- _ => rename H into HN end. match goal with H : Forall _ m |- _ => rename H into HF end.
    rewrite copy_map in Hs by exact HN. destruct (same_obj_inv _ _ Hs) as (n & n' & -> & HS & HP).
    pose proof (same_members_keys _ _ HS) as HK. rewrite map_map in HK. cbn [fst] in HK.
    set (R := fun (kj : list Z * json) (kv : list Z * val) => fst kj = fst kv /\ from_json u (snd kj) = Ok (snd kv)).
    assert (G : exists w', Forall2 R n' w' /\ veq_mem m w').
    { apply same_members_iff in HS. clear Hs Ht HN HP HK. revert n' HS. induction HF as [|[k x] m Hx HF IHm]; intros n' HS; cbn [map] in HS; inversion HS as [|? [k' y] ? m' [Ek Hxy] HS']; subst.
      - exists []. split; constructor.
      - cbn [fst snd] in *. subst k'. destruct (IH x y Hp Hx Hxy) as (v' & E & Hv). destruct (IHm m' HS') as (w & E' & Hw). exists ((k, v') :: w).
        split; constructor; auto. split; [reflexivity|exact E]. }
    destruct G as (w' & HR & Hw). destruct (Permutation_Forall2 HP HR) as (w & HPw & HRw).
    cbn [from_json]. rewrite (from_map_go u n w HRw []).
    2:{ cbn [map app]. eapply Permutation_NoDup; [apply Permutation_map, HP|]. rewrite <- HK. exact HN. }
    exists (VMap w). split; [reflexivity|]. econstructor; eauto.
  - inversion Hs; subst. cbn [from_json]. eexists. split; [reflexivity|constructor].
  - destruct Hp as [Hn Hp]. match goal with H : typed u x |- _ => rename H into Hx end.
    destruct (IH x j Hp Hx Hs) as (v' & E & Hv). exists (VOpt (Some v')). split; [|now constructor].
    pose proof (not_null u x j Hn Hx Hs) as HNN. cbn [from_json]. rewrite E. destruct j; try congruence; reflexivity.
  - match goal with H : Forall2 _ fs vs |- _ => rename H into HF end. destruct Hp as [HN Hp].
    assert (HKv : map fst vs = map fst fs) by (clear -HF; induction HF as [|? ? ? ? [E _] ? IHF]; cbn [map]; congruence).
    rewrite copy_map in Hs by (rewrite HKv; exact HN). destruct (same_obj_inv _ _ Hs) as (n & n' & -> & HS & HP).
    assert (HK : map fst vs = map fst n') by (rewrite <- (same_members_keys _ _ HS), map_map; reflexivity).
    assert (Mn : is_map n) by (unfold is_map; eapply Permutation_NoDup; [apply Permutation_map, HP|]; rewrite <- HK, HKv; exact HN).
    assert (HI : incl n' n) by (intros z Hz; eapply Permutation_in; eauto).
    apply same_members_iff in HS. cbn [from_json]. clear Hs Ht HN HP HK HKv.
    assert (G : exists w, (fix go fs := match fs with
        | [] => Ok []
        | (k, u) :: r => let* v := match obj_get n k with Some x => from_json u x | None => match u with TOpt _ => Ok (VOpt None) | _ => Throw end end in
                         let* vs := go r in Ok ((k, v) :: vs) end) fs = Ok w /\ veq_mem vs w).
    { revert n' HS HI Hp IH. induction HF as [|[k u] [k' x] fs vs [Ek Hx] HF IHF]; intros n' HS HI Hp IH; cbn [map] in HS; inversion HS as [|? [k'' y] ? m' [Ek' Hxy] HS']; subst.
      - exists []. split; [reflexivity|constructor].
      - cbn [fst snd] in *. subst k''. subst k'. rewrite (in_get n k y Mn) by (apply HI; now left).
        destruct Hp as [Hp1 Hp2]. destruct (IH k u ltac:(now left) x y Hp1 Hx Hxy) as (v' & E & Hv).
        destruct (IHF m' HS') as (w & E' & Hw); [intros z Hz; apply HI; now right|exact Hp2|intros k0 t0 H0; apply (IH k0 t0); now right|].
        exists ((k, v') :: w). rewrite E. cbn [obind]. rewrite E'. split; [reflexivity|]. now constructor. }
    destruct G as (w & E & Hw). exists (VRec w). split; [|now constructor].
    transitivity (omap VRec (Ok w)); [|reflexivity]. f_equal. exact E.
Qed.

Lemma int_double n : - 2 ^ 63 <= n < 2 ^ 63 -> exists d, int_to_double n = DOk d.
Proof.
  intros H. unfold int_to_double, to_double. destruct (Z.eqb_spec (Z.abs n) 0); [eauto|].
  assert (HL : Z.log2 (Z.abs n) <= 63) by (change 63 with (Z.log2 (2 ^ 63)); apply Z.log2_le_mono; lia).
  assert (HF : flog2 (Z.abs n) 1 <= 63).
  { unfold flog2. change (Z.log2 1) with 0. rewrite Z.sub_0_r. destruct (scale 2 (Z.abs n) 1 (Z.log2 (Z.abs n))). destruct (_ <=? _); lia. }
  assert (HT : tiny (Z.abs n) 1 = false).
  { unfold tiny. apply Z.ltb_ge. apply Z.le_trans with (1 * 2 ^ 1076); [now vm_compute|]. apply Z.mul_le_mono_nonneg_r; [now vm_compute|lia]. }
  rewrite HT. cbn [andb]. set (e := Z.max (-1074) (flog2 (Z.abs n) 1 - 52)). assert (He : e <= 11) by lia. clearbody e.
  destruct (scale 2 (Z.abs n) 1 e) as [a b]. destruct (rhe a b =? 2 ^ 53).
  - destruct (Z.ltb_spec 971 (e + 1)); [lia|eauto].
  - destruct (Z.ltb_spec 971 e); [lia|eauto].
Qed.

Lemma from_vec_cases u (l : list json) : (forall x, In x l -> (exists v, from_json u x = Ok v /\ typed u v /\ fits u x) \/ (from_json u x = Throw /\ ~ fits u x)) ->
  let r := (fix go l := match l with [] => Ok [] | x :: r => let* v := from_json u x in let* vs := go r in Ok (v :: vs) end) l in
  (exists w, r = Ok w /\ Forall (typed u) w /\ Forall (fits u) l) \/ (r = Throw /\ ~ Forall (fits u) l).
Proof.
  induction l as [|x l IH]; intros H; cbn zeta.
  - left. exists []. repeat split; constructor.
  - destruct (H x ltac:(now left)) as [(v & E & Ht & Hf)|(E & Hf)]; rewrite E; cbn [obind].
    + destruct IH as [(w & E' & Hw & Hl)|(E' & Hl)]; [intros y Hy; apply H; now right| |]; rewrite E'; cbn [obind].
      * left. exists (v :: w). repeat split; constructor; auto.
      * right. split; [reflexivity|]. intros HH. inversion HH. auto.
    + right. split; [reflexivity|]. intros HH. inversion HH. auto.
Qed.
Lemma add_fst {A} (m : list (list Z * A)) k v : NoDup (map fst m) -> NoDup (map fst (obj_add m k v)) /\ (forall x, In x (map fst (obj_add m k v)) -> x = k \/ In x (map fst m)).
Proof.
  induction m as [|[k' v'] m IH]; intros Hn; cbn [obj_add map fst].
  - split; [constructor; [intros []|constructor]|]. intros x [H|[]]; auto.
  - inversion Hn as [|? ? Hn1 Hn2]; subst. destruct (keyeqb k k') eqn:E; cbn [map fst].
    + apply keyeqb_dec in E. subst. split; [constructor; assumption|]. intros x [H|H]; auto. right. now right.
    + destruct (IH Hn2) as [H1 H2]. split.
      * constructor; [|assumption]. intros HI. destruct (H2 k' HI) as [->|HI']; [rewrite keyeqb_refl in E; discriminate|contradiction].
      * intros x [H|H]; [right; now left|]. destruct (H2 x H); auto. right. now right.
Qed.
Lemma add_in {A} (m : list (list Z * A)) k v x : In x (obj_add m k v) -> x = (k, v) \/ In x m.
Proof.
  induction m as [|[k' v'] m IH]; cbn [obj_add]; [intros [H|[]]; auto|].
  destruct (keyeqb k k'); intros [H|H]; auto; [right; now right|right; now left|]. destruct (IH H); auto. right. now right.
Qed.
Definition good_map (u : ty) (m : list (list Z * val)) : Prop := NoDup (map fst m) /\ Forall (fun kv => typed u (snd kv)) m.
Lemma good_map_add u m k v : good_map u m -> typed u v -> good_map u (madd m k v).
Proof.
  intros [H1 H2] Hv. unfold madd. split; [now apply add_fst|]. apply Forall_forall. intros x Hx. destruct (add_in _ _ _ _ Hx) as [->|HI]; [assumption|].
  rewrite Forall_forall in H2. auto.
Qed.
Lemma from_map_cases u (m : list (list Z * json)) : (forall k x, In (k, x) m -> (exists v, from_json u x = Ok v /\ typed u v /\ fits u x) \/ (from_json u x = Throw /\ ~ fits u x)) ->
  forall acc, good_map u acc ->
  let r := (fix go m acc := match m with [] => Ok acc | (k, x) :: r => let* v := from_json u x in go r (madd acc k v) end) m acc in
  (exists w, r = Ok w /\ good_map u w /\ Forall (fun kv => fits u (snd kv)) m) \/ (r = Throw /\ ~ Forall (fun kv => fits u (snd kv)) m).
Proof.
  induction m as [|[k x] m IH]; intros H acc Ha; cbn zeta.
  - left. exists acc. repeat split; try apply Ha. constructor.
  - destruct (H k x ltac:(now left)) as [(v & E & Ht & Hf)|(E & Hf)]; rewrite E; cbn [obind].
    + destruct (IH ltac:(intros k' y Hy; apply (H k'); now right) (madd acc k v) ltac:(now apply good_map_add)) as [(w & E' & Hw & Hl)|(E' & Hl)]; rewrite E'.
      * left. exists w. repeat split; try apply Hw. constructor; auto.
      * right. split; [reflexivity|]. intros HH. inversion HH. auto.
    + right. split; [reflexivity|]. intros HH. inversion HH. auto.
Qed.

(** from_json succeeds exactly on JSON of the right kinds, with a value of the type. *)
Theorem from_json_cases F t j : value F j ->
  (exists v, from_json t j = Ok v /\ typed t v /\ fits t j) \/ (from_json t j = Throw /\ ~ fits t j).
Proof.
  revert j. induction t as [| | | | | |u IH|u IH|u IH|fs IH] using ty_ind'; intros j Hv.
  - destruct j; try (right; split; [reflexivity|intros HH; inversion HH]; fail). left. eexists. repeat split; constructor.
  - destruct j; try (right; split; [reflexivity|intros HH; inversion HH]; fail). left. eexists. repeat split; constructor. apply wrap32_range.
  - destruct j; try (right; split; [reflexivity|intros HH; inversion HH]; fail). left. eexists. repeat split; constructor. exact Hv.
  - destruct j; try (right; split; [reflexivity|intros HH; inversion HH]; fail); left.
    + cbn [from_json]. destruct (int_double n Hv) as (d & ->). eexists. repeat split; constructor.
    + eexists. repeat split; constructor.
  - destruct j; try (right; split; [reflexivity|intros HH; inversion HH]; fail). left. eexists. repeat split; constructor.
  - left. eexists. repeat split; constructor.
  - destruct j; try (right; split; [reflexivity|intros HH; inversion HH]; fail). cbn [from_json].
    destruct (from_vec_cases u l) as [(w & E & Hw & Hl)|(E & Hl)]; [intros x Hx; apply IH; eapply value_in_arr; eauto| |]; rewrite E.
    + left. eexists. repeat split; constructor; auto.
    + right. split; [reflexivity|]. intros HH. inversion HH. auto.
  - destruct j; try (right; split; [reflexivity|intros HH; inversion HH]; fail). cbn [from_json].
    destruct (from_map_cases u m ltac:(intros k x Hx; apply IH; eapply value_in_obj; eauto) []) as [(w & E & [Hw1 Hw2] & Hl)|(E & Hl)]; [split; constructor| |]; rewrite E.
    + left. eexists. repeat split; constructor; auto.
    + right. split; [reflexivity|]. intros HH. inversion HH. auto.
  - destruct j; [left; eexists; repeat split; constructor| | | | | |];
      (cbn [from_json]; destruct (IH _ Hv) as [(v & E & Ht & Hf)|(E & Hf)]; rewrite E; cbn [obind];
       [left; eexists; repeat split; constructor; assumption|right; split; [reflexivity|intros HH; inversion HH; auto]]).
  - destruct fs as [|[k u] fs].
    { left. exists (VRec []). repeat split; constructor. constructor. }
    destruct j; try (right; split; [reflexivity|intros HH; inversion HH]; fail). cbn [from_json].
    pose proof (value_map _ _ Hv) as Mm.
    set (ok := fun fs : list (list Z * ty) => forall k t, In (k, t) fs -> (exists j, In (k, j) m /\ fits t j) \/ (~ In k (map fst m) /\ exists u, t = TOpt u)).
    assert (G : forall fs, (forall k t, In (k, t) fs -> forall j, value F j -> (exists v, from_json t j = Ok v /\ typed t v /\ fits t j) \/ (from_json t j = Throw /\ ~ fits t j)) ->
      let r := (fix go fs := match fs with
        | [] => Ok []
        | (k, u) :: r => let* v := match obj_get m k with Some x => from_json u x | None => match u with TOpt _ => Ok (VOpt None) | _ => Throw end end in
                         let* vs := go r in Ok ((k, v) :: vs) end) fs in
      (exists w, r = Ok w /\ typed (TRec fs) (VRec w) /\ ok fs) \/ (r = Throw /\ ~ ok fs)).
    { clear fs k u IH. induction fs as [|[k u] fs IHf]; intros IH; cbn zeta.
      - left. exists []. repeat split; [constructor; constructor|intros k t []].
      - assert (HD : (exists v, match obj_get m k with Some x => from_json u x | None => match u with TOpt _ => Ok (VOpt None) | _ => Throw end end = Ok v /\ typed u v /\ ok [(k, u)]) \/
          (match obj_get m k with Some x => from_json u x | None => match u with TOpt _ => Ok (VOpt None) | _ => Throw end end = Throw /\ ~ ok [(k, u)])).
        { destruct (obj_get m k) as [x|] eqn:Eg.
          - apply get_in in Eg. destruct (IH k u ltac:(now left) x ltac:(eapply value_in_obj; eauto)) as [(v & E & Ht & Hf)|(E & Hf)].
            + left. exists v. repeat split; auto. intros k' t [Eq|[]]. injection Eq as <- <-. left. eauto.
            + right. split; [assumption|]. intros HH. destruct (HH k u ltac:(now left)) as [(j & Hj & Hfj)|(Hn & _)].
              * apply Hf. pose proof (in_get m k j Mm Hj). pose proof (in_get m k x Mm Eg). congruence.
              * apply Hn. apply (in_map fst) in Eg. exact Eg.
          - apply get_none in Eg. destruct (match u with TOpt _ => true | _ => false end) eqn:Eu.
            + destruct u; try discriminate. left. eexists. repeat split; [constructor|]. intros k' t [Eq|[]]. injection Eq as <- <-. right. split; [assumption|eauto].
            + right. split; [destruct u; try reflexivity; discriminate|]. intros HH. destruct (HH k u ltac:(now left)) as [(j & Hj & _)|(_ & w & ->)]; [|discriminate].
              apply Eg. apply (in_map fst) in Hj. exact Hj. }
        destruct HD as [(v & E & Ht & Hok)|(E & Hok)]; rewrite E; cbn [obind].
        + destruct IHf as [(w & E' & Hw & Hl)|(E' & Hl)]; [intros k' t Ht'; apply (IH k'); now right| |]; rewrite E'; cbn [obind].
          * left. exists ((k, v) :: w). split; [reflexivity|]. split; [constructor; inversion Hw; subst; constructor; auto|].
            intros k' t [Eq|HI]; [apply Hok; left; assumption|now apply Hl].
          * right. split; [reflexivity|]. intros HH. apply Hl. intros k' t HI. apply HH. now right.
        + right. split; [reflexivity|]. intros HH. apply Hok. intros k' t [Eq|[]]. apply HH. now left. }
    destruct (G ((k, u) :: fs) IH) as [(w & E & Hw & Hok)|(E & Hok)].
    + left. exists (VRec w). split; [|split; [assumption|now constructor]]. transitivity (omap VRec (Ok w)); [|reflexivity]. f_equal. exact E.
    + right. split; [transitivity (omap VRec (@Throw (list (list Z * val)))); [|reflexivity]; f_equal; exact E|]. intros HH. inversion HH; subst. auto.
Qed.

(** ** With defaults *)
Lemma typed_readable t v : typed t v -> readable v = true.
Proof.
  revert v. induction t as [| | | | | |u IH|u IH|u IH|fs IH] using ty_ind'; intros v H; inversion H; subst; cbn [readable]; auto.
  - apply forallb_forall. intros x Hx. apply IH. match goal with HF : Forall _ _ |- _ => rewrite Forall_forall in HF; auto end.
  - apply forallb_forall. intros x Hx. apply IH. match goal with HF : Forall _ _ |- _ => rewrite Forall_forall in HF; auto end.
  - match goal with HF : Forall2 _ fs vs |- _ => clear H; revert IH; induction HF as [|[k u] [k' x] fs vs [E Hx] HF IHF]; intros IH end; [reflexivity|].
    cbn [forallb fst snd] in *. rewrite (IH k u ltac:(now left) x Hx). apply IHF. intros k0 t0 H0. apply (IH k0 t0). now right.
Qed.
Lemma typed_value_init t : typed t (value_init t).
Proof.
  induction t as [| | | | | |u IH|u IH|u IH|fs IH] using ty_ind'; cbn [value_init]; constructor; try lia; try constructor.
  induction fs as [|[k u] fs IHf]; constructor; [split; [reflexivity|apply (IH k); now left]|]. apply IHf. intros k' t Ht. apply (IH k'). now right.
Qed.
Lemma typed_default_init t : initialised t -> typed t (default_init t).
Proof.
  induction t as [| | | | | |u IH|u IH|u IH|fs IH] using ty_ind'; intros Hi; cbn [default_init initialised] in *; try contradiction; constructor; try lia; try constructor.
  induction fs as [|[k u] fs IHf]; constructor; [split; [reflexivity|apply (IH k); [now left|apply Hi]]|].
  apply IHf; [intros k' t Ht; apply (IH k'); now right|apply Hi].
Qed.
Lemma blank_value_init t : blank t (value_init t).
Proof.
  induction t as [| | | | | |u IH|u IH|u IH|fs IH] using ty_ind'; cbn [value_init]; constructor.
  induction fs as [|[k u] fs IHf]; constructor; [split; [reflexivity|apply (IH k); now left]|]. apply IHf. intros k' t Ht. apply (IH k'). now right.
Qed.
Lemma blank_default_init t : blank t (default_init t).
Proof.
  induction t as [| | | | | |u IH|u IH|u IH|fs IH] using ty_ind'; cbn [default_init]; constructor.
  induction fs as [|[k u] fs IHf]; constructor; [split; [reflexivity|apply (IH k); now left]|]. apply IHf. intros k' t Ht. apply (IH k'). now right.
Qed.

Theorem from_def_ok F t j v : value F j -> safe_optionals t -> typed t v -> exists v', from_def t j v = Ok v' /\ typed t v'.
Proof.
  revert j v. induction t as [| | | | | |u IH|u IH|u IH|fs IH] using ty_ind'; intros j v Hv Hs Ht.
  - destruct j; cbn [from_def]; eexists; (split; [reflexivity|]); try assumption; constructor.
  - destruct j; cbn [from_def]; eexists; (split; [reflexivity|]); try assumption; constructor. apply wrap32_range.
  - destruct j; cbn [from_def]; eexists; (split; [reflexivity|]); try assumption; constructor. exact Hv.
  - destruct j; cbn [from_def]; try (eexists; (split; [reflexivity|]); assumption).
    + destruct (int_double n Hv) as (d & ->). eexists; split; [reflexivity|constructor].
    + eexists; split; [reflexivity|constructor].
  - destruct j; cbn [from_def]; eexists; (split; [reflexivity|]); try assumption; constructor.
  - eexists; split; [reflexivity|constructor].
  - inversion Ht as [| | | | | |? old HF| | | |]; subst. destruct j as [| | | | |l|]; cbn [from_def]; try (eexists; (split; [reflexivity|]); assumption).
    match goal with |- exists v', omap VVec ?r = _ /\ _ => assert (G : exists w, r = Ok w /\ Forall (typed u) w) end.
    { assert (Hl : forall x, In x l -> value F x) by (intros x Hx; eapply value_in_arr; eauto). clear Hv Ht. revert old HF.
      induction l as [|x l IHl]; intros old HF; [exists old; split; [reflexivity|assumption]|].
      assert (Hl' : forall y, In y l -> value F y) by (intros y Hy; apply Hl; now right).
      destruct old as [|o old].
      - destruct (IH x (value_init u) (Hl x ltac:(now left)) Hs (typed_value_init u)) as (y & E & Hy). rewrite E. cbn [obind].
        destruct (IHl Hl' [] ltac:(constructor)) as (w & E' & Hw). rewrite E'. cbn [obind]. exists (y :: w). split; [reflexivity|]. now constructor.
      - inversion HF; subst. destruct (IH x o (Hl x ltac:(now left)) Hs) as (y & E & Hy); [assumption|]. rewrite E. cbn [obind].
        destruct (IHl Hl' old) as (w & E' & Hw); [assumption|]. rewrite E'. cbn [obind]. exists (y :: w). split; [reflexivity|]. now constructor. }
    destruct G as (w & E & Hw). rewrite E. exists (VVec w). split; [reflexivity|]. now constructor.
  - inversion Ht as [| | | | | | |? old HN HF| | |]; subst. destruct j as [| | | | | |m]; cbn [from_def]; try (eexists; (split; [reflexivity|]); assumption).
    match goal with |- exists v', omap VMap ?r = _ /\ _ => assert (G : exists w, r = Ok w /\ good_map u w) end.
    { assert (Hl : forall k x, In (k, x) m -> value F x) by (intros k x Hx; eapply value_in_obj; eauto).
      assert (HG : good_map u old) by (split; assumption). clear Hv Ht HN HF. revert old HG.
      induction m as [|[k x] m IHl]; intros old HG; [exists old; split; [reflexivity|assumption]|].
      assert (Hl' : forall k y, In (k, y) m -> value F y) by (intros k' y Hy; apply (Hl k'); now right).
      assert (Ho : typed u (match obj_get old k with Some o => o | None => value_init u end)).
      { destruct (obj_get old k) as [o|] eqn:E; [|apply typed_value_init]. destruct HG as [_ HG]. clear -HG E.
        induction old as [|[k' o'] old IH]; [discriminate|]. inversion HG; subst. cbn [obj_get] in E. destruct (keyeqb k k'); [injection E as ->; assumption|auto]. }
      destruct (IH x _ (Hl k x ltac:(now left)) Hs Ho) as (y & E & Hy). rewrite E. cbn [obind]. apply IHl; [assumption|]. now apply good_map_add. }
    destruct G as (w & E & Hw1 & Hw2). rewrite E. exists (VMap w). split; [reflexivity|]. now constructor.
  - destruct Hs as [Hi Hs]. destruct (IH j (default_init u) Hv Hs (typed_default_init u Hi)) as (y & E & Hy).
    destruct j; cbn [from_def]; [eexists; split; [reflexivity|constructor]| | | | | |];
      rewrite E; cbn [obind]; rewrite (typed_readable u y Hy); eexists; (split; [reflexivity|]); now constructor.
  - inversion Ht as [| | | | | | | | | |? olds HF]; subst. cbn [from_def].
    match goal with |- exists v', omap VRec ?r = _ /\ _ => assert (G : exists w, r = Ok w /\ typed (TRec fs) (VRec w)) end.
    { clear Ht. cbn [safe_optionals] in Hs. revert Hs IH. induction HF as [|[k u] [k' o] fs olds [Ek Ho] HF IHF]; intros Hs IH; [exists []; split; [reflexivity|constructor; constructor]|].
      cbn [fst snd fold_right] in *. destruct Hs as [Hs1 Hs2].
      assert (HD : exists y, match j with JObj m => match obj_get m k with Some x => from_def u x o | None => Ok o end | _ => Ok o end = Ok y /\ typed u y).
      { destruct j; eauto. destruct (obj_get m k) as [x|] eqn:E; eauto. apply (IH k u ltac:(now left)); auto. apply get_in in E. eapply value_in_obj; eauto. }
      destruct HD as (y & E & Hy). rewrite E. cbn [obind].
      destruct IHF as (w & E' & Hw); [assumption|intros k0 t0 H0; apply (IH k0 t0); now right|]. rewrite E'. cbn [obind]. exists ((k', y) :: w).
      split; [reflexivity|]. constructor. constructor; [split; assumption|]. inversion Hw; subst. assumption. }
    destruct G as (w & E & Hw). rewrite E. exists (VRec w). split; [reflexivity|assumption].
Qed.

Theorem from_def_keeps t j v : ~ top_kind t j -> typed t v -> from_def t j v = Ok v.
Proof.
  intros Hk Ht. destruct t; try (destruct j; cbn [top_kind] in Hk; try (exfalso; apply Hk; exact I); reflexivity).
  - inversion Ht as [| | | | | | | | | |? olds HF]; subst. cbn [from_def].
    transitivity (omap VRec (Ok olds)); [|reflexivity]. f_equal.
    assert (Hj : forall (A : Type) (f : list (list Z * json) -> A) (y : A), match j with JObj m => f m | _ => y end = y).
    { intros A f y. destruct j; try reflexivity. exfalso. apply Hk. exact I. }
    clear Ht Hk. induction HF as [|[k u] [k' o] fs olds [Ek Ho] HF IHF]; [reflexivity|]. rewrite Hj. cbn [obind]. rewrite IHF. reflexivity.
Qed.

Theorem from_def_agrees F t j v w : value F j -> blank t v -> from_json t j = Ok w -> from_def t j v = Ok w.
Proof.
  revert j v w. induction t as [| | | | | |u IH|u IH|u IH|fs IH] using ty_ind'; intros j v w Hv Hb E; cbn [from_json] in E.
  - destruct j; try discriminate; exact E.
  - destruct j; try discriminate; exact E.
  - destruct j; try discriminate; exact E.
  - destruct j; try discriminate; exact E.
  - destruct j; try discriminate; exact E.
  - exact E.
  - destruct j as [| | | | |l|]; try discriminate. inversion Hb; subst. cbn [from_def]. rewrite <- E. f_equal.
    assert (Hl : forall x, In x l -> value F x) by (intros x Hx; eapply value_in_arr; eauto). clear Hv.
    match type of E with omap _ ?r = _ => assert (HE : exists ws, r = Ok ws) by (destruct r; try discriminate; eauto) end. destruct HE as (ws & HE). clear E. revert ws HE.
    induction l as [|x l IHl]; intros ws HE; [reflexivity|].
    destruct (from_json u x) as [y| | |] eqn:Ex; try discriminate. rewrite (IH x (value_init u) y (Hl x ltac:(now left)) (blank_value_init u) Ex). cbn [obind] in *.
    match type of HE with obind ?r _ = _ => destruct r as [ys| | |] eqn:Er; try discriminate end.
    rewrite (IHl ltac:(intros z Hz; apply Hl; now right) ys eq_refl). reflexivity.
  - destruct j as [| | | | | |m]; try discriminate. inversion Hb; subst. cbn [from_def]. rewrite <- E. f_equal. pose proof (value_map _ _ Hv) as Mm.
    assert (Hl : forall k x, In (k, x) m -> value F x) by (intros k x Hx; eapply value_in_obj; eauto). clear Hv.
    match type of E with omap _ ?r = _ => assert (HE : exists ws, r = Ok ws) by (destruct r; try discriminate; eauto) end. destruct HE as (ws & HE). clear E. revert ws HE.
    assert (Hd : forall k, In k (map fst m) -> ~ In k (map fst (@nil (list Z * val)))) by (intros k _ []). revert Hd. generalize (@nil (list Z * val)) as acc. clear Hb.
    induction m as [|[k x] m IHl]; intros acc Hd ws HE; [reflexivity|]. inversion Mm as [|? ? Hn Mm']; subst.
    assert (Hg : obj_get acc k = None).
    { specialize (Hd k ltac:(now left)). clear -Hd. induction acc as [|[a b] acc IH]; [reflexivity|]. cbn [obj_get]. rewrite keyeqb_ne by (intros ->; apply Hd; now left).
      apply IH. intros HI. apply Hd. now right. }
    rewrite Hg. destruct (from_json u x) as [y| | |] eqn:Ex; try discriminate. rewrite (IH x (value_init u) y (Hl k x ltac:(now left)) (blank_value_init u) Ex). cbn [obind] in *.
    eapply IHl; eauto.
    + intros k' z Hz. apply (Hl k'). now right.
    + intros k' Hk' HI. unfold madd in HI. rewrite add_new in HI by (apply Hd; now left). rewrite map_app in HI. apply in_app_or in HI. destruct HI as [HI|[<-|[]]]; [|contradiction].
      apply (Hd k'); [now right|assumption].
  - inversion Hb; subst. assert (HC : j = JNull \/ (j <> JNull /\ exists x, from_json u j = Ok x /\ w = VOpt (Some x))).
    { destruct j; [now left| | | | | |]; right; (split; [discriminate|]); destruct (from_json u _); try discriminate; injection E as <-; eauto. }
    destruct HC as [->|(Hn & x & Ex & ->)]; [exact E|]. pose proof (IH j (default_init u) x Hv (blank_default_init u) Ex) as ED.
    assert (Hr : readable x = true).
    { destruct (from_json_cases F u j Hv) as [(x' & Ex' & Ht & _)|(Ex' & _)]; [|congruence]. rewrite Ex in Ex'. injection Ex' as <-. eapply typed_readable; eauto. }
    cbn [from_def]. rewrite ED. cbn [obind]. rewrite Hr. destruct j; try congruence; reflexivity.
  - inversion Hb as [| | | | | | | | |? olds HF]; subst. cbn [from_def].
    match type of E with omap _ ?r = _ => assert (HE : exists ws, r = Ok ws /\ w = VRec ws) by (destruct r; try discriminate; injection E as <-; eauto) end.
    destruct HE as (ws & HE & ->). clear E Hb. transitivity (omap VRec (Ok ws)); [|reflexivity]. f_equal. revert ws HE IH.
    induction HF as [|[k u] [k' o] fs olds [Ek Ho] HF IHF]; intros ws HE IH; [exact HE|]. cbn [fst snd] in *. subst k'.
    destruct j as [| | | | | |m]; try discriminate.
    match type of HE with obind ?r _ = _ => destruct r as [y| | |] eqn:Er; try discriminate end. cbn [obind] in HE.
    match type of HE with obind ?r _ = _ => destruct r as [ys| | |] eqn:Er'; try discriminate end. cbn [obind] in HE. injection HE as <-.
    assert (ED : match obj_get m k with Some x => from_def u x o | None => Ok o end = Ok y).
    { destruct (obj_get m k) as [x|] eqn:Eg.
      - apply (IH k u ltac:(now left)); auto. apply get_in in Eg. eapply value_in_obj; eauto.
      - destruct u; try discriminate. inversion Ho; subst. exact Er. }
    rewrite ED. cbn [obind]. rewrite (IHF ys eq_refl ltac:(intros k0 t0 H0; apply (IH k0 t0); now right)). reflexivity.
Qed.
