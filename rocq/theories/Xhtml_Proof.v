From Verif Require Import Common CommonLemmas Xhtml_Model Xhtml_Spec.
Local Open Scope Z_scope.

Lemma encode1_cases c : (special c /\ charref (html_encode1 c) c) \/ (~ special c /\ html_encode1 c = [c]).
Proof.
  unfold html_encode1, special.
  destruct (c =? 38) eqn:E1; [left; apply Z.eqb_eq in E1; subst; split; [cbn; tauto|constructor]|].
  destruct (c =? 34) eqn:E2; [left; apply Z.eqb_eq in E2; subst; split; [cbn; tauto|constructor]|].
  destruct (c =? 39) eqn:E3; [left; apply Z.eqb_eq in E3; subst; split; [cbn; tauto|constructor]|].
  destruct (c =? 60) eqn:E4; [left; apply Z.eqb_eq in E4; subst; split; [cbn; tauto|constructor]|].
  destruct (c =? 62) eqn:E5; [left; apply Z.eqb_eq in E5; subst; split; [cbn; tauto|constructor]|].
  right. split; [|reflexivity]. cbn [In]. lia.
Qed.

Lemma unescape_encode s : unescape (html_encode s) s.
Proof.
  induction s as [|c s IH]; [constructor|]. cbn [html_encode].
  destruct (encode1_cases c) as [[_ H]|[H ->]].
  - now constructor.
  - cbn [app]. now constructor.
Qed.

Lemma charref_amp e c : charref e c -> exists r, e = 38 :: r.
Proof. intros []; cbn; eexists; reflexivity. Qed.

Lemma charref_fun e1 c1 r1 e2 c2 r2 : charref e1 c1 -> charref e2 c2 -> e1 ++ r1 = e2 ++ r2 -> e1 = e2 /\ c1 = c2 /\ r1 = r2.
Proof.
  intros H1 H2 E. destruct H1, H2; cbn in E; try (injection E; intros; discriminate || (subst; auto)).
Qed.

Lemma special_amp : special 38. Proof. unfold special; cbn; tauto. Qed.

Lemma unescape_fun raw s : unescape raw s -> forall t, unescape raw t -> s = t.
Proof.
  induction 1 as [|c raw s Hc H IH|e c raw s He H IH]; intros t Ht.
  - inversion Ht as [|? ? ? ? ?|e c raw s He Hs]; [reflexivity|].
    apply charref_amp in He as [r ->]. discriminate.
  - inversion Ht as [|c' raw' s' Hc' Hs'|e' c' raw' s' He' Hs' E]; subst; [f_equal; auto|].
    exfalso. apply charref_amp in He' as [r ->]. cbn in E. injection E as <- _. apply Hc, special_amp.
  - inversion Ht as [E|c' raw' s' Hc' Hs' E|e' c' raw' s' He' Hs' E].
    + apply charref_amp in He as [r ->]. discriminate.
    + exfalso. apply charref_amp in He as [r ->]. cbn in E. injection E as -> _. apply Hc', special_amp.
    + subst. apply (charref_fun _ _ _ _ _ _ He' He) in E as (-> & -> & ->). f_equal; auto.
Qed.

Lemma encode_no_special s c : In c (html_encode s) -> special c -> c = 38.
Proof.
  induction s as [|d s IH]; [contradiction|]. cbn [html_encode]. intros Hin Hs.
  apply in_app_iff in Hin as [Hin|Hin]; [|auto].
  destruct (encode1_cases d) as [[_ H]|[H E]].
  - revert Hin Hs. destruct H; cbn; intuition (subst; try reflexivity; try discriminate).
  - rewrite E in Hin. destruct Hin as [<-|[]]. contradiction.
Qed.

Lemma html_injective s t : html_encode s = html_encode t -> s = t.
Proof. intros E. apply (unescape_fun (html_encode s)); [|rewrite E]; apply unescape_encode. Qed.

(** ** Names *)
Lemma namechar_plain c : namechar c -> ~ special c.
Proof. unfold namechar, special; cbn [In]; lia. Qed.

Lemma encode_name n : Forall namechar n -> html_encode n = n.
Proof.
  induction 1 as [|c n Hc H IH]; [reflexivity|]. cbn [html_encode].
  destruct (encode1_cases c) as [[Hs _]|[_ ->]]; [exfalso; revert Hs; now apply namechar_plain|].
  cbn [app]. now rewrite IH.
Qed.

Definition nnh (r : list Z) : Prop := match r with [] => True | c :: _ => ~ namechar c end.
Definition nwh (r : list Z) : Prop := match r with [] => True | c :: _ => ~ is_ws c end.

(** A maximal run of name characters is unique. *)
Lemma name_split n1 r1 n2 r2 : Forall namechar n1 -> Forall namechar n2 ->
  nnh r1 ->
  nnh r2 ->
  n1 ++ r1 = n2 ++ r2 -> n1 = n2 /\ r1 = r2.
Proof.
  intros H1. revert n2. induction H1 as [|c n1 Hc H1 IH]; intros n2 H2 Hr1 Hr2 E.
  - destruct H2 as [|c2 n2 Hc2 H2]; [auto|]. cbn in E. subst r1. contradiction.
  - destruct H2 as [|c2 n2 Hc2 H2].
    + cbn in E. subst r2. contradiction.
    + cbn in E. injection E as -> E. destruct (IH n2 H2 Hr1 Hr2 E) as [-> ->]. auto.
Qed.

Lemma ws_split w1 r1 w2 r2 : Forall is_ws w1 -> Forall is_ws w2 ->
  nwh r1 ->
  nwh r2 ->
  w1 ++ r1 = w2 ++ r2 -> w1 = w2 /\ r1 = r2.
Proof.
  intros H1. revert w2. induction H1 as [|c n1 Hc H1 IH]; intros n2 H2 Hr1 Hr2 E.
  - destruct H2 as [|c2 n2 Hc2 H2]; [auto|]. cbn in E. subst r1. contradiction.
  - destruct H2 as [|c2 n2 Hc2 H2].
    + cbn in E. subst r2. contradiction.
    + cbn in E. injection E as -> E. destruct (IH n2 H2 Hr1 Hr2 E) as [-> ->]. auto.
Qed.

Lemma quote_split (w1 : list Z) r1 w2 r2 : ~ In 34 w1 -> ~ In 34 w2 -> w1 ++ 34 :: r1 = w2 ++ 34 :: r2 -> w1 = w2 /\ r1 = r2.
Proof.
  revert w2. induction w1 as [|c w1 IH]; intros [|d w2] H1 H2 E; cbn in *.
  - injection E; auto.
  - injection E as <- _. tauto.
  - injection E as -> _. tauto.
  - injection E as -> E. destruct (IH w2) as [-> ->]; auto.
Qed.

Lemma name_head n : is_name n -> exists c r, n = c :: r /\ namechar c.
Proof. intros [H1 H2]. destruct H2 as [|c r Hc _]; [congruence|eauto]. Qed.

Lemma stops_nn r : stops r -> nnh r.
Proof. destruct r; cbn; tauto. Qed.

Lemma name_no_ws n r : is_name n -> nwh (n ++ r).
Proof. intros Hn. apply name_head in Hn as (c & q & -> & Hc). cbn. unfold namechar, is_ws in *. lia. Qed.

Ltac nn := unfold namechar, is_ws, special in *; cbn [In] in *; lia.

Lemma tok_fun m s t1 m1 r1 : tok m s t1 m1 r1 -> forall t2 m2 r2, tok m s t2 m2 r2 -> t1 = t2 /\ m1 = m2 /\ r1 = r2.
Proof.
  assert (X60 : special 60) by (unfold special; cbn; tauto).
  assert (W : forall n, is_name n -> Forall namechar n) by (intros ? []; assumption).
  intros H1 t2 m2 r2 H2.
  destruct H1 as [c r Hc|e c r He|n r Hn Hr|n ws r Hn Hw|ws k raw v r Hw0 Hw Hk Hq Hl Hu|ws k r Hw0 Hw Hk Hr|ws r Hw|ws r Hw];
  inversion H2 as [c' r' Hc' E1 E2|e' c' r' He' E1 E2|n' r' Hn' Hr' E1 E2|n' ws' r' Hn' Hw' E1 E2|ws' k' raw' v' r' Hw0' Hw' Hk' Hq' Hl' Hu' E1 E2|ws' k' r' Hw0' Hw' Hk' Hr' E1 E2|ws' r' Hw' E1 E2|ws' r' Hw' E1 E2]; subst; auto.
  (* char vs others *)
  - exfalso. apply charref_amp in He' as [q ->]. cbn in E2. injection E2 as <- _. apply Hc, special_amp.
  - exfalso; auto.
  - exfalso. auto.
  (* ref *)
  - exfalso. apply charref_amp in He as [q ->]. cbn in E2. injection E2 as -> _. apply Hc', special_amp.
  - apply (charref_fun _ _ _ _ _ _ He' He) in E2 as (-> & -> & ->). auto.
  - exfalso. apply charref_amp in He as [q ->]. discriminate.
  - exfalso. apply charref_amp in He as [q ->]. discriminate.
  (* open *)
  - exfalso. auto.
  - exfalso. apply charref_amp in He' as [q ->]. discriminate.
  - apply name_split in E2 as [-> ->]; auto using stops_nn.
  - exfalso. apply name_head in Hn as (c & q & -> & Hc). injection E2 as <- _. nn.
  (* close *)
  - exfalso. auto.
  - exfalso. apply charref_amp in He' as [q ->]. discriminate.
  - exfalso. apply name_head in Hn' as (c & q & -> & Hc). injection E2 as -> _. nn.
  - assert (Q : forall w r, Forall is_ws w -> nnh (w ++ 62 :: r)).
    { intros w q Hw0. destruct Hw0 as [|d w Hd Hw0]; cbn; nn. }
    apply name_split in E2 as [-> E]; auto.
    apply ws_split in E as [-> E]; auto; [now injection E as ->| |]; cbn; nn.
  (* attr *)
  - apply ws_split in E2 as [-> E]; auto using name_no_ws.
    apply name_split in E as [-> E]; auto; try (cbn; nn).
    injection E as E. apply quote_split in E as [-> ->]; auto.
    rewrite (unescape_fun _ _ Hu v') by assumption. auto.
  - exfalso. apply ws_split in E2 as [-> E]; auto using name_no_ws.
    apply name_split in E as [-> E]; auto using stops_nn; try (cbn; nn). subst. cbn in Hr'. tauto.
  - exfalso. apply ws_split in E2 as [-> E]; auto using name_no_ws; [|cbn; nn].
    apply name_head in Hk as (c & q & -> & Hc). injection E as <- _. nn.
  - exfalso. apply ws_split in E2 as [-> E]; auto using name_no_ws; [|cbn; nn].
    apply name_head in Hk as (c & q & -> & Hc). injection E as <- _. nn.
  (* attr0 *)
  - exfalso. apply ws_split in E2 as [-> E]; auto using name_no_ws.
    apply name_split in E as [-> E]; auto using stops_nn; try (cbn; nn). subst. cbn in Hr. tauto.
  - apply ws_split in E2 as [-> E]; auto using name_no_ws.
    apply name_split in E as [-> E]; auto using stops_nn.
  - exfalso. apply ws_split in E2 as [-> E]; auto using name_no_ws; [|cbn; nn].
    apply name_head in Hk as (c & q & -> & Hc). injection E as <- _. nn.
  - exfalso. apply ws_split in E2 as [-> E]; auto using name_no_ws; [|cbn; nn].
    apply name_head in Hk as (c & q & -> & Hc). injection E as <- _. nn.
  (* end *)
  - exfalso. apply ws_split in E2 as [-> E]; auto using name_no_ws; [|cbn; nn].
    apply name_head in Hk' as (c & q & -> & Hc). injection E as -> _. nn.
  - exfalso. apply ws_split in E2 as [-> E]; auto using name_no_ws; [|cbn; nn].
    apply name_head in Hk' as (c & q & -> & Hc). injection E as -> _. nn.
  - apply ws_split in E2 as [-> E]; auto; try (cbn; nn). now injection E as ->.
  - exfalso. apply ws_split in E2 as [-> E]; auto; try (cbn; nn). discriminate.
  (* self *)
  - exfalso. apply ws_split in E2 as [-> E]; auto using name_no_ws; [|cbn; nn].
    apply name_head in Hk' as (c & q & -> & Hc). injection E as -> _. nn.
  - exfalso. apply ws_split in E2 as [-> E]; auto using name_no_ws; [|cbn; nn].
    apply name_head in Hk' as (c & q & -> & Hc). injection E as -> _. nn.
  - exfalso. apply ws_split in E2 as [-> E]; auto; try (cbn; nn). discriminate.
  - apply ws_split in E2 as [-> E]; auto; try (cbn; nn). now injection E as ->.
Qed.

Lemma tokens_fun m s ts1 : tokens m s ts1 -> forall ts2, tokens m s ts2 -> ts1 = ts2.
Proof.
  assert (NT : forall t m' s', ~ tok InText [] t m' s').
  { intros t m' s' H. inversion H as [| e c r He E| | | | | |]; subst. apply charref_amp in He as [q ->]. discriminate. }
  induction 1 as [|m s t m' s' ts H1 H IH]; intros ts2 H2.
  - inversion H2; [reflexivity|]. exfalso. eapply NT; eauto.
  - inversion H2; subst.
    + exfalso. eapply NT; eauto.
    + destruct (tok_fun _ _ _ _ _ H1 _ _ _ H0) as (-> & -> & ->). f_equal. auto.
Qed.

Inductive steps : mode -> list Z -> list token -> mode -> list Z -> Prop :=
| st_nil m s : steps m s [] m s
| st_cons m s t m' s' ts m'' s'' : tok m s t m' s' -> steps m' s' ts m'' s'' -> steps m s (t :: ts) m'' s''.

Lemma steps_app m s ts m' s' : steps m s ts m' s' -> forall ts2 m'' s'', steps m' s' ts2 m'' s'' -> steps m s (ts ++ ts2) m'' s''.
Proof. induction 1; intros; cbn; [assumption|]. econstructor; eauto. Qed.

Lemma steps_tokens m s ts : steps m s ts InText [] -> tokens m s ts.
Proof.
  remember InText as m' eqn:Em. remember [] as s' eqn:Es. intros H. revert Em Es.
  induction H; intros; subst; [constructor|]. econstructor; eauto.
Qed.

Lemma steps_one m s t m' s' : tok m s t m' s' -> steps m s [t] m' s'.
Proof. intros. econstructor; [eassumption|constructor]. Qed.

Lemma steps_text t r : steps InText (html_encode t ++ r) (map TChar t) InText r.
Proof.
  induction t as [|c t IH]; [constructor|]. cbn [html_encode map]. rewrite <- app_assoc.
  destruct (encode1_cases c) as [[_ H]|[H ->]].
  - econstructor; [constructor; exact H|exact IH].
  - cbn [app]. econstructor; [constructor; exact H|exact IH].
Qed.

Lemma stops_attrs a r : stops r -> stops (render_attrs a ++ r).
Proof. intros Hr. destruct a as [|[k [|c v]] a]; cbn; auto; split; nn. Qed.

Lemma encode_no c s : special c -> c <> 38 -> ~ In c (html_encode s).
Proof. intros Hs Hc Hin. apply Hc. eapply encode_no_special; eauto. Qed.

Lemma steps_attrs a r : Forall (fun kv => is_name (fst kv)) a -> stops r ->
  steps InTag (render_attrs a ++ r) (map (fun kv => TAttr (fst kv) (snd kv)) a) InTag r.
Proof.
  intros Ha Hr. induction Ha as [|[k v] a Hk Ha IH]; [constructor|]. cbn [fst] in Hk.
  cbn [render_attrs map fst snd].
  assert (Ek : html_encode k = k) by (apply encode_name; apply Hk). rewrite Ek.
  destruct v as [|c v].
  - eapply st_cons; [|exact IH]. rewrite <- app_assoc.
    change ((32 :: k) ++ render_attrs a ++ r) with ([32] ++ k ++ (render_attrs a ++ r)).
    apply tk_attr0; [discriminate|repeat constructor|exact Hk|now apply stops_attrs].
  - eapply st_cons; [|exact IH].
    replace (((32 :: k ++ [61; 34] ++ html_encode (c :: v) ++ [34]) ++ render_attrs a) ++ r) with
      ([32] ++ k ++ [61; 34] ++ html_encode (c :: v) ++ 34 :: (render_attrs a ++ r)).
    2:{ cbn [app]. rewrite <- !app_assoc. cbn [app]. rewrite <- !app_assoc. reflexivity. }
    apply tk_attr; [discriminate|repeat constructor|exact Hk| | |apply unescape_encode];
      apply encode_no; unfold special; cbn; try tauto; lia.
Qed.

Lemma steps_render e : wf_elem e -> forall r, steps InText (render e ++ r) (events e) InText r.
Proof.
  revert e. fix IH 2. intros e H r. destruct H as [t|n a ch Hn Ha Hch].
  - apply steps_text.
  - cbn [render events]. assert (En : html_encode n = n) by (apply encode_name; apply Hn). rewrite En.
    assert (HC : forall r, steps InText (flat_map render ch ++ r) (flat_map events ch) InText r).
    { clear - IH Hch. induction Hch as [|c ch Hc Hch IHc]; intros r; [constructor|].
      cbn [flat_map]. rewrite <- app_assoc. eapply steps_app; [apply IH; exact Hc|apply IHc]. }
    set (tail := match ch with [] => str " />" | _ => 62 :: flat_map render ch ++ [60; 47] ++ n ++ [62] end).
    replace ((60 :: n ++ render_attrs a ++ tail) ++ r) with (60 :: n ++ (render_attrs a ++ tail ++ r))
      by (cbn [app]; rewrite <- !app_assoc; reflexivity).
    assert (Hs : stops (tail ++ r)) by (unfold tail; destruct ch; [change (str " />") with [32; 47; 62]|]; cbn; split; nn).
    eapply st_cons; [apply tk_open; [exact Hn|now apply stops_attrs]|].
    eapply steps_app; [apply steps_attrs; assumption|].
    unfold tail. destruct ch as [|c ch].
    + apply steps_one. change (str " />" ++ r) with ([32] ++ 47 :: 62 :: r). constructor. repeat constructor.
    + cbn [app]. eapply st_cons; [apply (tk_end []); constructor|].
      rewrite <- app_assoc. eapply steps_app; [apply HC|]. apply steps_one.
      replace ((60 :: 47 :: n ++ [62]) ++ r) with ([60; 47] ++ n ++ [] ++ 62 :: r)
        by (cbn [app]; rewrite <- !app_assoc; reflexivity).
      apply tk_close; [exact Hn|constructor].
Qed.

Lemma pad_ws i : Forall is_ws (pad i).
Proof. unfold pad. apply Forall_forall. intros x Hx. apply repeat_spec in Hx. left. exact Hx. Qed.

Lemma steps_pretty e : wf_elem e -> forall i r, steps InText (pretty i e ++ r) (events e) InText r.
Proof.
  revert e. fix IH 2. intros e H i r. destruct H as [t|n a ch Hn Ha Hch].
  - apply steps_text.
  - cbn [pretty events]. assert (En : html_encode n = n) by (apply encode_name; apply Hn). rewrite En.
    assert (HC : forall r, steps InText (flat_map (pretty (S i)) ch ++ r) (flat_map events ch) InText r).
    { clear - IH Hch. induction Hch as [|c ch Hc Hch IHc]; intros r; [constructor|].
      cbn [flat_map]. rewrite <- app_assoc. eapply steps_app; [apply IH; exact Hc|apply IHc]. }
    set (tail := match ch with [] => str " />" | _ => 62 :: flat_map (pretty (S i)) ch ++ [60; 47] ++ n ++ 10 :: pad i ++ [62] end).
    replace ((60 :: n ++ render_attrs a ++ 10 :: pad i ++ tail) ++ r) with (60 :: n ++ (render_attrs a ++ 10 :: pad i ++ tail ++ r))
      by (cbn [app]; rewrite <- !app_assoc; cbn [app]; rewrite <- !app_assoc; reflexivity).
    assert (Hs : stops (10 :: pad i ++ tail ++ r)) by (cbn; split; nn).
    eapply st_cons; [apply tk_open; [exact Hn|now apply stops_attrs]|].
    eapply steps_app; [apply steps_attrs; assumption|].
    unfold tail. destruct ch as [|c ch].
    + apply steps_one. change (str " />" ++ r) with ([32] ++ 47 :: 62 :: r).
      replace (10 :: pad i ++ [32] ++ 47 :: 62 :: r) with ((10 :: pad i ++ [32]) ++ 47 :: 62 :: r)
        by (cbn [app]; rewrite <- !app_assoc; reflexivity).
      constructor. constructor; [now right|]. apply Forall_app. split; [apply pad_ws|repeat constructor].
    + cbn [app]. eapply st_cons.
      { apply (tk_end (10 :: pad i)). constructor; [now right|apply pad_ws]. }
      rewrite <- app_assoc. eapply steps_app; [apply HC|]. apply steps_one.
      replace ((60 :: 47 :: n ++ 10 :: pad i ++ [62]) ++ r) with ([60; 47] ++ n ++ (10 :: pad i) ++ 62 :: r)
        by (cbn [app]; rewrite <- !app_assoc; cbn [app]; rewrite <- !app_assoc; reflexivity).
      apply tk_close; [exact Hn|]. constructor; [now right|apply pad_ws].
Qed.

Lemma tokens_render e : wf_elem e -> tokens InText (render e) (events e).
Proof. intros H. apply steps_tokens. rewrite <- (app_nil_r (render e)) at 1. now apply steps_render. Qed.
Lemma tokens_pretty i e : wf_elem e -> tokens InText (pretty i e) (events e).
Proof. intros H. apply steps_tokens. rewrite <- (app_nil_r (pretty i e)) at 1. now apply steps_pretty. Qed.
