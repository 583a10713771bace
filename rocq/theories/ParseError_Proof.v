From Verif Require Import Common CommonLemmas NumText_Model Cast_Model ParseError_Model ParseError_Spec.
From Verif Require Ratio_Spec Ratio_Proof Ipv4_Model.
Local Open Scope Z_scope.
Lemma numeral_chars t z c : Ratio_Spec.numeral t z -> In c t -> c = 45 \/ 48 <= c <= 57.
Proof.
  intros (ds & -> & _ & H & _) Hc. rewrite Forall_forall in H. destruct (z <? 0); [|right; auto]. destruct Hc as [<-|Hc]; [now left|right; auto].
Qed.
Lemma split_unique (x : Z) : forall a b a' b', ~ In x a -> ~ In x a' -> a ++ x :: b = a' ++ x :: b' -> a = a' /\ b = b'.
Proof.
  induction a as [|y a IH]; intros b [|z a'] b' H H' E; cbn [app] in E.
  - injection E as <-. now split.
  - injection E as <- _. exfalso. apply H'. now left.
  - injection E as -> _. exfalso. apply H. now left.
  - injection E as <- E. apply IH in E as [<- <-]; [now split| |]; intros K; [apply H|apply H']; now right.
Qed.
Lemma located_unique t f l p m f' l' p' m' : ~ In 58 f -> ~ In 58 f' -> located t f l p m -> located t f' l' p' m' -> f = f' /\ l = l' /\ p = p' /\ m = m'.
Proof.
  intros H H' (tl & tp & Nl & Np & ->) (tl' & tp' & Nl' & Np' & E). cbn [app] in E.
  assert (C : forall t z, Ratio_Spec.numeral t z -> ~ In 58 t /\ ~ In 32 t) by (intros u z Hu; split; intros K; apply (numeral_chars u z _ Hu) in K; lia).
  apply split_unique in E as [<- E]; [|assumption..]. apply split_unique in E as [<- E]; [|eapply C; eassumption..]. apply split_unique in E as [<- E]; [|eapply C; eassumption..].
  split; [reflexivity|]. split; [eapply Ratio_Proof.numeral_unique; eassumption|]. split; [eapply Ratio_Proof.numeral_unique; eassumption|exact E].
Qed.
Lemma made f l p m : located (whole (make f l p m)) f l p m.
Proof. exists (show_int l), (show_int p). split; [apply Ratio_Proof.show_numeral|]. split; [apply Ratio_Proof.show_numeral|reflexivity]. Qed.
Lemma c_str_free s : ~ In 0 s -> Ipv4_Model.c_str s = s.
Proof. induction s as [|c s IH]; [reflexivity|]. intros H. cbn [Ipv4_Model.c_str]. destruct (Z.eqb_spec c 0) as [->|]; [exfalso; apply H; now left|]. rewrite IH; [reflexivity|]. intros K. apply H. now right. Qed.
Lemma c_str_cut a b : ~ In 0 a -> Ipv4_Model.c_str (a ++ 0 :: b) = a.
Proof. induction a as [|c a IH]; [reflexivity|]. intros H. cbn [app Ipv4_Model.c_str]. destruct (Z.eqb_spec c 0) as [->|]; [exfalso; apply H; now left|]. rewrite IH; [reflexivity|]. intros K. apply H. now right. Qed.
Lemma made_free f l p m : ~ In 0 f -> ~ In 0 m -> ~ In 0 (whole (make f l p m)).
Proof.
  intros Hf Hm. destruct (made f l p m) as (tl & tp & Nl & Np & ->). rewrite !in_app_iff. cbn [In].
  intros [K|[[K|[]]|[K|[[K|[]]|[K|[[K|[]]|K]]]]]]; try lia; try contradiction.
  - apply (numeral_chars tl l 0 Nl) in K. lia.
  - apply (numeral_chars tp p 0 Np) in K. lia.
Qed.
