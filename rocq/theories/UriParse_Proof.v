From Verif Require Import Common CommonLemmas Uri_Model Uri_Spec Uri_Proof.
Local Open Scope Z_scope.
Ltac Zify.zify_post_hook ::= Z.div_mod_to_equations.

(** ** IPv4 addresses *)
Ltac bb := repeat (cbn [obind omap tl]; match goal with |- context [if ?b then _ else _] => let E := fresh "E" in destruct b eqn:E end).
Definition octet3 (a b c : Z) : Prop := (a = 50 /\ 48 <= b <= 52 /\ 48 <= c <= 57) \/ (a = 50 /\ b = 53 /\ 48 <= c <= 53) \/ (a = 49 /\ 48 <= b <= 57 /\ 48 <= c <= 57).
Lemma octet_chars t : octet t <->
  (exists a, t = [a] /\ 48 <= a <= 57) \/ (exists a b, t = [a; b] /\ 49 <= a <= 57 /\ 48 <= b <= 57) \/ (exists a b c, t = [a; b; c] /\ octet3 a b c).
Proof.
  split.
  - intros (n & Hn & ->). unfold decimal. destruct (Z.ltb_spec n 10); [left; exists (48 + n); split; [reflexivity|lia]|]. right.
    destruct (Z.ltb_spec n 100); [left; exists (48 + n / 10), (48 + n mod 10); split; [reflexivity|lia]|right].
    exists (48 + n / 100), (48 + n / 10 mod 10), (48 + n mod 10). split; [reflexivity|]. unfold octet3. lia.
  - intros [(a & -> & H)|[(a & b & -> & H)|(a & b & c & -> & H)]].
    + exists (a - 48). split; [lia|]. unfold decimal. replace (a - 48 <? 10) with true by lia. f_equal. lia.
    + exists ((a - 48) * 10 + (b - 48)). split; [lia|]. unfold decimal. replace (_ <? 10) with false by lia. replace (_ <? 100) with true by lia. f_equal; [lia|]. f_equal. lia.
    + exists ((a - 48) * 100 + (b - 48) * 10 + (c - 48)). unfold octet3 in H. split; [lia|]. unfold decimal. replace (_ <? 10) with false by lia. replace (_ <? 100) with false by lia.
      f_equal; [lia|]. f_equal; [lia|]. f_equal. lia.
Qed.
Ltac bs := repeat (cbn [obind omap tl]; match goal with
  | |- context [if ?b then _ else _] => first [replace b with true by lia | replace b with false by lia | let E := fresh "E" in destruct b eqn:E] end).
Lemma octet_ok t d r : octet t -> isdigit d = false -> parse_dec_octet (t ++ d :: r) = Ok (true, d :: r).
Proof.
  intros H Hd. apply octet_chars in H. unfold octet3 in H. destruct H as [(a & -> & H)|[(a & b & -> & H)|(a & b & c & -> & H)]]; cbn [app];
   unfold parse_dec_octet, at_, ando, take1; cbn [adv rd obind omap]; unfold range, isdigit in *.
  - bs; try reflexivity; exfalso; lia.
  - bs; try reflexivity; exfalso; lia.
  - destruct H as [H|[H|H]]; bs; try reflexivity; exfalso; lia.
Qed.
Lemma octet_sound p r : parse_dec_octet p = Ok (true, r) -> exists t, octet t /\ p = t ++ r.
Proof.
  destruct p as [|c p]; [discriminate|]. unfold parse_dec_octet, at_, ando, take1. cbn [adv rd obind omap].
  assert (H1 : isdigit c = true -> exists t, octet t /\ c :: p = t ++ p).
  { intros H. exists [c]. split; [|reflexivity]. apply octet_chars. left. exists c. unfold isdigit in H. split; [reflexivity|lia]. }
  destruct p as [|d p].
  - cbn [rd obind omap]. bb; intros [= <-]; auto; discriminate.
  - cbn [rd obind omap]. assert (H2 : range 49 57 c = true -> isdigit d = true -> exists t, octet t /\ c :: d :: p = t ++ p).
    { intros Hc Hd. exists [c; d]. split; [|reflexivity]. apply octet_chars. right. left. unfold range, isdigit in *. exists c, d. split; [reflexivity|lia]. }
    destruct p as [|e p].
    + cbn [rd obind omap]. bb; intros [= <-]; auto; discriminate.
    + cbn [rd obind omap].
      assert (H3 : octet3 c d e -> exists t, octet t /\ c :: d :: e :: p = t ++ p).
      { intros H. exists [c; d; e]. split; [|reflexivity]. apply octet_chars. right. right. eauto. }
      bb; intros [= <-]; auto; try discriminate; apply H3; unfold octet3, range, isdigit in *; lia.
Qed.
Lemma octet_digits t : octet t -> Forall DIGIT t.
Proof.
  intros H. apply octet_chars in H. unfold octet3 in H. apply Forall_forall. intros x Hx. apply digit_of. unfold isdigit.
  destruct H as [(a & -> & H)|[(a & b & -> & H)|(a & b & c & -> & H)]]; cbn [In] in Hx; lia.
Qed.

Lemma dot_ok q : dot (46 :: q) = Ok (true, q). Proof. reflexivity. Qed.
Lemma andp_ok (a b : P) p q : a p = Ok (true, q) -> andp a b p = b q.
Proof. intros H. unfold andp. rewrite H. reflexivity. Qed.
Lemma andp_no (a b : P) p q : a p = Ok (false, q) -> andp a b p = Ok (false, q).
Proof. intros H. unfold andp. rewrite H. reflexivity. Qed.
Lemma ipv4_ok t d r : ipv4 t -> isdigit d = false -> parse_ipv4address (t ++ d :: r) = Ok (true, d :: r).
Proof.
  intros (o1 & o2 & o3 & o4 & H1 & H2 & H3 & H4 & ->) Hd. change (str ".") with [46]. rewrite <- !app_assoc. cbn [app]. unfold parse_ipv4address.
  rewrite (andp_ok _ _ _ _ (octet_ok o1 46 _ H1 eq_refl)). rewrite (andp_ok _ _ _ _ (dot_ok _)).
  rewrite (andp_ok _ _ _ _ (octet_ok o2 46 _ H2 eq_refl)). rewrite (andp_ok _ _ _ _ (dot_ok _)).
  rewrite (andp_ok _ _ _ _ (octet_ok o3 46 _ H3 eq_refl)). rewrite (andp_ok _ _ _ _ (dot_ok _)).
  now apply octet_ok.
Qed.
Lemma andp_inv (a b : P) p q : andp a b p = Ok (true, q) -> exists p', a p = Ok (true, p') /\ b p' = Ok (true, q).
Proof. unfold andp. destruct (a p) as [[[] p']| | |]; cbn [obind]; try discriminate. eauto. Qed.
Lemma eat_inv f p q : eat f p = Ok (true, q) -> exists c, f c = true /\ p = c :: q.
Proof. unfold eat. destruct p as [|c p]; cbn; [discriminate|]. intros [= H <-]. eauto. Qed.
Lemma ipv4_sound p r : parse_ipv4address p = Ok (true, r) -> exists t, ipv4 t /\ p = t ++ r.
Proof.
  unfold parse_ipv4address. intros H.
  apply andp_inv in H. destruct H as (p1 & A1 & H). apply octet_sound in A1. destruct A1 as (o1 & O1 & ->).
  apply andp_inv in H. destruct H as (p2 & A1 & H). apply eat_inv in A1. destruct A1 as (c1 & C1 & ->). apply Z.eqb_eq in C1. subst c1.
  apply andp_inv in H. destruct H as (p3 & A1 & H). apply octet_sound in A1. destruct A1 as (o2 & O2 & ->).
  apply andp_inv in H. destruct H as (p4 & A1 & H). apply eat_inv in A1. destruct A1 as (c2 & C2 & ->). apply Z.eqb_eq in C2. subst c2.
  apply andp_inv in H. destruct H as (p5 & A1 & H). apply octet_sound in A1. destruct A1 as (o3 & O3 & ->).
  apply andp_inv in H. destruct H as (p6 & A1 & H). apply eat_inv in A1. destruct A1 as (c3 & C3 & ->). apply Z.eqb_eq in C3. subst c3.
  apply octet_sound in H. destruct H as (o4 & O4 & ->).
  exists (o1 ++ str "." ++ o2 ++ str "." ++ o3 ++ str "." ++ o4). split; [exists o1, o2, o3, o4; auto|]. change (str ".") with [46]. rewrite <- !app_assoc. reflexivity.
Qed.

(** ** IPv6 addresses *)
Lemma h16_ok g r : h16 g -> parse_h16 (g ++ r) = Ok (true, r).
Proof.
  intros [HL HF]. destruct g as [|a [|b [|c [|d [|]]]]]; try discriminate. inversion HF as [|? ? Ha HF1]; subst. inversion HF1 as [|? ? Hb HF2]; subst.
  inversion HF2 as [|? ? Hc HF3]; subst. inversion HF3 as [|? ? Hd _]; subst. unfold parse_h16, andp, eat. cbn [app rd obind tl].
  rewrite (hex_b a Ha). cbn [rd obind tl]. rewrite (hex_b b Hb). cbn [rd obind tl]. rewrite (hex_b c Hc). cbn [rd obind tl]. now rewrite (hex_b d Hd).
Qed.
Lemma h16_no c r : isxdigit c = false -> parse_h16 (c :: r) = Ok (false, r).
Proof. intros H. unfold parse_h16, andp, eat. cbn [rd obind tl]. now rewrite H. Qed.
(** An IPv4 address is not a group, nor a group an IPv4 address. *)
Lemma octet_no c r : isdigit c = false -> parse_dec_octet (c :: r) = Ok (false, c :: r).
Proof. intros H. unfold parse_dec_octet, at_, ando, take1. cbn [adv rd obind omap]. unfold range, isdigit in *. bb; try reflexivity; exfalso; lia. Qed.
Lemma octet_len p q : parse_dec_octet p = Ok (true, q) -> exists t, octet t /\ p = t ++ q /\ (length t <= 3)%nat.
Proof. intros H. destruct (octet_sound p q H) as (t & Ht & ->). exists t. repeat split; auto. destruct Ht as (n & Hn & ->). unfold decimal. destruct (n <? 10), (n <? 100); cbn; lia. Qed.
Lemma v4_not_group g d r : h16 g -> zt (d :: r) -> exists q, parse_ipv4address (g ++ d :: r) = Ok (false, q).
Proof.
  intros [HL HF] Hz. destruct (safe_ipv4 (g ++ d :: r)) as (b & q & E & H).
  { destruct Hz as [a ->]. exists (g ++ a). now rewrite app_assoc. }
  destruct b; [|eauto]. exfalso. apply ipv4_sound in E. destruct E as (t & (o1 & o2 & o3 & o4 & H1 & _ & _ & _ & ->) & E).
  assert (Hl : (length o1 <= 3)%nat) by (destruct H1 as (n & Hn & ->); unfold decimal; destruct (n <? 10), (n <? 100); cbn; lia).
  assert (In 46 g).
  { change (str ".") with [46] in E. assert (E2 : nth (length o1) (g ++ d :: r) 0 = 46).
    { rewrite E, <- app_assoc. rewrite app_nth2 by lia. now rewrite Nat.sub_diag. }
    rewrite app_nth1 in E2 by lia. rewrite <- E2. apply nth_In. lia. }
  rewrite Forall_forall in HF. apply HF in H0. apply hex_b in H0. discriminate.
Qed.
Lemma group_not_v4 t r : ipv4 t -> zt r -> exists q, parse_h16 (t ++ r) = Ok (false, q).
Proof.
  intros (o1 & o2 & o3 & o4 & H1 & _ & _ & _ & ->) Hz. change (str ".") with [46]. rewrite <- !app_assoc. cbn [app]. generalize (o2 ++ 46 :: o3 ++ 46 :: o4 ++ r). intros q.
  apply octet_chars in H1. unfold octet3 in H1. assert (HX : forall c, 48 <= c <= 57 -> isxdigit c = true) by (intros c Hc; unfold isxdigit, isdigit; lia).
  destruct H1 as [(a & -> & H)|[(a & b & -> & H)|(a & b & c & -> & H)]]; unfold parse_h16, andp, eat; cbn [app rd obind tl].
  - rewrite (HX a) by lia. cbn. eauto.
  - rewrite (HX a) by lia. cbn [rd obind tl]. rewrite (HX b) by lia. cbn. eauto.
  - rewrite (HX a) by lia. cbn [rd obind tl]. rewrite (HX b) by lia. cbn [rd obind tl]. rewrite (HX c) by lia. cbn. eauto.
Qed.

(** What n groups need: n-2 groups with colons and the last two, or one group, or nothing. *)
Definition need (n : nat) : P := match n with O => yes | 1%nat => parse_h16 | S (S m) => groups m parse_ls32 end.
Lemma ls32_two g1 g2 r : h16 g1 -> h16 g2 -> zt r -> parse_ls32 (g1 ++ 58 :: g2 ++ r) = Ok (true, r).
Proof.
  intros H1 H2 Hz. unfold parse_ls32, alt. destruct (v4_not_group g1 58 (g2 ++ r) H1) as [q ->].
  { destruct Hz as [a ->]. exists (58 :: g2 ++ a). cbn. now rewrite app_assoc. }
  cbn [obind]. rewrite (andp_ok _ _ _ _ (h16_ok g1 _ H1)). unfold andp, colon, eat. cbn. now apply h16_ok.
Qed.
Lemma zt_app a r : zt r -> zt (a ++ r).
Proof. intros [b ->]. exists (a ++ b). now rewrite app_assoc. Qed.
Lemma zt_app_cons c a r : zt r -> zt (c :: a ++ r).
Proof. intros H. exact (zt_app (c :: a) r H). Qed.
Lemma need_ok n t : h16s n t -> forall d r, isdigit d = false -> zt (d :: r) -> need n (t ++ d :: r) = Ok (true, d :: r).
Proof.
  induction 1 as [|g Hg|a Ha|g n t Hg Ht IH]; intros d r Hd Hz; cbn [need].
  - reflexivity.
  - now apply h16_ok.
  - cbn [groups]. unfold parse_ls32, alt. now rewrite ipv4_ok.
  - change (str ":") with [58]. rewrite <- !app_assoc. cbn [app]. destruct n as [|n].
    + inversion Ht; subst. cbn [groups]. now apply ls32_two.
    + cbn [groups]. rewrite (andp_ok _ _ _ _ (h16_ok g _ Hg)). unfold andp at 1, colon, eat. cbn [rd obind Z.eqb Pos.eqb tl]. exact (IH d r Hd Hz).
Qed.
(** Too few groups, followed by a closing bracket. *)
Lemma need_few m t : h16s m t -> forall n r, (m < n)%nat -> zt (93 :: r) -> exists q, need n (t ++ 93 :: r) = Ok (false, q).
Proof.
  induction 1 as [|g Hg|a Ha|g m t Hg Ht IH]; intros n r Hn Hz.
  - cbn [app]. destruct n as [|[|n]]; [lia|eexists; reflexivity|]. cbn [need]. destruct n; cbn [groups].
    + unfold parse_ls32, alt. unfold parse_ipv4address at 1. rewrite (andp_no _ _ _ _ (octet_no 93 r eq_refl)). cbn [obind]. eexists. apply andp_no. now apply h16_no.
    + eexists. apply andp_no. now apply h16_no.
  - destruct n as [|[|n]]; [lia|lia|]. cbn [need]. destruct n; cbn [groups].
    + unfold parse_ls32, alt. destruct (v4_not_group g 93 r Hg Hz) as [q ->]. cbn [obind]. rewrite (andp_ok _ _ _ _ (h16_ok g _ Hg)). eexists. reflexivity.
    + rewrite (andp_ok _ _ _ _ (h16_ok g _ Hg)). eexists. reflexivity.
  - destruct n as [|[|[|n]]]; [lia|lia|lia|]. cbn [need groups]. destruct (group_not_v4 a (93 :: r) Ha Hz) as [q E]. eexists. apply andp_no. exact E.
  - change (str ":") with [58]. rewrite <- !app_assoc. cbn [app]. destruct n as [|[|[|n]]]; try lia. cbn [need groups].
    rewrite (andp_ok _ _ _ _ (h16_ok g _ Hg)). unfold andp, colon, eat. cbn [rd obind Z.eqb Pos.eqb tl]. exact (IH (S (S n)) r ltac:(lia) Hz).
Qed.
Lemma colons_ok k q : colons k (58 :: 58 :: q) = k q. Proof. reflexivity. Qed.

(** The optional groups before "::". *)
Lemma alt_yes (a b : P) p q : a p = Ok (true, q) -> alt a b p = Ok (true, q).
Proof. intros H. unfold alt. now rewrite H. Qed.
Lemma alt_no (a b : P) p q : a p = Ok (false, q) -> alt a b p = b p.
Proof. intros H. unfold alt. now rewrite H. Qed.
Lemma groups_no n k c r : isxdigit c = false -> groups (S n) k (c :: r) = Ok (false, r).
Proof. intros H. cbn [groups]. apply andp_no. now apply h16_no. Qed.
Lemma opt_none n r : (exists q, (groups n parse_h16) (58 :: r) = Ok (false, q)).
Proof. destruct n; cbn [groups]; eexists; [|apply andp_no]; now apply h16_no. Qed.
Lemma lits_ok k t : h16only k t -> forall r, groups (k - 1) parse_h16 (t ++ r) = Ok (true, r).
Proof.
  induction 1 as [g Hg|g n t Hg Ht IH]; intros r.
  - cbn. now apply h16_ok.
  - cbn [Nat.sub]. cbn [groups]. change (str ":") with [58]. rewrite <- !app_assoc. cbn [app]. rewrite (andp_ok _ _ _ _ (h16_ok g _ Hg)).
    unfold andp, colon, eat. cbn [rd obind Z.eqb Pos.eqb tl]. specialize (IH r). cbn [Nat.sub] in IH. rewrite Nat.sub_0_r in IH. exact IH.
Qed.
(** A prefix of the groups: what follows is a colon and then a digit. *)
Lemma lits_part k t : h16only k t -> forall j r, (j + 1 < k)%nat -> exists c q, groups j parse_h16 (t ++ r) = Ok (true, 58 :: c :: q) /\ isxdigit c = true.
Proof.
  induction 1 as [g Hg|g n t Hg Ht IH]; intros j r Hj; [lia|]. change (str ":") with [58]. rewrite <- !app_assoc. cbn [app]. destruct j as [|j]; cbn [groups].
  - rewrite h16_ok by assumption. assert (exists c q, t ++ r = c :: q /\ isxdigit c = true) as (c & q & -> & Hc).
    { inversion Ht as [? [HL HF]|? ? ? [HL HF]]; subst.
      - destruct t; [discriminate|]. inversion HF; subst. cbn [app]. eauto using hex_b.
      - destruct g0; [discriminate|]. inversion HF; subst. cbn [app]. eauto using hex_b. }
    eauto.
  - rewrite (andp_ok _ _ _ _ (h16_ok g _ Hg)). unfold andp, colon, eat. cbn [rd obind Z.eqb Pos.eqb tl]. apply (IH j r). lia.
Qed.
(** k groups and "::" are not the start of at least eight groups. *)
Lemma lits_full k t : h16only k t -> forall m r, (k <= S m)%nat -> zt r -> exists q, groups m parse_ls32 (t ++ 58 :: 58 :: r) = Ok (false, q).
Proof.
  induction 1 as [g Hg|g n t Hg Ht IH]; intros m r Hm Hz.
  - destruct m as [|m]; cbn [groups].
    + unfold parse_ls32, alt. destruct (v4_not_group g 58 (58 :: r) Hg) as [q ->]; [exact (zt_app [58; 58] r Hz)|]. cbn [obind].
      rewrite (andp_ok _ _ _ _ (h16_ok g _ Hg)). unfold andp, colon, eat. cbn [rd obind Z.eqb Pos.eqb tl]. eexists. now apply h16_no.
    + rewrite (andp_ok _ _ _ _ (h16_ok g _ Hg)). unfold andp at 1, colon, eat. cbn [rd obind Z.eqb Pos.eqb tl]. destruct m as [|m]; cbn [groups].
      * unfold parse_ls32. rewrite (alt_no _ _ _ (58 :: r)); [eexists; apply andp_no; now apply h16_no|]. unfold parse_ipv4address. apply andp_no. now apply octet_no.
      * eexists. apply andp_no. now apply h16_no.
  - change (str ":") with [58]. rewrite <- !app_assoc. cbn [app]. destruct m as [|m]; [lia|]. cbn [groups]. rewrite (andp_ok _ _ _ _ (h16_ok g _ Hg)).
    unfold andp, colon, eat. cbn [rd obind Z.eqb Pos.eqb tl]. apply (IH m r); [lia|assumption].
Qed.

(** The rules 2 to 9 as one family: [rule j] has j groups before "::" (or none) and needs 7-j behind. *)
Definition rule (j : nat) : P := match j with O => colons (need 7) | S i => andp (opt (groups i parse_h16)) (colons (need (7 - j))) end.
Lemma rules : parse_ipv6address = alt parse_ipv6_1 (alt (rule 0) (alt (rule 1) (alt (rule 2) (alt (rule 3) (alt (rule 4) (alt (rule 5) (alt (rule 6) (rule 7)))))))).
Proof. reflexivity. Qed.
Lemma rule_start_ok j t d r : (j <= 7)%nat -> h16s (7 - j) t -> isdigit d = false -> zt (d :: r) -> rule j (58 :: 58 :: t ++ d :: r) = Ok (true, d :: r).
Proof.
  intros Hj Ht Hd Hz. destruct j as [|j]; cbn [rule].
  - rewrite colons_ok. now apply need_ok.
  - unfold opt. destruct (opt_none j (58 :: t ++ d :: r)) as [q E]. erewrite (andp_ok (alt _ yes)); [|rewrite (alt_no _ _ _ q E); reflexivity]. rewrite colons_ok. now apply need_ok.
Qed.
Lemma rule_start_no j m t r : (j <= 7)%nat -> h16s m t -> (m < 7 - j)%nat -> zt (93 :: r) -> exists q, rule j (58 :: 58 :: t ++ 93 :: r) = Ok (false, q).
Proof.
  intros Hj Ht Hm Hz. destruct j as [|j]; cbn [rule].
  - rewrite colons_ok. exact (need_few m t Ht 7%nat r ltac:(lia) Hz).
  - unfold opt. destruct (opt_none j (58 :: t ++ 93 :: r)) as [q E]. erewrite (andp_ok (alt _ yes)); [|rewrite (alt_no _ _ _ q E); reflexivity]. rewrite colons_ok.
    exact (need_few m t Ht (7 - S j)%nat r ltac:(lia) Hz).
Qed.
Lemma rule_one_ok k t n u d r : (k + n = 7)%nat -> h16only k t -> h16s n u -> isdigit d = false -> zt (d :: r) -> rule k (t ++ 58 :: 58 :: u ++ d :: r) = Ok (true, d :: r).
Proof.
  intros Hk Ht Hu Hd Hz. destruct k as [|k]; [inversion Ht|]. cbn [rule]. pose proof (lits_ok _ _ Ht (58 :: 58 :: u ++ d :: r)) as E. cbn [Nat.sub] in E. rewrite Nat.sub_0_r in E.
  unfold opt. rewrite (andp_ok _ _ _ _ (alt_yes _ _ _ _ E)), colons_ok. replace (7 - S k)%nat with n by lia. now apply need_ok.
Qed.
Lemma only_first k t : h16only k t -> exists c q, t = c :: q /\ isxdigit c = true.
Proof.
  destruct 1 as [g [HL HF]|g n t [HL HF] Ht]; (destruct g as [|c g]; [discriminate|]); inversion HF; subst; cbn [app]; eauto using hex_b.
Qed.
Lemma rule_one_no j k t r : (j < k)%nat -> h16only k t -> exists q, rule j (t ++ r) = Ok (false, q).
Proof.
  intros Hj Ht. destruct j as [|j]; cbn [rule].
  - destruct (only_first k t Ht) as (c & q & -> & Hc). cbn [app]. unfold colons, andp, colon, eat. cbn [rd obind tl]. destruct (Z.eqb_spec 58 c) as [<-|]; [discriminate|]. eexists; reflexivity.
  - destruct (lits_part k t Ht j r ltac:(lia)) as (c & q & E & Hc). unfold opt. rewrite (andp_ok _ _ _ _ (alt_yes _ _ _ _ E)).
    unfold colons, andp, colon, eat. cbn [rd obind tl]. change (58 =? 58) with true. cbn [rd obind tl]. destruct (Z.eqb_spec 58 c) as [<-|]; [discriminate|]. eexists; reflexivity.
Qed.

Lemma ipv6_ok t r : ipv6 t -> zt r -> parse_ipv6address (t ++ 93 :: r) = Ok (true, 93 :: r).
Proof.
  intros H Hz. assert (Hz1 : zt (93 :: r)) by exact (zt_app [93] r Hz). rewrite rules. destruct H as [t Ht|n t Hn Ht|k n t u Hk Ht Hu].
  - apply alt_yes. exact (need_ok 8 t Ht 93 r eq_refl Hz1).
  - change (str "::") with [58; 58]. cbn [app].
    rewrite (alt_no _ _ _ (58 :: t ++ 93 :: r)) by (unfold parse_ipv6_1; apply groups_no; reflexivity).
    assert (G : forall j (rest : P), (n < 7 - j)%nat -> alt (rule j) rest (58 :: 58 :: t ++ 93 :: r) = rest (58 :: 58 :: t ++ 93 :: r)).
    { intros j rest Hj. destruct (rule_start_no j n t r ltac:(lia) Ht Hj Hz1) as [q E]. exact (alt_no _ _ _ q E). }
    assert (S : forall j, (j + n = 7)%nat -> rule j (58 :: 58 :: t ++ 93 :: r) = Ok (true, 93 :: r)).
    { intros j Hj. apply rule_start_ok; [lia|replace (7 - j)%nat with n by lia; exact Ht|reflexivity|exact Hz1]. }
    assert (n = 7 \/ n = 6 \/ n = 5 \/ n = 4 \/ n = 3 \/ n = 2 \/ n = 1 \/ n = 0)%nat as [->|[->|[->|[->|[->|[->|[->| ->]]]]]]] by lia;
     rewrite ?G by lia; first [apply alt_yes; apply S; lia | apply S; lia].
  - change (str "::") with [58; 58]. rewrite <- !app_assoc. cbn [app].
    destruct (lits_full k t Ht 6 (u ++ 93 :: r) ltac:(lia) (zt_app u _ Hz1)) as [q E]. rewrite (alt_no _ _ _ q E). clear q E.
    assert (Hk1 : (1 <= k)%nat) by (destruct Ht; lia).
    assert (G : forall j (rest : P), (j < k)%nat -> alt (rule j) rest (t ++ 58 :: 58 :: u ++ 93 :: r) = rest (t ++ 58 :: 58 :: u ++ 93 :: r)).
    { intros j rest Hj. destruct (rule_one_no j k t (58 :: 58 :: u ++ 93 :: r) Hj Ht) as [q E]. exact (alt_no _ _ _ q E). }
    pose proof (rule_one_ok k t n u 93 r Hk Ht Hu eq_refl Hz1) as S.
    assert (k = 7 \/ k = 6 \/ k = 5 \/ k = 4 \/ k = 3 \/ k = 2 \/ k = 1)%nat as [->|[->|[->|[->|[->|[->| ->]]]]]] by lia;
     rewrite ?G by lia; first [apply alt_yes; exact S | exact S].
Qed.

(** ** Hosts *)
Definition afterhost (r : list Z) : Prop := match r with d :: _ => d = 58 \/ d = 47 \/ d = 63 \/ d = 35 \/ d = 0 | [] => False end.
Lemma host_ok h r : ok_host h -> afterhost r -> zt r -> parse_host (h ++ r) = Ok (true, r).
Proof.
  intros Hh Hr Hz. destruct r as [|d r]; [contradiction|]. assert (Hd : isdigit d = false) by (cbn in Hr; unfold isdigit; lia).
  unfold parse_host. destruct Hh as [[Hn Hg]|[H4|(t & H6 & ->)]].
  - assert (E1 : exists q, parse_ip_literal (h ++ d :: r) = Ok (false, q)).
    { unfold parse_ip_literal. assert (exists c q, h ++ d :: r = c :: q /\ (91 =? c) = false) as (c & q & -> & Hc).
      { destruct h as [|c h]; cbn [app]; [exists d, r; split; [reflexivity|cbn in Hr; lia]|]. exists c, (h ++ d :: r). split; [reflexivity|].
        inversion Hn as [|? ? Hc _]; subst. destruct (Z.eqb_spec 91 c) as [<-|]; [|reflexivity]. destruct Hc as [Hc|Hc]; [apply unres_b in Hc|apply sub_b in Hc]; discriminate. }
      unfold andp, eat. cbn [rd obind tl]. rewrite Hc. eauto. }
    destruct E1 as [q E1]. rewrite (alt_no _ _ _ q E1).
    assert (E2 : exists q, parse_ipv4address (h ++ d :: r) = Ok (false, q)).
    { destruct (safe_ipv4 (h ++ d :: r)) as (b & p & E & _); [now apply zt_app|]. destruct b; [|eauto]. exfalso. apply ipv4_sound in E. destruct E as (t & Ht & E). apply Hg.
      destruct (Nat.le_gt_cases (length t) (length h)) as [HL|HL].
      - exists t, (skipn (length t) h). split; [|exact Ht]. assert (firstn (length t) (h ++ d :: r) = t) as E3 by (rewrite E, firstn_app, Nat.sub_diag, firstn_all, firstn_O, app_nil_r; reflexivity).
        rewrite firstn_app in E3. replace (length t - length h)%nat with 0%nat in E3 by lia. rewrite firstn_O, app_nil_r in E3. rewrite <- E3 at 1. now rewrite firstn_skipn.
      - exfalso. assert (HI : In d t).
        { assert (E3 : nth (length h) t 0 = d).
          { rewrite <- (app_nth1 t p 0) by lia. rewrite <- E, app_nth2, Nat.sub_diag by lia. reflexivity. }
          rewrite <- E3. now apply nth_In. }
        assert (HD : forall c, In c t -> isdigit c = true \/ c = 46).
        { destruct Ht as (o1 & o2 & o3 & o4 & O1 & O2 & O3 & O4 & ->). apply octet_digits in O1, O2, O3, O4. rewrite Forall_forall in *. change (str ".") with [46].
          intros c Hc. rewrite !in_app_iff in Hc. cbn [In] in Hc. repeat (destruct Hc as [Hc|Hc]); auto using digit_b; contradiction. }
        apply HD in HI. cbn in Hr. destruct HI; [congruence|lia]. }
    destruct E2 as [q2 E2]. rewrite (alt_no _ _ _ q2 E2). unfold parse_reg_name. erewrite loop_eaten; [reflexivity|].
    eapply eaten_chars; [| |exact Hn].
    + intros c q' [Hc|Hc]; unfold orp.
      * apply unres_b in Hc. now rewrite take1_yes.
      * apply sub_b in Hc. destruct (is_unreserved c) eqn:E; [now rewrite take1_yes|]. rewrite take1_no by assumption. cbn [obind]. now rewrite take1_yes.
    + unfold orp. cbn in Hr. destruct Hr as [->|[->|[->|[->| ->]]]]; reflexivity.
  - assert (E1 : exists q, parse_ip_literal (h ++ d :: r) = Ok (false, q)).
    { destruct H4 as (o1 & o2 & o3 & o4 & O1 & _ & _ & _ & ->). assert (exists c q, o1 = c :: q /\ isdigit c = true) as (c & q & -> & Hc).
      { apply octet_digits in O1 as O. destruct O1 as (n & Hn & ->). unfold decimal in *. destruct (n <? 10); [|destruct (n <? 100)]; inversion O; subst; eauto using digit_b. }
      unfold parse_ip_literal, andp, eat. cbn [app rd obind tl]. destruct (Z.eqb_spec 91 c) as [<-|]; [discriminate|]. eauto. }
    destruct E1 as [q E1]. rewrite (alt_no _ _ _ q E1). apply alt_yes. now apply ipv4_ok.
  - change (str "[") with [91]. change (str "]") with [93]. rewrite <- !app_assoc. cbn [app]. apply alt_yes. unfold parse_ip_literal.
    rewrite (andp_ok _ _ _ (t ++ 93 :: d :: r)) by reflexivity. rewrite (andp_ok _ _ _ (93 :: d :: r)); [reflexivity|]. apply alt_yes. apply ipv6_ok; assumption.
Qed.

(** ** Authority *)
Lemma fut_b c : unreserved c \/ sub_delim c \/ c = 58 -> fut c = true.
Proof. unfold fut. intros [H|[H|H]]; [apply unres_b in H; now rewrite H|apply sub_b in H; rewrite H; now rewrite orb_true_r|subst; reflexivity]. Qed.
Lemma user_yes c q : fut c = true -> userinfo_step (c :: q) = Ok (true, q).
Proof. intros H. unfold userinfo_step, orp. now rewrite take1_yes. Qed.
Lemma user_no c q : fut c = false -> c <> 37 -> userinfo_step (c :: q) = Ok (false, c :: q).
Proof. intros H H2. unfold userinfo_step, orp. rewrite take1_no by assumption. cbn [obind]. now rewrite pct_no. Qed.
Definition text_fut (s : list Z) : Prop := Forall (fun c => fut c = true) s.
Lemma user_eats s d r : text_fut s -> fut d = false -> d <> 37 -> loop userinfo_step (s ++ d :: r) = Ok (d :: r).
Proof. intros Hs Hd H37. apply loop_eaten. eapply eaten_chars; [|apply user_no; assumption|exact Hs]. cbn beta. intros c q Hc. now apply user_yes. Qed.

Definition str_of (o : option (list Z)) : list Z := match o with Some s => s | None => [] end.
Lemma digit_fut c : DIGIT c -> fut c = true.
Proof. intros H. apply digit_b in H. unfold fut, is_unreserved. rewrite H. now rewrite !orb_true_r. Qed.
Lemma host_fut h : ok_host h -> text_fut h \/ exists t, h = 91 :: t.
Proof.
  intros [[H _]|[H|(t & _ & ->)]].
  - left. eapply Forall_impl; [|exact H]. cbn beta. intros c Hc. apply fut_b. tauto.
  - left. destruct H as (o1 & o2 & o3 & o4 & O1 & O2 & O3 & O4 & ->). apply octet_digits in O1, O2, O3, O4. change (str ".") with [46].
    unfold text_fut. repeat (apply Forall_app; split); try (eapply Forall_impl; [|eassumption]; intros; now apply digit_fut); repeat constructor.
  - right. change (str "[") with [91]. cbn [app]. eauto.
Qed.
Lemma authority_ok a r : ok_auth a -> halt r -> zt r -> parse_authority (compose_auth a ++ r) = Ok (Some (str_of (a_user a), a_host a, str_of (a_port a), r)).
Proof.
  intros (Hu & Hh & Ho) Hr Hz. destruct r as [|d r]; [contradiction|]. unfold parse_authority, compose_auth.
  set (tailt := pre ":" (a_port a) ++ d :: r).
  assert (Hpf : text_fut (pre ":" (a_port a))).
  { destruct (a_port a); cbn [pre ok_opt] in *; [|constructor]. change (str ":") with [58]. cbn [app]. constructor; [reflexivity|]. eapply Forall_impl; [|exact Ho]. intros; now apply digit_fut. }
  assert (Hd : fut d = false /\ d <> 37 /\ d <> 64) by (cbn in Hr; destruct Hr as [->|[->|[->| ->]]]; repeat split; discriminate).
  assert (E : exists q, loop userinfo_step ((post (a_user a) "@" ++ a_host a ++ pre ":" (a_port a)) ++ d :: r) = Ok q /\
    exists c q', q = c :: q' /\ (if c =? 64 then (span ((post (a_user a) "@" ++ a_host a ++ pre ":" (a_port a)) ++ d :: r) q, tl q) else ([], (post (a_user a) "@" ++ a_host a ++ pre ":" (a_port a)) ++ d :: r)) = (str_of (a_user a), a_host a ++ tailt)).
  { destruct (a_user a) as [u|]; cbn [post str_of app].
    - change (str "@") with [64]. rewrite <- !app_assoc. cbn [app]. fold tailt. rewrite user_eats; [|eapply Forall_impl; [|exact Hu]; intros; now apply fut_b|reflexivity|discriminate].
      eexists. split; [reflexivity|]. eexists _, _. split; [reflexivity|]. cbn [Z.eqb Pos.eqb tl]. now rewrite span_app.
    - rewrite <- !app_assoc. fold tailt. destruct (host_fut (a_host a) Hh) as [Hf|[t Et]].
      + unfold tailt at 1. rewrite app_assoc, user_eats; [|apply Forall_app; split; assumption|tauto|tauto]. eexists. split; [reflexivity|]. eexists _, _. split; [reflexivity|].
        replace (d =? 64) with false by lia. reflexivity.
      + rewrite Et. cbn [app]. erewrite loop_eaten; [|apply ea_stop; apply user_no; [reflexivity|discriminate]]. eexists. split; [reflexivity|]. eexists _, _. split; [reflexivity|]. reflexivity. }
  destruct E as (q & -> & c & q' & -> & E). cbn [obind rd]. rewrite E. 
  assert (Hzt : zt tailt) by now apply zt_app.
  assert (Hah : afterhost tailt) by (unfold tailt; destruct (a_port a); cbn [pre app]; [left; reflexivity|cbn in *; lia]).
  rewrite (host_ok _ _ Hh Hah Hzt). cbn [obind negb]. rewrite span_app. unfold tailt. destruct (a_port a) as [o|]; cbn [pre str_of ok_opt] in *.
  - change (str ":") with [58]. cbn [app rd obind Z.eqb Pos.eqb tl]. erewrite loop_eaten; [|eapply eaten_chars; [| |exact Ho]].
    + cbn [obind]. now rewrite span_app.
    + intros x p Hx. apply take1_yes. now apply digit_b.
    + apply take1_no. cbn in Hr. unfold isdigit. lia.
  - cbn [app rd obind]. replace (d =? 58) with false by (cbn in Hr; lia). reflexivity.
Qed.

(** ** The rest *)
Lemma tail_ok q f : ok_opt ok_query q -> ok_opt ok_query f -> parse_tail ((pre "?" q ++ pre "#" f) ++ [0]) = Ok (Some (str_of q, str_of f)).
Proof.
  intros Hq Hf. rewrite <- app_assoc. unfold parse_tail.
  assert (G : forall x, (let* c := rd (pre "#" f ++ [0]) in
     let* (f, p) := (if c =? 35 then let* r := parse_query (tl (pre "#" f ++ [0])) in Ok (span (tl (pre "#" f ++ [0])) r, r) else Ok ([], pre "#" f ++ [0])) in
     let* c := rd p in Ok (if c =? 0 then Some (x : list Z, f) else None)) = Ok (Some (x, str_of f))).
  { intros x. destruct f as [f|]; cbn [pre str_of ok_opt] in *; [|reflexivity]. change (str "#") with [35]. cbn [app rd obind Z.eqb Pos.eqb tl]. rewrite query_ok; auto. cbn [obind rd Z.eqb]. now rewrite span_app. }
  destruct q as [q|]; cbn [pre str_of ok_opt] in *.
  - change (str "?") with [63]. cbn [app rd obind Z.eqb Pos.eqb tl].
    assert (exists d r, pre "#" f ++ [0] = d :: r /\ (d = 35 \/ d = 0)) as (d & r & Ed & Hd) by (destruct f; cbn [pre]; change (str "#") with [35]; cbn [app]; eauto).
    rewrite Ed. rewrite query_ok by assumption. cbn [obind]. rewrite span_app, <- Ed. apply G.
  - cbn [app]. assert (E : exists d r, pre "#" f ++ [0] = d :: r /\ d <> 63) by (destruct f; cbn [pre]; change (str "#") with [35]; cbn [app]; eexists _, _; split; try reflexivity; lia).
    destruct E as (d & r & Ed & Hd). specialize (G []). rewrite Ed in *. cbn [rd obind] in *. replace (d =? 63) with false by lia. cbn [obind rd]. exact G.
Qed.
Lemma tail_stop q f : stop ((pre "?" q ++ pre "#" f) ++ [0]).
Proof. destruct q as [q|]; cbn [pre]; [cbn; auto|]. destruct f as [f|]; cbn; auto. Qed.

Lemma seg_nc a : encoded pchar a -> ~ In 58 a -> encoded (fun c => pchb false c = true) a.
Proof.
  induction 1 as [|c s Hc Hs IH|x y s Hx Hy Hs IH]; intros Hn; [constructor| |].
  - constructor; [|apply IH; intros HI; apply Hn; now right]. apply pchar_b in Hc. unfold pcharb in Hc. unfold pchb. cbn [andb].
    replace (c =? 58) with false in Hc by (assert (c <> 58) by (intros ->; apply Hn; now left); lia). exact Hc.
  - constructor; [assumption|assumption|]. apply IH. intros HI. apply Hn. right. right. now right.
Qed.
Lemma seg_nz_nc_ok a r : encoded pchar a -> ~ In 58 a -> a <> [] -> halt r -> parse_segment_nz_nc (a ++ r) = Ok (true, r).
Proof.
  intros Ha H58 Hn Hr. apply seg_nc in Ha; [|assumption]. assert (L : forall s, encoded (fun c => pchb false c = true) s -> loop (parse_pchar false) (s ++ r) = Ok r).
  { intros s Hs. apply loop_eaten. eapply eaten_enc; [| | |exact Hs].
    - intros c q Hc. now apply pchar_yes.
    - intros x y q Hx Hy. now apply pchar_pct.
    - destruct r as [|d r]; [contradiction|]. destruct Hr as [->|[->|[->| ->]]]; reflexivity. }
  unfold parse_segment_nz_nc. destruct Ha as [|c s Hc Hs|x y s Hx Hy Hs]; [contradiction| |]; cbn [app].
  - rewrite pchar_yes by exact Hc. cbn [obind]. now rewrite L.
  - rewrite pchar_pct by assumption. cbn [obind]. now rewrite L.
Qed.
Lemma segment1_app a b : encoded pchar a -> (b = [] \/ exists q, b = 47 :: q) -> segment1 (a ++ b) = a.
Proof.
  intros Ha Hb. induction Ha as [|c s Hc Hs IH|x y s Hx Hy Hs IH]; cbn [app segment1].
  - destruct Hb as [->|[q ->]]; reflexivity.
  - destruct (Z.eqb_spec c 47) as [->|]; [apply pchar_b in Hc; discriminate|]. now rewrite IH.
  - cbn [Z.eqb Pos.eqb]. assert (HH : forall x, HEXDIG x -> (x =? 47) = false) by (intros z Hz; apply hex_b in Hz; destruct (Z.eqb_spec z 47) as [->|]; [discriminate|reflexivity]).
    rewrite (HH x Hx), (HH y Hy). now rewrite IH.
Qed.

Lemma at01 p third : (forall c d r, p = c :: d :: r -> ~ (c = 47 /\ d = 47)) -> zt p ->
  parse_part third p = (let* (x, q) := alt parse_path_absolute (alt third yes) p in Ok (Some ([], [], [], span p q, q))).
Proof.
  intros H Hz. destruct p as [|c p]; [now apply zt_nil in Hz|]. unfold parse_part, at_, ando. cbn [adv rd obind omap]. destruct (Z.eqb_spec 47 c) as [<-|]; [|reflexivity].
  assert (Hz1 : zt p) by now apply (zt_nz 47). destruct p as [|d p]; [now apply zt_nil in Hz1|]. cbn [adv rd obind omap]. destruct (Z.eqb_spec 47 d) as [<-|]; [|reflexivity].
  exfalso. apply (H 47 47 p eq_refl). auto.
Qed.

(** Everything behind the scheme. *)
Definition hier (p : parts) : list Z := pre "//" (option_map compose_auth (p_auth p)) ++ p_path p.
Definition u_of (p : parts) := match p_auth p with Some a => str_of (a_user a) | None => [] end.
Definition h_of (p : parts) := match p_auth p with Some a => a_host a | None => [] end.
Definition o_of (p : parts) := match p_auth p with Some a => str_of (a_port a) | None => [] end.
Definition third_ok (third : P) (p : parts) : Prop := forall r, stop r -> zt r ->
  (forall a b, p_path p = a ++ b -> encoded pchar a -> a <> [] -> (b = [] \/ exists q, b = 47 :: q) -> third (a ++ b ++ r) = Ok (true, r)) /\
  (exists p', third r = Ok (false, p')).
Lemma part_ok third p r : (forall a, p_auth p = Some a -> ok_auth a) -> ok_path p -> third_ok third p -> stop r -> zt r ->
  parse_part third (hier p ++ r) = Ok (Some (u_of p, h_of p, o_of p, p_path p, r)).
Proof.
  intros Ha [Hc Hp] Ht Hr Hz. unfold hier, u_of, h_of, o_of. destruct (p_auth p) as [a|]; cbn [option_map pre].
  - change (str "//") with [47; 47]. rewrite <- !app_assoc. cbn [app]. unfold parse_part, at_, ando. cbn [adv rd obind omap Z.eqb Pos.eqb].
    rewrite authority_ok; [|auto| |now apply zt_app].
    + cbn [obind]. rewrite abempty_ok by assumption. cbn [obind]. now rewrite span_app.
    + destruct Hp as [->|[q ->]]; cbn; [now apply stop_halt|auto].
  - cbn [app]. destruct Hp as [Hp _]. rewrite at01; [|intros c d q E [-> ->]|now apply zt_app].
    + rewrite rootless_ok; [cbn [obind]; now rewrite span_app|assumption|exact Hp|assumption| |].
      * apply (proj1 (Ht r Hr Hz)).
      * intros _. apply (proj2 (Ht r Hr Hz)).
    + destruct (p_path p) as [|x [|y s]]; cbn [app] in E.
      * rewrite E in Hr. cbn in Hr. lia.
      * injection E as -> E. rewrite E in Hr. cbn in Hr. lia.
      * injection E as -> -> E. now apply (Hp s).
Qed.

Definition comps_of (p : parts) : comps := mkC (str_of (p_scheme p)) (u_of p) (h_of p) (o_of p) (p_path p) (str_of (p_query p)) (str_of (p_fragment p)).
Lemma stop_third r : stop r -> (exists p', parse_path_rootless r = Ok (false, p')) /\ exists p', parse_path_noscheme r = Ok (false, p').
Proof. destruct r as [|d r]; [contradiction|]. intros [->|[->| ->]]; split; eexists; reflexivity. Qed.

Theorem compose_parse p : ok_parts p -> uri (compose p) = Ok (comps_of p).
Proof.
  intros (Hs & Ha & Hp & Hq & Hf). unfold uri.
  set (tl_ := (pre "?" (p_query p) ++ pre "#" (p_fragment p)) ++ [0]).
  assert (EC : compose p ++ [0] = post (p_scheme p) ":" ++ hier p ++ tl_) by (unfold compose, hier, tl_; rewrite <- !app_assoc; reflexivity).
  rewrite EC. assert (HS : stop tl_) by apply tail_stop. assert (HZ : zt tl_) by (now exists (pre "?" (p_query p) ++ pre "#" (p_fragment p))).
  destruct (p_scheme p) as [s|] eqn:Es; cbn [post ok_opt] in *.
  - destruct Hs as (c & r & -> & Hc & Hr). change (str ":") with [58]. rewrite <- !app_assoc. cbn [app]. unfold parse_uri, parse_scheme, eat. cbn [rd obind tl]. rewrite (alpha_b c Hc). cbn [negb].
    erewrite loop_eaten; [|eapply eaten_chars; [| |exact Hr]].
    + cbn [obind]. rewrite (app_comm_cons r (58 :: hier p ++ tl_) c), span_app. unfold colon, eat. cbn [rd obind Z.eqb Pos.eqb tl negb].
      rewrite part_ok; [|assumption|assumption| |assumption|assumption].
      * cbn [obind]. unfold tl_. rewrite tail_ok by assumption. cbn [obind option_map]. unfold comps_of. rewrite Es. reflexivity.
      * intros q Hq1 Hq2. split; [|apply stop_third; assumption]. intros a b E1 E2 E3 E4. unfold parse_path_rootless.
        rewrite seg_nz_ok; [|assumption|assumption|destruct E4 as [->|[? ->]]; cbn; [now apply stop_halt|auto]].
        cbn [obind]. rewrite abempty_ok; [reflexivity| |assumption|assumption].
        destruct Hp as [Hp _]. rewrite E1 in Hp. clear - Hp E2. revert Hp. induction E2 as [|x s Hx Hs IH|x y s Hx Hy Hs IH]; cbn [app]; intros H; [assumption| |].
        -- inversion H; subst; [auto|]. exfalso. apply pchar_b in Hx. discriminate.
        -- inversion H as [|? ? K1 K2|]; subst; [|auto]. exfalso. destruct K1 as [K1|K1]; [apply pchar_b in K1; discriminate|discriminate].
    + intros x q Hx. apply take1_yes. destruct Hx as [Hx|[Hx|Hx]]; [apply alpha_b in Hx; unfold isalnum; now rewrite Hx|apply digit_b in Hx; unfold isalnum; rewrite Hx; now rewrite orb_true_r|].
      vm_compute in Hx. destruct Hx as [<-|[<-|[<-|[]]]]; reflexivity.
    + reflexivity.
  - cbn [app]. assert (HR : parse_relative_ref (hier p ++ tl_) = Ok (Some (comps_of p))).
    { unfold parse_relative_ref. rewrite part_ok; [|assumption|assumption| |assumption|assumption].
      - cbn [obind]. unfold tl_. rewrite tail_ok by assumption. cbn [obind option_map]. unfold comps_of. rewrite Es. reflexivity.
      - intros q Hq1 Hq2. split; [|apply stop_third; assumption]. intros a b E1 E2 E3 E4. unfold parse_path_noscheme.
        destruct Hp as [Hp Hp2]. destruct (p_auth p) eqn:Ea.
        + (* with an authority the path starts with a slash *)
          exfalso. rewrite E1 in Hp2. destruct E2 as [|c s Hc Hs1|x y s Hx Hy Hs1]; [contradiction| |]; cbn [app] in Hp2.
          * destruct Hp2 as [K|[w K]]; [discriminate|]. injection K as -> _. apply pchar_b in Hc. discriminate.
          * destruct Hp2 as [K|[w K]]; discriminate.
        + rewrite Es in Hp2. destruct Hp2 as [_ H58]. rewrite E1 in H58. rewrite segment1_app in H58 by assumption.
          rewrite seg_nz_nc_ok; [|assumption|assumption|assumption|destruct E4 as [->|[? ->]]; cbn; [now apply stop_halt|auto]].
          cbn [obind]. rewrite abempty_ok; [reflexivity| |assumption|assumption].
          rewrite E1 in Hp. clear - Hp E2. revert Hp. induction E2 as [|x s Hx Hs IH|x y s Hx Hy Hs IH]; cbn [app]; intros H; [assumption| |].
          * inversion H; subst; [auto|]. exfalso. apply pchar_b in Hx. discriminate.
          * inversion H as [|? ? K1 K2|]; subst; [|auto]. exfalso. destruct K1 as [K1|K1]; [apply pchar_b in K1; discriminate|discriminate]. }
    assert (HU : parse_uri (hier p ++ tl_) = Ok None).
    { (* the scheme parser stops before anything but a colon *)
      assert (K : exists a d r, hier p ++ tl_ = a ++ d :: r /\ ~ In 58 a /\ d <> 58 /\ (isalnum d || (d =? 43) || (d =? 45) || (d =? 46)) = false /\ (a = [] -> isalpha d = false)).
      { unfold hier. destruct Hp as [Hp Hp2]. destruct (p_auth p) as [au|]; cbn [option_map pre app].
        - change (str "//") with [47; 47]. exists [], 47. eexists. split; [reflexivity|]. repeat split; auto; discriminate.
        - destruct (split_path _ Hp) as (a & b & E1 & E2 & E3 & E4 & _). rewrite E1, <- app_assoc. rewrite Es in Hp2. destruct Hp2 as [_ H58]. rewrite E1, segment1_app in H58 by assumption.
          assert (exists d r, b ++ tl_ = d :: r /\ (d = 47 \/ d = 63 \/ d = 35 \/ d = 0)) as (d & r & Ed & Hd).
          { destruct E4 as [->|[q ->]]; cbn [app]; [|eauto 6]. destruct tl_ as [|d r]; [contradiction|]. cbn in HS. exists d, r. split; [reflexivity|lia]. }
          rewrite Ed. exists a, d, r. split; [reflexivity|]. split; [assumption|]. destruct Hd as [->|[->|[->| ->]]]; repeat split; auto; discriminate. }
      destruct K as (a & d & r & E & H58 & Hd & Hd2 & Hd3). rewrite E. unfold parse_uri, parse_scheme, eat.
      assert (HZ2 : zt (a ++ d :: r)) by (rewrite <- E; now apply zt_app).
      destruct (a ++ d :: r) as [|c w] eqn:Ew; [now destruct a|]. cbn [rd obind tl]. destruct (isalpha c) eqn:Hc; cbn [negb]; [|reflexivity].
      destruct a as [|c' a]; cbn [app] in Ew; injection Ew as -> <-; [rewrite Hd3 in Hc by reflexivity; discriminate|].
      assert (Hz2 : zt (a ++ d :: r)) by (apply (zt_nz c); [assumption|intros ->; discriminate]).
      set (sc := take1 (fun c => isalnum c || (c =? 43) || (c =? 45) || (c =? 46))).
      destruct (safe_loop sc (a ++ d :: r) (safe_take1 _ eq_refl) Hz2) as (q & Eq & Hzq & _ & Hstop). rewrite Eq. cbn [obind].
      (* q begins inside a, or at d *)
      assert (Hq58 : exists e q', q = e :: q' /\ e <> 58).
      { assert (G : forall a, ~ In 58 a -> exists e q', eaten sc (a ++ d :: r) (e :: q') /\ e <> 58).
        { clear - Hd Hd2. induction a as [|x a IH]; intros H; cbn [app].
          - exists d, r. split; [constructor; now apply take1_no|assumption].
          - destruct (isalnum x || (x =? 43) || (x =? 45) || (x =? 46)) eqn:Ex.
            + destruct IH as (e & q' & IH & He); [intros HI; apply H; now right|]. exists e, q'. split; [|assumption]. econstructor; [now apply take1_yes|cbn; lia|exact IH].
            + exists x, (a ++ d :: r). split; [constructor; now apply take1_no|]. intros ->. apply H. now left. }
        destruct (G a) as (e & q' & G1 & G2); [intros HI; apply H58; now right|]. apply loop_eaten in G1. rewrite G1 in Eq. injection Eq as <-. eauto. }
      destruct Hq58 as (e & q' & -> & He). unfold colon, eat. cbn [rd obind tl]. replace (58 =? e) with false by lia. reflexivity. }
    rewrite HU. cbn [obind]. rewrite HR. reflexivity.
Qed.

(** ** Printing and parsing again *)
Definition nonempty (s : list Z) : option (list Z) := match s with [] => None | _ => Some s end.
Lemma str_nonempty s : str_of (nonempty s) = s. Proof. destruct s; reflexivity. Qed.
Lemma pre_nonempty c s : pre c (nonempty s) = match s with [] => [] | _ => str c ++ s end. Proof. destruct s; reflexivity. Qed.
Lemma post_nonempty c s : post (nonempty s) c = match s with [] => [] | _ => s ++ str c end. Proof. destruct s; reflexivity. Qed.
Lemma ok_nonempty F o : ok_opt F o -> ok_opt F (nonempty (str_of o)).
Proof. destruct o as [[|c s]|]; cbn; auto. Qed.
Lemma ok_empty_host : ok_host [].
Proof.
  left. split; [constructor|]. intros (a & b & E & (o1 & o2 & o3 & o4 & _ & _ & _ & _ & ->)). apply (f_equal (@length Z)) in E. rewrite !app_length in E. cbn in E. lia.
Qed.
Definition reprinted (p : parts) : parts :=
  mkP (p_scheme p) (Some (mkA (nonempty (u_of p)) (h_of p) (nonempty (o_of p)))) (p_path p) (nonempty (str_of (p_query p))) (nonempty (str_of (p_fragment p))).
Theorem print_parse p s r : ok_parts p -> p_scheme p = Some s -> p_path p = 47 :: r -> uri (print (comps_of p)) = Ok (comps_of p).
Proof.
  intros (Hs & Ha & Hp & Hq & Hf) Es Ep.
  assert (E : print (comps_of p) = compose (reprinted p)).
  { unfold print, compose, reprinted, authority, comps_of. cbn [scheme path query fragment userinfo host port p_scheme p_auth p_path p_query p_fragment option_map pre].
    unfold compose_auth. cbn [a_user a_host a_port]. rewrite !pre_nonempty, post_nonempty, Es, Ep. rewrite Es in Hs. cbn [ok_opt post str_of] in *. destruct Hs as (c & w & -> & _).
    change (str "://") with ([58] ++ [47; 47]). change (str ":") with [58]. change (str "//") with [47; 47]. rewrite <- !app_assoc.
    destruct (u_of p), (o_of p), (str_of (p_query p)), (str_of (p_fragment p)); reflexivity. }
  rewrite E, compose_parse.
  - f_equal. unfold comps_of, reprinted, u_of, h_of, o_of. cbn [p_scheme p_auth p_path p_query p_fragment a_user a_host a_port]. rewrite !str_nonempty. reflexivity.
  - unfold ok_parts, reprinted, ok_path. cbn [p_scheme p_auth p_path p_query p_fragment]. rewrite Es in *. split; [assumption|]. split; [|split; [|split; now apply ok_nonempty]].
    + intros a [= <-]. unfold ok_auth, u_of, h_of, o_of. cbn [a_user a_host a_port]. destruct (p_auth p) as [a|]; [|split; [exact I|split; [apply ok_empty_host|exact I]]].
      destruct (Ha a eq_refl) as (K1 & K2 & K3). auto using ok_nonempty.
    + split; [apply Hp|]. right. eauto.
Qed.
