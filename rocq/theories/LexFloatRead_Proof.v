(** Proofs about reading floating numbers. *)
From Verif Require Import Common CommonLemmas NumText_Model NumText_Proof Double_Model Double_Spec Double_Proof Json_Model Json_Spec JsonParse_Proof JsonComplete_Proof JsonPrint_Proof JsonFloat_Spec JsonFloat_Proof LexFloat_Spec LexFloat_Model LexFloat_Proof.
From Verif Require Cast_Model Cast_Proof.
Local Open Scope Z_scope.

(** ** Reading *)
Lemma digit_is c : isdigit c = true <-> digit c.
Proof. unfold isdigit, digit. lia. Qed.
Lemma digit_not c : isdigit c = false <-> ~ digit c.
Proof. unfold isdigit, digit. lia. Qed.
Lemma digits_are ds : Forall digit ds -> Forall (fun c => isdigit c = true) ds.
Proof. apply Forall_impl. intros c. apply digit_is. Qed.
Definition no_digit (s : list Z) : Prop := match s with [] => True | c :: _ => ~ digit c end.
Lemma span_of ds rest : Forall digit ds -> no_digit rest -> spanb isdigit (ds ++ rest) = (ds, rest).
Proof. intros H N. apply spanb_app; [ now apply digits_are | ]. intros c r ->. now apply digit_not. Qed.
Lemma span_inv s ds rest : spanb isdigit s = (ds, rest) -> s = ds ++ rest /\ Forall digit ds /\ no_digit rest.
Proof.
  intros E. destruct (spanb_spec isdigit s) as (A & B & C). rewrite E in A, B, C. cbn [fst snd] in *. split; [ exact A | ]. split.
  - eapply Forall_impl; [ | exact B ]. intros c. apply digit_is.
  - destruct rest as [ | c r ]; [ exact I | ]. apply digit_not. exact (C c r eq_refl).
Qed.
(** What num_get takes of an exponent, and what strtod makes of it *)
Definition is_e (c : Z) : bool := (c =? 101) || (c =? 69).
Definition etail (mant : bool) (s : list Z) : list Z :=
  match s with
  | c :: r => if is_e c && mant then 101 :: (let (sg, r1) := split_sign r in sg ++ fst (spanb isdigit r1)) else []
  | [] => []
  end.
Definition tail (s : list Z) : option Z :=
  match s with
  | c :: r => if is_e c then let (sg, r1) := split_sign r in match fst (spanb isdigit r1) with [] => None | ds => Some (if is_minus sg then - dec_val ds else dec_val ds) end else Some 0
  | [] => Some 0
  end.
Lemma accum_sci dec mant s : accum dec true mant s = fst (spanb isdigit s).
Proof.
  revert mant. induction s as [ | c s IH ]; intros mant; [ reflexivity | ]. cbn [accum spanb]. destruct (Z.eqb_spec c 46) as [ -> | N ].
  - cbn [negb andb]. rewrite andb_false_r. reflexivity.
  - destruct (isdigit c) eqn:E; [ rewrite IH; destruct (spanb isdigit s); reflexivity | ]. rewrite andb_false_r. reflexivity.
Qed.
Lemma accum_e dec mant s : match s with c :: _ => c <> 46 \/ dec = true | [] => True end -> no_digit s -> accum dec false mant s = etail mant s.
Proof.
  intros H N. destruct s as [ | c r ]; [ reflexivity | ]. cbn [no_digit] in N. cbn [accum etail]. unfold is_e. rewrite (proj2 (digit_not c) N).
  destruct (Z.eqb_spec c 46) as [ -> | N6 ].
  - destruct H as [ H | -> ]; [ congruence | ]. reflexivity.
  - cbn [negb]. rewrite andb_true_r. destruct (((c =? 101) || (c =? 69)) && mant); [ | reflexivity ]. f_equal.
    unfold split_sign. destruct r as [ | c' r' ]; [ reflexivity | ]. destruct ((c' =? 43) || (c' =? 45)); rewrite accum_sci; reflexivity.
Qed.
Definition some (l : list Z) : bool := match l with [] => false | _ => true end.
Lemma accum_digits dec mant ds s : Forall digit ds -> accum dec false mant (ds ++ s) = ds ++ accum dec false (mant || some ds) s.
Proof.
  intros H. revert mant. induction H as [ | c ds Hc Hd IH ]; intros mant; [ now rewrite orb_false_r | ].
  cbn [app accum some]. rewrite (proj2 (digit_is c) Hc). unfold digit in Hc. replace (c =? 46) with false by lia. rewrite IH, orb_true_r. reflexivity.
Qed.
(** digits, a point and digits, the rest *)
Definition mantissa (s : list Z) : list Z * list Z * list Z * list Z :=
  let '(ip, s2) := spanb isdigit s in
  match s2 with c :: r => if c =? 46 then let '(f, s3) := spanb isdigit r in (ip, [46], f, s3) else (ip, [], [], s2) | [] => (ip, [], [], []) end.
Lemma accum_all mant s ip pt f s3 : mantissa s = (ip, pt, f, s3) -> accum false false mant s = ip ++ pt ++ f ++ etail (mant || some (ip ++ f)) s3.
Proof.
  unfold mantissa. destruct (spanb isdigit s) as [ i s2 ] eqn:E1. destruct (span_inv _ _ _ E1) as (-> & Hi & N). rewrite (accum_digits _ _ _ _ Hi).
  assert (P : match s2 with c :: _ => c <> 46 | [] => True end -> (i, @nil Z, @nil Z, s2) = (ip, pt, f, s3) -> i ++ accum false false (mant || some i) s2 = ip ++ pt ++ f ++ etail (mant || some (ip ++ f)) s3).
  { intros H E. injection E as <- <- <- <-. rewrite accum_e; [ | destruct s2; auto | exact N ]. rewrite app_nil_r. reflexivity. }
  destruct s2 as [ | c r ]; [ intros E; exact (P I E) | ]. destruct (Z.eqb_spec c 46) as [ -> | N6 ]; [ | intros E; exact (P N6 E) ].
  destruct (spanb isdigit r) as [ f0 s0 ] eqn:E2. destruct (span_inv _ _ _ E2) as (-> & Hf & N2). intros E. injection E as <- <- <- <-.
  f_equal. cbn [accum negb andb app]. cbn [Z.eqb Pos.eqb]. f_equal. rewrite (accum_digits _ _ _ _ Hf). f_equal. rewrite accum_e; [ | destruct s0; auto | exact N2 ].
  f_equal. destruct i, f0, mant; reflexivity.
Qed.
(** Parsing the pieces *)
Lemma no_sign_span s : (match s with c :: _ => c <> 43 /\ c <> 45 | [] => True end) -> split_sign s = ([], s).
Proof. destruct s as [ | c r ]; [ reflexivity | ]. intros H. cbn. replace ((c =? 43) || (c =? 45)) with false by lia. reflexivity. Qed.
Definition a_sign (sg : list Z) : Prop := sg = [] \/ sg = [43] \/ sg = [45].
Lemma split_sign_app sg s : a_sign sg -> (match s with c :: _ => c <> 43 /\ c <> 45 | [] => True end) -> split_sign (sg ++ s) = (sg, s).
Proof. intros [ -> | [ -> | -> ] ] H; [ exact (no_sign_span s H) | reflexivity | reflexivity ]. Qed.
Lemma split_sign_inv s sg r : split_sign s = (sg, r) -> s = sg ++ r /\ a_sign sg.
Proof.
  unfold split_sign, a_sign. destruct s as [ | c s ]; [ intros E; injection E as <- <-; auto | ].
  destruct ((c =? 43) || (c =? 45)) eqn:Ec; intros E; injection E as <- <-; [ | auto ]. split; [ reflexivity | right ].
  apply orb_true_iff in Ec. destruct Ec as [ Ec | Ec ]; apply Z.eqb_eq in Ec; subst c; auto.
Qed.
Lemma digit_head_no_sign ds s : Forall digit ds -> (match s with c :: _ => c <> 43 /\ c <> 45 | [] => True end) -> match ds ++ s with c :: _ => c <> 43 /\ c <> 45 | [] => True end.
Proof. intros H N. destruct ds as [ | c r ]; [ exact N | ]. cbn. pose proof (Forall_inv H) as Hc. unfold digit in Hc. lia. Qed.
Lemma parse_etail s : parse_exp (etail true s) = tail s.
Proof.
  destruct s as [ | c r ]; [ reflexivity | ]. cbn [etail tail]. rewrite andb_true_r. destruct (is_e c); [ | reflexivity ].
  destruct (split_sign r) as [ sg r1 ] eqn:E. destruct (split_sign_inv _ _ _ E) as (_ & Hs). unfold parse_exp. cbn [Z.eqb Pos.eqb].
  destruct (spanb isdigit r1) as [ ds s1 ] eqn:E2. cbn [fst]. destruct (span_inv _ _ _ E2) as (_ & Hd & _).
  rewrite split_sign_app; [ | exact Hs | ]. 2: { pose proof (digit_head_no_sign ds [] Hd I) as G. rewrite app_nil_r in G. exact G. }
  pose proof (span_of ds [] Hd I) as G. rewrite app_nil_r in G. rewrite G. destruct ds; reflexivity.
Qed.
Lemma etail_head mant s : match etail mant s with c :: _ => c = 101 | [] => True end.
Proof. destruct s as [ | c r ]; [ exact I | ]. cbn [etail]. destruct (is_e c && mant); [ reflexivity | exact I ]. Qed.
Lemma parse_pieces sg ip pt f e : a_sign sg -> Forall digit ip -> Forall digit f -> pt = [46] \/ pt = [] /\ f = [] -> (match e with c :: _ => c = 101 | [] => True end) ->
  parse_all (sg ++ ip ++ pt ++ f ++ e) = match ip ++ f with [] => None | ds => match parse_exp e with Some x => Some (is_minus sg, dec_val ds, x - Z.of_nat (length f)) | None => None end end.
Proof.
  intros Hs Hi Hf Hp He. unfold parse_all. assert (NE1 : no_digit e) by (destruct e as [ | c r ]; [ exact I | subst c; unfold no_digit, digit; lia ]).
  assert (ND : no_digit (pt ++ f ++ e)) by (destruct Hp as [ -> | (-> & ->) ]; [ cbn; unfold digit; lia | exact NE1 ]).
  rewrite split_sign_app; [ | exact Hs | ].
  2: { apply digit_head_no_sign; [ exact Hi | ]. destruct Hp as [ -> | (-> & ->) ]; [ cbn; lia | ]. destruct e as [ | c r ]; [ exact I | subst c; cbn; lia ]. }
  rewrite (span_of ip _ Hi ND). destruct Hp as [ -> | (-> & ->) ].
  - cbn [app Z.eqb Pos.eqb]. rewrite (span_of f e Hf NE1). reflexivity.
  - cbn [app]. destruct e as [ | c r ]; [ reflexivity | ]. subst c. cbn [Z.eqb Pos.eqb]. reflexivity.
Qed.
Lemma mantissa_inv s ip pt f s3 : mantissa s = (ip, pt, f, s3) ->
  s = ip ++ pt ++ f ++ s3 /\ Forall digit ip /\ Forall digit f /\ (pt = [46] \/ pt = [] /\ f = []) /\ no_digit s3 /\ (pt = [] -> match s3 with c :: _ => c <> 46 | [] => True end).
Proof.
  unfold mantissa. destruct (spanb isdigit s) as [ i s2 ] eqn:E1. destruct (span_inv _ _ _ E1) as (-> & Hi & N).
  destruct s2 as [ | c r ]; [ intros E; injection E as <- <- <- <-; rewrite !app_nil_r; split; [ reflexivity | split; [ exact Hi | split; [ constructor | split; [ right; split; reflexivity | split; [ exact I | intros; exact I ] ] ] ] ] | ].
  destruct (Z.eqb_spec c 46) as [ -> | N6 ]; [ | intros E; injection E as <- <- <- <-; split; [ reflexivity | split; [ exact Hi | split; [ constructor | split; [ right; split; reflexivity | split; [ exact N | intros; exact N6 ] ] ] ] ] ].
  destruct (spanb isdigit r) as [ f0 s0 ] eqn:E2. destruct (span_inv _ _ _ E2) as (-> & Hf & N2). intros E. injection E as <- <- <- <-.
  split; [ reflexivity | split; [ exact Hi | split; [ exact Hf | split; [ left; reflexivity | split; [ exact N2 | discriminate ] ] ] ] ].
Qed.
Lemma mantissa_of ip pt f s3 : Forall digit ip -> Forall digit f -> pt = [46] \/ pt = [] /\ f = [] -> no_digit s3 -> (pt = [] -> match s3 with c :: _ => c <> 46 | [] => True end) ->
  mantissa (ip ++ pt ++ f ++ s3) = (ip, pt, f, s3).
Proof.
  intros Hi Hf Hp N H. unfold mantissa. destruct Hp as [ -> | (-> & ->) ].
  - rewrite (span_of ip _ Hi) by (cbn; unfold digit; lia). cbn [app Z.eqb Pos.eqb]. rewrite (span_of f s3 Hf N). reflexivity.
  - cbn [app]. rewrite (span_of ip _ Hi N). destruct s3 as [ | c r ]; [ reflexivity | ]. specialize (H eq_refl). cbn in H. replace (c =? 46) with false by lia. reflexivity.
Qed.
Lemma zeros_val z ds : Forall (fun c => (c =? 48) = true) z -> dec_val (z ++ ds) = dec_val ds.
Proof.
  intros H. assert (E : z = repeat 48 (length z)). { induction H as [ | c z Hc _ IH ]; [ reflexivity | ]. cbn [length repeat]. apply Z.eqb_eq in Hc. subst c. f_equal. exact IH. }
  rewrite E, <- num_dec, num_app, num_zeros, num_dec. lia.
Qed.
Lemma collect_parse s : parse_all (collect s) =
  let '(sg, s1) := split_sign s in let '(ip, pt, f, s3) := mantissa s1 in
  match ip ++ f with [] => None | ds => match tail s3 with Some x => Some (is_minus sg, dec_val ds, x - Z.of_nat (length f)) | None => None end end.
Proof.
  unfold collect. destruct (split_sign s) as [ sg s1 ] eqn:Es. destruct (split_sign_inv _ _ _ Es) as (_ & Hs).
  destruct (mantissa s1) as [ [ [ ip pt ] f ] s3 ] eqn:Em. destruct (mantissa_inv _ _ _ _ _ Em) as (-> & Hi & Hf & Hp & N & Hn).
  destruct (spanb_spec (fun c => c =? 48) (ip ++ pt ++ f ++ s3)) as (A & B & C). destruct (spanb (fun c => c =? 48) (ip ++ pt ++ f ++ s3)) as [ z s2 ] eqn:Ez. cbn [fst snd] in A, B, C.
  (* the zeros are part of ip *)
  assert (Q : exists i2, ip = z ++ i2 /\ s2 = i2 ++ pt ++ f ++ s3).
  { assert (N4 : match pt ++ f ++ s3 with c :: _ => c <> 48 | [] => True end).
    { destruct Hp as [ -> | (-> & ->) ]; [ cbn; lia | ]. destruct s3 as [ | c r ]; [ exact I | ]. cbn in N |- *. unfold digit in N. lia. }
    revert A B N4. generalize (pt ++ f ++ s3) as rest. clear. induction ip as [ | c ip IH ] in z |- *; intros rest A B N4.
    - cbn [app] in A. destruct z as [ | c z ]; [ exists []; split; [ reflexivity | exact (eq_sym A) ] | ]. exfalso. subst rest. cbn in N4. pose proof (Forall_inv B) as K. cbn in K. lia.
    - destruct z as [ | c' z ]; [ exists (c :: ip); split; [ reflexivity | exact (eq_sym A) ] | ]. cbn [app] in A. injection A as -> A.
      destruct (IH z rest A (Forall_inv_tail B) N4) as (i2 & -> & E). exists i2. split; [ reflexivity | exact E ]. }
  destruct Q as (i2 & -> & ->). apply Forall_app in Hi as [ Hz Hi2 ].
  pose proof (mantissa_of i2 pt f s3 Hi2 Hf Hp N Hn) as M.
  assert (G : forall z' mant, (z' = [] /\ mant = false /\ z = [] \/ z' = [48] /\ mant = true /\ z <> []) ->
    parse_all (sg ++ z' ++ accum false false mant (i2 ++ pt ++ f ++ s3)) =
    match (z ++ i2) ++ f with [] => None | ds => match tail s3 with Some x => Some (is_minus sg, dec_val ds, x - Z.of_nat (length f)) | None => None end end).
  { intros z' mant Hz'. rewrite (accum_all mant _ _ _ _ _ M), (app_assoc z').
    rewrite parse_pieces; [ | exact Hs | | exact Hf | exact Hp | apply etail_head ].
    2: { apply Forall_app. split; [ destruct Hz' as [ (-> & _) | (-> & _) ]; [ constructor | constructor; [ unfold digit; lia | constructor ] ] | exact Hi2 ]. }
    assert (DV : dec_val ((z ++ i2) ++ f) = dec_val ((z' ++ i2) ++ f)).
    { rewrite <- !app_assoc, zeros_val by exact B. symmetry. apply zeros_val. destruct Hz' as [ (-> & _) | (-> & _) ]; repeat constructor. }
    destruct Hz' as [ (-> & -> & ->) | (-> & -> & Nz) ].
    - cbn [app orb] in DV |- *. destruct (i2 ++ f) as [ | a l ] eqn:El; [ reflexivity | ]. cbn [some]. rewrite parse_etail. reflexivity.
    - cbn [app orb] in DV |- *. rewrite parse_etail. destruct z as [ | a z ]; [ congruence | ]. cbn [app] in DV |- *. rewrite DV. reflexivity. }
  destruct z as [ | a z ]; [ exact (G [] false (or_introl (conj eq_refl (conj eq_refl eq_refl)))) | ].
  assert (Nz : a :: z <> []) by discriminate. pose proof (G [48] true (or_intror (conj eq_refl (conj eq_refl Nz)))) as G1. cbn [app] in G1 |- *. exact G1.
Qed.
(** ** Texts of numbers *)
Lemma sign_a sg neg : sign sg neg -> a_sign sg /\ is_minus sg = neg.
Proof. intros []; (split; [ unfold a_sign; auto | reflexivity ]). Qed.
Lemma a_sign_sign sg : a_sign sg -> sign sg (is_minus sg).
Proof. intros [ -> | [ -> | -> ] ]; constructor. Qed.
Lemma stops_no r : stops r -> no_digit r /\ (match r with c :: _ => c <> 46 | [] => True end) /\ tail r = Some 0 /\ (match r with c :: _ => c <> 43 /\ c <> 45 | [] => True end).
Proof. destruct r as [ | c r ]; cbn [stops no_digit tail]; [ auto | ]. intros (A & B & C & D & E & F). split; [ exact A | ]. split; [ exact B | ]. unfold is_e. replace ((c =? 101) || (c =? 69)) with false by lia. auto. Qed.
Lemma expo_tail e x r : expo e x -> stops r -> tail (e ++ r) = Some x /\ no_digit (e ++ r) /\ (match e ++ r with c :: _ => c <> 46 /\ c <> 43 /\ c <> 45 | [] => True end).
Proof.
  intros He Hr. destruct (stops_no r Hr) as (A & B & C & D). destruct He as [ | c s neg ds Hc Hs Hd Hds ].
  - split; [ exact C | ]. split; [ exact A | ]. cbn [app]. destruct r; auto.
  - split; [ | split; [ cbn; unfold digit; lia | cbn; lia ] ]. cbn [app tail]. unfold is_e. replace ((c =? 101) || (c =? 69)) with true by lia.
    destruct (sign_a s neg Hs) as [ Ha Hm ]. rewrite <- app_assoc, split_sign_app; [ | exact Ha | now apply digit_head_no_sign ].
    rewrite (span_of ds r Hds A). cbn [fst]. rewrite Hm, num_dec. destruct ds; [ congruence | reflexivity ].
Qed.
Lemma parse_text t neg D j r : float_text t neg D j -> stops r -> parse_all (collect (t ++ r)) = Some (neg, D, j).
Proof.
  intros [ s n ip pt f e x Hs Hi Hf Hn Hp He ] Hr. rewrite collect_parse. destruct (sign_a s n Hs) as [ Ha Hm ]. destruct (expo_tail e x r He Hr) as (Ht & Nd & N4).
  rewrite <- !app_assoc, split_sign_app; [ | exact Ha | ].
  2: { apply digit_head_no_sign; [ exact Hi | ]. destruct Hp as [ -> | (-> & ->) ]; [ cbn; lia | ]. cbn [app]. destruct (e ++ r); tauto. }
  rewrite (mantissa_of ip pt f (e ++ r) Hi Hf Hp Nd) by (intros _; destruct (e ++ r); tauto). rewrite Ht, Hm, num_dec.
  destruct (ip ++ f); [ congruence | reflexivity ].
Qed.
Lemma text_parse s neg D j : parse_all (collect s) = Some (neg, D, j) -> exists t r, s = t ++ r /\ float_text t neg D j.
Proof.
  rewrite collect_parse. destruct (split_sign s) as [ sg s1 ] eqn:Es. destruct (split_sign_inv _ _ _ Es) as (-> & Hs).
  destruct (mantissa s1) as [ [ [ ip pt ] f ] s3 ] eqn:Em. destruct (mantissa_inv _ _ _ _ _ Em) as (-> & Hi & Hf & Hp & N & Hn).
  destruct (ip ++ f) as [ | a l ] eqn:El; [ discriminate | ]. destruct (tail s3) as [ x | ] eqn:Et; [ | discriminate ]. intros E. injection E as <- <- <-.
  assert (X : exists e r, s3 = e ++ r /\ expo e x).
  { unfold tail in Et. destruct s3 as [ | c r ]; [ injection Et as <-; exists [], []; split; [ reflexivity | constructor ] | ].
    destruct (is_e c) eqn:Ec; [ | injection Et as <-; exists [], (c :: r); split; [ reflexivity | constructor ] ].
    destruct (split_sign r) as [ g r1 ] eqn:Eg. destruct (split_sign_inv _ _ _ Eg) as (-> & Hg). destruct (spanb isdigit r1) as [ ds r2 ] eqn:Ed. destruct (span_inv _ _ _ Ed) as (-> & Hd & _).
    cbn [fst] in Et. destruct ds as [ | b ds ]; [ discriminate | ]. injection Et as <-. exists (c :: g ++ b :: ds), r2. split; [ cbn [app]; rewrite <- app_assoc; reflexivity | ].
    rewrite <- num_dec. apply xp_some; [ unfold is_e in Ec; lia | now apply a_sign_sign | discriminate | exact Hd ]. }
  destruct X as (e & r & -> & He). exists (sg ++ ip ++ pt ++ f ++ e), r. split; [ rewrite <- !app_assoc; reflexivity | ].
  rewrite <- El, <- num_dec. apply fx; auto; [ now apply a_sign_sign | rewrite El; discriminate ].
Qed.
Lemma skip_blanks w s : Forall blank w -> (match s with c :: _ => ~ blank c | [] => True end) -> Cast_Model.skip_ws (w ++ s) = s.
Proof.
  intros H N. induction H as [ | c w Hc _ IH ].
  - destruct s as [ | c r ]; [ reflexivity | ]. cbn [app Cast_Model.skip_ws]. cbn in N. unfold blank in N. unfold Cast_Model.isspace. replace (((9 <=? c) && (c <=? 13)) || (c =? 32)) with false by lia. reflexivity.
  - cbn [app Cast_Model.skip_ws]. unfold blank in Hc. unfold Cast_Model.isspace. replace (((9 <=? c) && (c <=? 13)) || (c =? 32)) with true by lia. exact IH.
Qed.
Lemma skip_split s : exists w, s = w ++ Cast_Model.skip_ws s /\ Forall blank w.
Proof.
  induction s as [ | c s (w & E & H) ]; [ exists []; split; [ reflexivity | constructor ] | ]. cbn [Cast_Model.skip_ws]. destruct (Cast_Model.isspace c) eqn:Ec.
  - exists (c :: w). split; [ cbn [app]; f_equal; exact E | constructor; [ unfold Cast_Model.isspace in Ec; unfold blank; lia | exact H ] ].
  - exists []. split; [ reflexivity | constructor ].
Qed.
Lemma text_head t neg D j r : float_text t neg D j -> match t ++ r with c :: _ => ~ blank c | [] => True end.
Proof.
  intros [ s n ip pt f e x Hs Hi Hf Hn Hp He ]. unfold blank. destruct Hs; [ | cbn; lia | cbn; lia ]. cbn [app].
  destruct ip as [ | c ip ]; [ | cbn; pose proof (Forall_inv Hi) as K; unfold digit in K; lia ]. destruct Hp as [ -> | (-> & ->) ]; [ cbn; lia | exfalso; now apply Hn ].
Qed.
Lemma text_nonneg t neg D j : float_text t neg D j -> 0 <= D.
Proof. intros [ s n ip pt f e x Hs Hi Hf Hn Hp He ]. apply num_nonneg. apply Forall_app. auto. Qed.
Lemma dec_near_spec neg D j d : 0 <= D -> (dec_near neg D j = Some d <-> near neg D j d).
Proof.
  intros H. unfold dec_near, near, up, down. destruct (Z.leb_spec 0 j).
  - rewrite (Z.max_r 0 j), (Z.max_l 0 (- j)) by lia. change (10 ^ 0) with 1. apply to_near_spec; [ | lia ]. pose proof (Z.pow_pos_nonneg 10 j). nia.
  - rewrite (Z.max_l 0 j), (Z.max_r 0 (- j)) by lia. change (10 ^ 0) with 1. rewrite Z.mul_1_r. apply to_near_spec; [ exact H | apply Z.pow_pos_nonneg; lia ].
Qed.
Lemma dec_near_none neg D j : 0 <= D -> too_large D j -> dec_near neg D j = None.
Proof.
  intros H. unfold too_large, dec_near, up, down. destruct (Z.leb_spec 0 j).
  - rewrite (Z.max_r 0 j), (Z.max_l 0 (- j)) by lia. change (10 ^ 0) with 1. apply to_near_none; [ | lia ]. pose proof (Z.pow_pos_nonneg 10 j). nia.
  - rewrite (Z.max_l 0 j), (Z.max_r 0 (- j)) by lia. change (10 ^ 0) with 1. rewrite Z.mul_1_r. apply to_near_none; [ exact H | apply Z.pow_pos_nonneg; lia ].
Qed.
Theorem read_text w t neg D j r : Forall blank w -> float_text t neg D j -> stops r ->
  extract (w ++ t ++ r) = match dec_near neg D j with Some d => Some (Fin d) | None => None end.
Proof. intros Hw Ht Hr. unfold extract. rewrite (skip_blanks w _ Hw (text_head t neg D j r Ht)), (parse_text t neg D j r Ht Hr). reflexivity. Qed.
Theorem read_sound s v : extract s = Some v -> exists w t r neg D j d, s = w ++ t ++ r /\ Forall blank w /\ float_text t neg D j /\ v = Fin d /\ near neg D j d.
Proof.
  unfold extract. destruct (skip_split s) as (w & E & Hw). destruct (parse_all (collect (Cast_Model.skip_ws s))) as [ [ [ neg D ] j ] | ] eqn:Ep; [ | discriminate ].
  destruct (text_parse _ _ _ _ Ep) as (t & r & Et & Ht). destruct (dec_near neg D j) as [ d | ] eqn:Ed; [ | discriminate ]. intros Ev. injection Ev as <-.
  exists w, t, r, neg, D, j, d. rewrite Et in E. split; [ exact E | ]. split; [ exact Hw | ]. split; [ exact Ht | ]. split; [ reflexivity | ].
  apply dec_near_spec; [ exact (text_nonneg _ _ _ _ Ht) | exact Ed ].
Qed.
(** ** What is printed *)
Lemma sign_of sg b : sign_part sg b -> sign sg b.
Proof. intros []; constructor. Qed.
Lemma int_digits ip : int_part ip -> Forall digit ip /\ ip <> [].
Proof. intros [ | c r H1 H2 ]; (split; [ | discriminate ]); constructor; auto; unfold digit; lia. Qed.
Lemma expo_of e x : exponent e x -> expo e x.
Proof.
  intros [ | c d r Hc Hd Hr | c d r Hc Hd Hr | c d r Hc Hd Hr ]; [ constructor | | | ].
  - exact (xp_some c [] false (d :: r) Hc sg_none ltac:(discriminate) (Forall_cons _ Hd Hr)).
  - exact (xp_some c [43] false (d :: r) Hc sg_plus ltac:(discriminate) (Forall_cons _ Hd Hr)).
  - exact (xp_some c [45] true (d :: r) Hc sg_minus ltac:(discriminate) (Forall_cons _ Hd Hr)).
Qed.
Lemma int_text sg b ip : sign sg b -> Forall digit ip -> ip <> [] -> float_text (sg ++ ip) b (num ip) 0.
Proof.
  intros Hg Hd Hn. pose proof (fx sg b ip [] [] [] 0 Hg Hd (Forall_nil _)) as T. cbn [app length] in T. rewrite !app_nil_r in T. change (0 - Z.of_nat 0) with 0 in T.
  apply T; [ exact Hn | right; split; reflexivity | constructor ].
Qed.
Lemma denotes_text t neg n k : 0 < n -> denotes t neg n k -> exists D j, float_text t neg D j /\ same_decimal D j n k.
Proof.
  intros Hn [ m Hm Ht Hs | D j Ht Hs ].
  - inversion Ht as [ sg b ip Hg Hp E1 E2 ]. destruct (int_digits ip Hp) as [ Hd Hi ]. pose proof (num_nonneg ip Hd) as Z0.
    assert (P : 0 < m). { unfold same_decimal in Hs. pose proof (up_pos k). pose proof (down_pos k). change (up 0) with 1 in Hs. change (down 0) with 1 in Hs. nia. }
    assert (b = neg /\ num ip = m) as (<- & <-) by (destruct b, neg; split; try reflexivity; lia).
    exists (num ip), 0. split; [ | exact Hs ]. apply int_text; auto. now apply sign_of.
  - exists D, j. split; [ | exact Hs ]. destruct Ht as [ sg b ip ft f et x Hg Hp Hf He _ ]. destruct (int_digits ip Hp) as [ Hd Hi ].
    assert (NE1 : ip ++ f <> []) by (intros E; apply app_eq_nil in E; tauto).
    destruct Hf as [ | c r Hc Hr ].
    + exact (fx sg b ip [] [] et x (sign_of _ _ Hg) Hd (Forall_nil _) NE1 (or_intror (conj eq_refl eq_refl)) (expo_of _ _ He)).
    + exact (fx sg b ip [46] (c :: r) et x (sign_of _ _ Hg) Hd (Forall_cons _ Hc Hr) NE1 (or_introl eq_refl) (expo_of _ _ He)).
Qed.
Theorem print_text d : is_double d -> dman d <> 0 -> exists n k D j, rounds6 d n k /\ float_text (fmt6 d) (dneg d) D j /\ same_decimal D j n k.
Proof.
  intros Hd Hm. destruct (fmt6_denotes d Hd Hm) as (n & k & R & Dn). assert (0 < n) by (destruct R as (_ & R2 & _); lia).
  destruct (denotes_text _ _ _ _ H Dn) as (D & j & T & S). exists n, k, D, j. auto.
Qed.
Lemma zero_eq d : is_double d -> dman d = 0 -> d = mkD (dneg d) 0 (-1074).
Proof. intros (_ & _ & C) E. rewrite E in C. destruct C as [ C | C ]; [ exfalso; assert (0 < 2 ^ 52) by reflexivity; lia | ]. destruct d. cbn in *. congruence. Qed.
Lemma zero_text d : is_double d -> dman d = 0 -> float_text (fmt6 d) (dneg d) 0 0.
Proof.
  intros Hd E. unfold fmt6. rewrite E. cbn [Z.eqb]. change 0 with (num [48]) at 1. apply int_text; [ destruct (dneg d); constructor | constructor; [ unfold digit; lia | constructor ] | discriminate ].
Qed.
Lemma read_all t neg D j : float_text t neg D j -> extract t = match dec_near neg D j with Some d => Some (Fin d) | None => None end.
Proof. intros H. pose proof (read_text [] t neg D j [] (Forall_nil _) H I) as E. rewrite app_nil_r in E. exact E. Qed.
Lemma near_unique neg D j d d' : near neg D j d -> near neg D j d' -> d = d'.
Proof. apply nearest_unique, down_pos. Qed.
Lemma near_zero neg : near neg 0 0 (mkD neg 0 (-1074)).
Proof. apply dec_near_spec; [ lia | reflexivity ]. Qed.
(** What is read back is the nearest to the rounding. *)
Theorem back d : is_double d -> dman d <> 0 -> exists n k d', rounds6 d n k /\ near (dneg d) n k d' /\ extract (fmt6 d) = Some (Fin d').
Proof.
  intros Hd Hm. destruct (print_text d Hd Hm) as (n & k & D & j & R & T & S). destruct (rounded_near (dneg d) d n k Hd R) as (d' & N).
  exists n, k, d'. split; [ exact R | ]. split; [ exact N | ]. rewrite (read_all _ _ _ _ T).
  assert (N2 : near (dneg d) D j d') by exact (near_same _ _ _ _ _ _ (same_sym _ _ _ _ S) N).
  rewrite (proj2 (dec_near_spec _ _ _ _ (text_nonneg _ _ _ _ T)) N2). reflexivity.
Qed.
Lemma six_again d n k : rounds6 d n k -> near (dneg d) n k d -> six d.
Proof.
  intros (_ & R2 & _) N. destruct (Z.eq_dec n (10 ^ 6)) as [ -> | Nn ].
  - exists 1, (k + 6). split; [ lia | ]. apply (near_same _ (10 ^ 6) k); [ | exact N ]. pose proof (same_shift 1 (k + 6) 6 ltac:(lia)) as S. replace (k + 6 - 6) with k in S by lia. rewrite Z.mul_1_l in S. exact S.
  - exists n, k. split; [ lia | exact N ].
Qed.
Theorem kept d : is_double d -> (extract (fmt6 d) = Some (Fin d) <-> six d).
Proof.
  intros Hd. destruct (Z.eq_dec (dman d) 0) as [ E | E ].
  - pose proof (zero_eq d Hd E) as Ez. assert (N : near (dneg d) 0 0 d) by (rewrite Ez at 2; apply near_zero).
    split; [ intros _; exists 0, 0; split; [ lia | exact N ] | intros _ ].
    rewrite (read_all _ _ _ _ (zero_text d Hd E)), (proj2 (dec_near_spec _ _ _ _ (Z.le_refl 0)) N). reflexivity.
  - destruct (back d Hd E) as (n & k & d' & R & N & X). rewrite X. split.
    + intros Y. injection Y as ->. exact (six_again d n k R N).
    + intros (D & j & HD & S). destruct (Z.eq_dec D 0) as [ -> | ND ].
      * exfalso. apply E. assert (Z1 : near (dneg d) 0 0 (mkD (dneg d) 0 (-1074))) by apply near_zero.
        assert (Z2 : near (dneg d) 0 0 d). { apply (near_same _ 0 j); [ | exact S ]. unfold same_decimal. reflexivity. }
        rewrite (near_unique _ _ _ _ _ Z2 Z1). reflexivity.
      * pose proof (round_near6 d D j n k Hd ltac:(lia) S R) as N2. rewrite (near_unique _ _ _ _ _ N2 N). reflexivity.
Qed.
(** ** Integers *)
Lemma show_text n : float_text (show_int n) (n <? 0) (Z.abs n) 0.
Proof.
  assert (G : forall a, 0 <= a -> num (dec_text a) = a) by (intros a Ha; rewrite num_dec; now apply dec_text_val).
  unfold show_int. destruct (Z.ltb_spec n 0) as [ H | H ].
  - replace (Z.abs n) with (num (dec_text (- n))) by (rewrite G; lia). apply (int_text [45]); [ constructor | apply dec_text_digit; lia | apply dec_text_nonempty; lia ].
  - replace (Z.abs n) with (num (dec_text n)) by (rewrite G; lia). apply (int_text []); [ constructor | apply dec_text_digit; lia | apply dec_text_nonempty; lia ].
Qed.
Lemma dec_text_shift n m : 0 < n -> dec_text (n * 10 ^ Z.of_nat m) = dec_text n ++ repeat 48 m.
Proof.
  intros Hn. assert (Hp : 0 < 10 ^ Z.of_nat m) by (apply Z.pow_pos_nonneg; lia). assert (E : digits 10 (n * 10 ^ Z.of_nat m) = digits 10 n ++ repeat 0 m).
  { destruct (digits_spec 10 n ltac:(lia) ltac:(lia)) as (V & F & L & _). destruct (digits_spec 10 (n * 10 ^ Z.of_nat m) ltac:(lia) ltac:(nia)) as (V' & F' & L' & _).
    destruct (L Hn) as (a & l & Ea & Ha). destruct (L' ltac:(nia)) as (a' & l' & Ea' & Ha').
    assert (Fz : Forall (fun d => 0 <= d < 10) (repeat 0 m)) by (apply Forall_forall; intros x Hx; apply repeat_spec in Hx; lia).
    apply (digits_val_inj 10); [ lia | exact F' | apply Forall_app; split; [ exact F | exact Fz ] | | | ].
    - exists a', l'. auto.
    - exists a, (l ++ repeat 0 m). rewrite Ea. auto.
    - rewrite V', digits_val_app, V, repeat_length. assert (Z0 : digits_val 10 (repeat 0 m) = 0); [ | lia ].
      clear. induction m as [ | m IH ]; [ reflexivity | ]. cbn [repeat]. rewrite digits_val_cons, IH. lia. }
  unfold dec_text. rewrite E, map_app. f_equal. clear. induction m as [ | m IH ]; [ reflexivity | ]. cbn [repeat map]. rewrite IH. reflexivity.
Qed.
Lemma fmt6_int d n : is_double d -> 0 < n < 10 ^ 6 -> mag d = n * 2 ^ 1074 -> fmt6 d = (if dneg d then [45] else []) ++ dec_text n.
Proof.
  intros Hd Hn Hm. pose proof (frac_mag d Hd) as E. pose proof (fq_pos d) as Q. rewrite Hm in E.
  assert (Ep : fp d = n * fq d). { assert (W : 0 < 2 ^ 1074) by reflexivity. set (H := 2 ^ 1074) in *. clearbody H. apply (Z.mul_reg_r _ _ H); lia. }
  assert (Hz : dman d <> 0). { intros K. unfold mag in Hm. rewrite K in Hm. assert (W : 0 < 2 ^ 1074) by reflexivity. set (H := 2 ^ 1074) in *. clearbody H. nia. }
  replace (fmt6 d) with ((if dneg d then [45] else []) ++ fmt6_pos (fp d) (fq d)).
  2: { unfold fmt6. replace (dman d =? 0) with false by lia. unfold fp, fq. destruct (0 <=? dexp d); reflexivity. }
  f_equal. rewrite Ep. set (q := fq d) in *. clearbody q. clear - Hn Q.
  pose proof (flog10_spec (n * q) q ltac:(nia) Q) as F. cbv zeta in F. unfold fmt6_pos, sig6. set (x := flog10 (n * q) q) in *. clearbody x.
  pose proof (up_pos x) as U. pose proof (down_pos x) as W.
  assert (F' : up x <= n * down x < 10 * up x) by nia. clear F.
  assert (Hx0 : 0 <= x).
  { destruct (Z.le_gt_cases 0 x) as [ K | K ]; [ exact K | exfalso ]. unfold up, down in *. rewrite (Z.max_l 0 x), (Z.max_r 0 (- x)) in * by lia.
    pose proof (Z.pow_le_mono_r 10 1 (- x) ltac:(lia) ltac:(lia)). change (10 ^ 1) with 10 in *. change (10 ^ 0) with 1 in *. nia. }
  unfold up, down in F'. rewrite (Z.max_r 0 x), (Z.max_l 0 (- x)) in F' by lia. change (10 ^ 0) with 1 in F'. rewrite Z.mul_1_r in F'.
  assert (Hx5 : x <= 5). { destruct (Z.le_gt_cases x 5) as [ K | K ]; [ exact K | exfalso ]. pose proof (Z.pow_le_mono_r 10 6 x ltac:(lia) ltac:(lia)). lia. }
  rewrite scale10. unfold up, down. rewrite (Z.max_l 0 (x - 5)), (Z.max_r 0 (- (x - 5))) by lia. change (10 ^ 0) with 1. rewrite Z.mul_1_r.
  set (m := Z.to_nat (5 - x)). replace (- (x - 5)) with (Z.of_nat m) by (unfold m; lia).
  assert (Er : rhe (n * q * 10 ^ Z.of_nat m) q = n * 10 ^ Z.of_nat m) by (apply Z.le_antisymm; [ apply rhe_le | apply rhe_ge ]; nia).
  rewrite Er. assert (Hlt : n * 10 ^ Z.of_nat m < 10 ^ 6).
  { change (10 ^ 6) with (10 ^ (x + 1 + Z.of_nat m)) || replace (10 ^ 6) with (10 ^ (x + 1 + Z.of_nat m)) by (f_equal; unfold m; lia).
    rewrite Z.pow_add_r by (unfold m; lia). pose proof (Z.pow_pos_nonneg 10 (Z.of_nat m) ltac:(lia) ltac:(lia)). replace (10 ^ (x + 1)) with (10 * 10 ^ x) by (rewrite Z.pow_add_r by lia; change (10 ^ 1) with 10; ring). nia. }
  replace (n * 10 ^ Z.of_nat m =? 10 ^ 6) with false by lia. replace ((-4 <=? x) && (x <? 6)) with true by lia. replace (0 <=? x) with true by lia.
  rewrite (dec_text_shift n m) by lia.
  assert (L : length (dec_text n) = Z.to_nat (x + 1)).
  { destruct (dec_text_len n ltac:(lia)) as [ A B ]. set (L := Z.of_nat (length (dec_text n))) in *.
    assert (~ L <= x) by (intros K; pose proof (Z.pow_le_mono_r 10 L x ltac:(lia) K); lia).
    assert (~ x + 1 <= L - 1) by (intros K; pose proof (Z.pow_le_mono_r 10 (x + 1) (L - 1) ltac:(lia) K) as P; rewrite Z.pow_add_r in P by lia; change (10 ^ 1) with 10 in P; lia). lia. }
  rewrite <- L, firstn_app, firstn_all, Nat.sub_diag, skipn_app, skipn_all, Nat.sub_diag. cbn [firstn skipn app]. rewrite app_nil_r.
  assert (Z0 : strip0 (repeat 48 m) = []).
  { destruct (strip0_spec (repeat 48 m)) as (i & Ei). unfold strip0. clear. assert (G : forall j, rev (repeat 48 j) = repeat 48 j).
    { induction j as [ | j IH ]; [ reflexivity | ]. cbn [repeat rev]. rewrite IH. clear IH. induction j as [ | j IH ]; [ reflexivity | ]. cbn [repeat app]. rewrite IH. reflexivity. }
    rewrite G. induction m as [ | j IH ]; [ reflexivity | ]. cbn [repeat spanb]. cbn [Z.eqb Pos.eqb]. destruct (spanb (fun c => c =? 48) (repeat 48 j)). exact IH. }
  unfold frac_text. rewrite Z0. now rewrite app_nil_r.
Qed.
Theorem int_back s b d n : is_double d -> 0 <= n < 10 ^ 6 -> mag d = n * 2 ^ 1074 -> let v := if dneg d then - n else n in
  Cast_Model.lo (Cast_Model.TNum s b) <= v <= Cast_Model.hi (Cast_Model.TNum s b) -> Cast_Model.extract (Cast_Model.TNum s b) (fmt6 d) = Some v.
Proof.
  intros Hd Hn Hm v Hv. destruct (Z.eq_dec n 0) as [ -> | N ].
  - assert (E : dman d = 0). { unfold mag in Hm. destruct Hd as (A & B & _). pose proof (Z.pow_pos_nonneg 2 (dexp d + 1074)). nia. }
    unfold fmt6. rewrite E. cbn [Z.eqb]. assert (v = 0) as -> by (unfold v; destruct (dneg d); reflexivity).
    assert (S : exists neg, Cast_Model.scan ((if dneg d then [45] else []) ++ [48]) = Some (neg, 0, [])) by (destruct (dneg d); eexists; reflexivity).
    destruct S as (neg & S). destruct s; cbn [Cast_Model.extract]; rewrite S.
    + replace (if neg then - 0 else 0) with 0 by (destruct neg; reflexivity). replace ((Cast_Model.lo (Cast_Model.TNum true b) <=? 0) && (0 <=? Cast_Model.hi (Cast_Model.TNum true b))) with true by lia. reflexivity.
    + replace (0 <=? Cast_Model.hi (Cast_Model.TNum false b)) with true by lia. destruct neg; [ | reflexivity ]. change (- 0) with 0. rewrite Z.mod_0_l; [ reflexivity | ].
      intros K. cbn in Hv. lia.
  - rewrite (fmt6_int d n Hd ltac:(lia) Hm). assert (E : (if dneg d then [45] else []) ++ dec_text n = show_int v).
    { unfold show_int, v. destruct (dneg d); [ replace (- n <? 0) with true by lia; now rewrite Z.opp_involutive | replace (n <? 0) with false by lia; reflexivity ]. }
    rewrite E. apply Cast_Proof.extract_show; [ discriminate | exact Hv ].
Qed.
(** Small integers are doubles. *)
Lemma int_exact n : Z.abs n <= 2 ^ 53 -> exists d, is_double d /\ dneg d = (n <? 0) /\ mag d = Z.abs n * 2 ^ 1074 /\ near (n <? 0) (Z.abs n) 0 d.
Proof.
  intros H. assert (O : Z.abs n * up 0 < down 0 * (2 ^ 1024 - 2 ^ 970)).
  { change (up 0) with 1. change (down 0) with 1. assert (K : 2 ^ 53 < 2 ^ 1024 - 2 ^ 970) by reflexivity. set (X := 2 ^ 1024 - 2 ^ 970) in *. clearbody X. lia. }
  assert (E : exists d, to_near (n <? 0) (Z.abs n * up 0) (down 0) = Some d).
  { destruct (Z.eq_dec n 0) as [ -> | N ]; [ eexists; reflexivity | ]. apply to_near_range; [ change (up 0) with 1; lia | reflexivity | exact O ]. }
  destruct E as (d & E). apply to_near_spec in E; [ | change (up 0) with 1; lia | reflexivity ]. exists d. pose proof E as (Hd & Hs & _ & Hmin & _).
  split; [ exact Hd | ]. split; [ exact Hs | ]. split; [ | exact E ].
  (* some double is exactly n *)
  assert (X : exists d', is_double d' /\ mag d' = Z.abs n * 2 ^ 1074).
  { destruct (Z.eq_dec n 0) as [ -> | N ]; [ exists (mkD false 0 (-1074)); split; [ unfold is_double; cbn [dman dexp]; split; [ lia | split; [ lia | right; reflexivity ] ] | reflexivity ] | ].
    destruct (Z.eq_dec (Z.abs n) (2 ^ 53)) as [ -> | N53 ]; [ exists (mkD false (2 ^ 52) 1); split; [ unfold is_double; cbn [dman dexp]; split; [ lia | split; [ lia | left; lia ] ] | reflexivity ] | ].
    set (a := Z.abs n) in *. assert (Ha : 0 < a < 2 ^ 53) by (unfold a; lia). destruct (Z.log2_spec a ltac:(lia)) as [ L1 L2 ]. set (l := Z.log2 a) in *.
    assert (Hl : 0 <= l <= 52). { split; [ apply Z.log2_nonneg | ]. destruct (Z.le_gt_cases l 52) as [ K | K ]; [ exact K | exfalso ]. pose proof (Z.pow_le_mono_r 2 53 l ltac:(lia) ltac:(lia)). lia. }
    assert (P : 2 ^ 52 = 2 ^ l * 2 ^ (52 - l)) by (rewrite <- Z.pow_add_r by lia; f_equal; lia).
    assert (P0 : 0 < 2 ^ (52 - l)) by (apply Z.pow_pos_nonneg; lia). rewrite Z.pow_succ_r in L2 by lia.
    exists (mkD false (a * 2 ^ (52 - l)) (l - 52)). split.
    - unfold is_double. cbn [dman dexp]. split; [ | split; [ lia | left ] ]; [ | rewrite P; nia ]. replace (2 ^ 53) with (2 * 2 ^ 52) by reflexivity. rewrite P. nia.
    - unfold mag. cbn [dman dexp]. rewrite <- Z.mul_assoc. f_equal. rewrite <- Z.pow_add_r by lia. f_equal. lia. }
  destruct X as (d' & Hd' & Hm). specialize (Hmin d' Hd'). unfold dist in Hmin. rewrite Hm in Hmin. change (up 0) with 1 in Hmin. change (down 0) with 1 in Hmin.
  set (H2 := 2 ^ 1074) in *. clearbody H2. lia.
Qed.
