(** Proofs about vectors of double as text. *)
From Verif Require Import Common CommonLemmas NumText_Model NumText_Proof Double_Model Double_Spec Double_Proof Json_Model Json_Spec JsonParse_Proof JsonComplete_Proof JsonPrint_Proof JsonFloat_Spec JsonFloat_Proof LexFloat_Spec LexFloat_Model LexFloat_Proof LexFloatRead_Proof VecFloat_Spec VecFloat_Model.
From Verif Require Cast_Model.
Local Open Scope Z_scope.

Lemma etail_length e x r : expo e x -> stops r -> length (etail true (e ++ r)) = length e.
Proof.
  intros He Hr. destruct (stops_no r Hr) as (A & B & C & D). destruct He as [ | c s neg ds Hc Hs Hd Hds ].
  - cbn [app length]. destruct r as [ | c r ]; [ reflexivity | ]. cbn [etail]. unfold is_e. cbn [stops] in Hr. replace ((c =? 101) || (c =? 69)) with false by lia. reflexivity.
  - cbn [app etail]. unfold is_e. replace ((c =? 101) || (c =? 69)) with true by lia. cbn [andb length]. f_equal.
    destruct (sign_a s neg Hs) as [ Ha _ ]. rewrite <- app_assoc, split_sign_app; [ | exact Ha | now apply digit_head_no_sign ].
    rewrite (span_of ds r Hds A). reflexivity.
Qed.
Lemma zeros_split ip rest : Forall digit ip -> match rest with c :: _ => c <> 48 | [] => True end ->
  exists z i2, ip = z ++ i2 /\ spanb (fun c => c =? 48) (ip ++ rest) = (z, i2 ++ rest).
Proof.
  intros _ N. induction ip as [ | c ip (z & i2 & -> & E) ].
  - exists [], []. split; [ reflexivity | ]. cbn [app]. destruct rest as [ | c r ]; [ reflexivity | ]. cbn [spanb]. apply Z.eqb_neq in N. rewrite N. reflexivity.
  - cbn [app spanb]. destruct (Z.eqb_spec c 48) as [ -> | Nc ].
    + rewrite E. exists (48 :: z), i2. split; reflexivity.
    + exists [], (c :: z ++ i2). split; reflexivity.
Qed.
Lemma taken_text t neg D j r : float_text t neg D j -> stops r -> taken (t ++ r) = length t.
Proof.
  intros [ s n ip pt f e x Hs Hi Hf Hn Hp He ] Hr. destruct (sign_a s n Hs) as [ Ha _ ]. destruct (expo_tail e x r He Hr) as (_ & Nd & N4).
  assert (N0 : match pt ++ f ++ e ++ r with c :: _ => c <> 48 /\ c <> 43 /\ c <> 45 | [] => True end).
  { destruct Hp as [ -> | (-> & ->) ]; [ cbn; lia | ]. cbn [app]. destruct (e ++ r) as [ | c q ]; [ exact I | ]. cbn in Nd. unfold digit in Nd. lia. }
  unfold taken. rewrite <- !app_assoc, split_sign_app; [ | exact Ha | apply digit_head_no_sign; [ exact Hi | destruct (pt ++ f ++ e ++ r); tauto ] ].
  destruct (zeros_split ip (pt ++ f ++ e ++ r) Hi) as (z & i2 & -> & ->); [ destruct (pt ++ f ++ e ++ r); tauto | ].
  apply Forall_app in Hi as [ Hz Hi2 ].
  assert (M : mantissa (i2 ++ pt ++ f ++ e ++ r) = (i2, pt, f, e ++ r)).
  { apply mantissa_of; auto. intros _. destruct (e ++ r); tauto. }
  rewrite (accum_all _ _ _ _ _ _ M).
  assert (MT : (match z with [] => false | _ => true end || some (i2 ++ f))%bool = true).
  { destruct z; [ | reflexivity ]. cbn [app orb] in *. destruct (i2 ++ f); [ congruence | reflexivity ]. }
  rewrite MT, !app_length, (etail_length e x r He Hr). lia.
Qed.
Definition after (rest : list Z) : istr := {| left := rest; atend := match rest with [] => true | _ => false end; bad := false |}.
Lemma skipn_len {A} (l r : list A) : skipn (length l) (l ++ r) = r.
Proof. induction l as [ | x l IH ]; [ reflexivity | exact IH ]. Qed.
Lemma get_text w t neg D j d r : Forall blank w -> float_text t neg D j -> near neg D j d -> stops r ->
  get_dbl {| left := w ++ t ++ r; atend := false; bad := false |} = (Some (Fin d), after r).
Proof.
  intros Hw Ht Hd Hr. unfold get_dbl. cbn [atend bad orb left]. rewrite (skip_blanks w _ Hw (text_head t neg D j r Ht)).
  assert (NE1 : t ++ r <> []).
  { destruct Ht as [ s n ip pt f e x Hs Hi Hf Hn Hp He ]. intros E.
    apply app_eq_nil in E as [ E _ ]. apply app_eq_nil in E as [ _ E ]. apply app_eq_nil in E as [ -> E ]. apply app_eq_nil in E as [ _ E ]. apply app_eq_nil in E as [ -> _ ]. now apply Hn. }
  pose proof (taken_text t neg D j r Ht Hr) as Et. pose proof (parse_text t neg D j r Ht Hr) as Ep. pose proof (skipn_len t r) as Es. rewrite <- Et in Es.
  destruct (t ++ r) as [ | c q ]; [ congruence | ]. rewrite Es, Ep, (proj2 (dec_near_spec neg D j d (text_nonneg _ _ _ _ Ht)) Hd). reflexivity.
Qed.
Lemma written d : is_double d -> exists D j e, float_text (fmt6 d) (dneg d) D j /\ near (dneg d) D j e /\ kept6 d e /\ (e = d <-> six d).
Proof.
  intros Hd. pose proof (kept d Hd) as K. unfold kept6. destruct (Z.eq_dec (dman d) 0) as [ E | N ].
  - exists 0, 0, d. pose proof (zero_text d Hd E) as T. assert (Nz : near (dneg d) 0 0 d).
    { pose proof (near_zero (dneg d)) as Nz. rewrite <- (zero_eq d Hd E) in Nz. exact Nz. }
    split; [ exact T | ]. split; [ exact Nz | ]. split; [ split; [ reflexivity | congruence ] | ]. split; [ intros _ | reflexivity ]. exists 0, 0. split; [ lia | exact Nz ].
  - destruct (print_text d Hd N) as (n & k & D & j & R & T & S). destruct (rounded_near (dneg d) d n k Hd R) as (e & Ne).
    pose proof (near_same _ _ _ _ _ _ (same_sym _ _ _ _ S) Ne) as N2. exists D, j, e. split; [ exact T | ]. split; [ exact N2 | ].
    split; [ split; [ congruence | intros _; exists n, k; auto ] | ]. rewrite <- K. unfold to_string. cbn [insert]. rewrite (read_all _ _ _ _ T), (proj2 (dec_near_spec _ _ _ _ (text_nonneg _ _ _ _ T)) N2).
    split; [ intros ->; reflexivity | intros E; injection E as ->; reflexivity ].
Qed.
Lemma get_all : forall a rest w, a <> [] -> Forall is_double a -> stops rest -> Forall blank w ->
  exists b, get_dbls (length a) {| left := w ++ vwrite (map Fin a) ++ rest; atend := false; bad := false |} = (map (fun d => Some (Fin d)) b, after rest) /\
  Forall2 kept6 a b /\ (b = a <-> Forall six a).
Proof.
  induction a as [ | d a IH ]; intros rest w N F Hr Hw; [ congruence | ]. pose proof (Forall_inv F) as Fd. apply Forall_inv_tail in F.
  destruct (written d Fd) as (D & j & e & T & Ne & K & S). cbn [length get_dbls map vwrite insert]. destruct a as [ | y a ].
  - cbn [map length get_dbls]. rewrite app_nil_r, (get_text w _ _ _ _ e rest Hw T Ne Hr). exists [e]. split; [ reflexivity | ]. split; [ constructor; [ exact K | constructor ] | ].
    split; [ intros E; injection E as E; constructor; [ now apply S | constructor ] | intros E; f_equal; apply S; exact (Forall_inv E) ].
  - destruct (IH rest [32] ltac:(congruence) F Hr ltac:(constructor; [ now right | constructor ])) as (b & E & K2 & S2). cbn [map app] in E |- *.
    rewrite <- app_assoc. cbn [app]. rewrite (get_text w _ _ _ _ e (32 :: vwrite (Fin y :: map Fin a) ++ rest) Hw T Ne) by (cbn; unfold digit; lia).
    unfold after at 1. rewrite E. exists (e :: b). split; [ reflexivity | ]. split; [ constructor; assumption | ].
    split; [ intros Q; injection Q as Q1 Q2; constructor; [ now apply S | now apply S2 ] | intros Q; pose proof (Forall_inv Q) as Q1; pose proof (Forall_inv_tail Q) as Q2; f_equal; [ now apply S | now apply S2 ] ].
Qed.
Lemma settled_some b : settled (map (fun d => Some (Fin d)) b) = Ok (map Fin b).
Proof. induction b as [ | x b IH ]; [ reflexivity | ]. cbn. now rewrite IH. Qed.
Lemma dead n i : bad i = true -> (0 < n)%nat -> settled (fst (get_dbls n i)) = UB.
Proof. intros H N. destruct n as [ | n ]; [ lia | ]. cbn [get_dbls]. unfold get_dbl. rewrite H, orb_true_r. destruct (get_dbls n _). reflexivity. Qed.
Lemma special_lost v a rest : (exists neg, v = Inf neg \/ v = NaN neg) -> a <> [] -> vread (S (length a)) {| left := vwrite (v :: a) ++ rest; atend := false; bad := false |} = UB.
Proof.
  intros (neg & H) N. destruct a as [ | y a ]; [ congruence | ]. clear N. change (vwrite (v :: y :: a)) with (insert v ++ 32 :: vwrite (y :: a)). unfold vread. cbn [get_dbls]. rewrite <- app_assoc.
  set (q := (32 :: vwrite (y :: a)) ++ rest).
  assert (G : fst (get_dbl {| left := insert v ++ q; atend := false; bad := false |}) = Some (Fin (mkD false 0 (-1074))) /\ bad (snd (get_dbl {| left := insert v ++ q; atend := false; bad := false |})) = true).
  { destruct H as [ -> | -> ]; destruct neg; unfold get_dbl; cbn; split; reflexivity. }
  destruct (get_dbl {| left := insert v ++ q; atend := false; bad := false |}) as [ o i ]. cbn [fst snd] in G. destruct G as [ -> Gb ].
  pose proof (dead (length (y :: a)) i Gb ltac:(cbn; lia)) as Dd. cbn [length get_dbls] in Dd |- *. destruct (get_dbl i) as [ o1 i1 ]. destruct (get_dbls (length a) i1) as [ vs i2 ].
  cbn [fst settled] in Dd |- *. destruct o1; [ | reflexivity ]. destruct (settled vs); cbn in *; congruence.
Qed.

(** ** Texts with too few numbers *)
Lemma get_dbls_app n m i : get_dbls (n + m) i = (fst (get_dbls n i) ++ fst (get_dbls m (snd (get_dbls n i))), snd (get_dbls m (snd (get_dbls n i)))).
Proof.
  revert i. induction n as [ | n IH ]; intros i; [ cbn [Nat.add get_dbls fst snd app]; now destruct (get_dbls m i) | ]. cbn [Nat.add get_dbls]. destruct (get_dbl i) as [ v i1 ]. rewrite IH.
  destruct (get_dbls n i1) as [ vs i2 ]. reflexivity.
Qed.
Lemma settled_app l r : settled r = UB -> (forall x, In x l -> x <> None) -> settled (l ++ r) = UB.
Proof.
  intros H. induction l as [ | [ v | ] l IH ]; intros N; [ exact H | | elim (N None (or_introl eq_refl) eq_refl) ]. cbn [app settled].
  rewrite IH; [ reflexivity | intros x I; apply N; now right ].
Qed.
Lemma get_dbl_nothing rest n : Forall blank rest -> (0 < n)%nat -> settled (fst (get_dbls n (after rest))) = UB.
Proof.
  intros H N. destruct n as [ | n ]; [ lia | ]. cbn [get_dbls]. assert (E : fst (get_dbl (after rest)) = None).
  { unfold get_dbl, after. cbn [left atend bad]. destruct rest as [ | c rest ]; [ reflexivity | ]. cbn [orb].
    pose proof (skip_blanks (c :: rest) [] H I) as E. rewrite app_nil_r in E. rewrite E. reflexivity. }
  destruct (get_dbl (after rest)) as [ o i ]. cbn [fst] in E. subst o. destruct (get_dbls n i). reflexivity.
Qed.
Lemma vwrite_short a rest n : a <> [] -> Forall is_double a -> Forall blank rest -> (length a < n)%nat ->
  vread n {| left := vwrite (map Fin a) ++ rest; atend := false; bad := false |} = UB.
Proof.
  intros N F Hb L. assert (Hr : stops rest) by (destruct rest as [ | c rest ]; [ exact I | apply Forall_inv in Hb; unfold blank in Hb; cbn [stops]; unfold digit; lia ]).
  destruct (get_all a rest [] N F Hr (Forall_nil _)) as (b & E & _). cbn [app] in E. unfold vread. replace n with (length a + (n - length a))%nat by lia. rewrite get_dbls_app, E. cbn [fst snd].
  rewrite settled_app; [ reflexivity | apply get_dbl_nothing; [ exact Hb | lia ] | ]. intros x I. apply in_map_iff in I as (y & <- & _). discriminate.
Qed.
(** A number too large for a double *)
Lemma get_large w t neg D j r : Forall blank w -> float_text t neg D j -> too_large D j -> stops r ->
  get_dbl {| left := w ++ t ++ r; atend := false; bad := false |} = (Some (Fin (mkD neg (2 ^ 53 - 1) 971)), {| left := r; atend := match r with [] => true | _ => false end; bad := true |}).
Proof.
  intros Hw Ht Hd Hr. unfold get_dbl. cbn [atend bad orb left]. rewrite (skip_blanks w _ Hw (text_head t neg D j r Ht)).
  assert (NE1 : t ++ r <> []).
  { destruct Ht as [ s n ip pt f' e x Hs Hi Hf Hn Hp He ]. intros E.
    apply app_eq_nil in E as [ E _ ]. apply app_eq_nil in E as [ _ E ]. apply app_eq_nil in E as [ -> E ]. apply app_eq_nil in E as [ _ E ]. apply app_eq_nil in E as [ -> _ ]. now apply Hn. }
  pose proof (taken_text t neg D j r Ht Hr) as Et. pose proof (parse_text t neg D j r Ht Hr) as Ep. pose proof (skipn_len t r) as Es. rewrite <- Et in Es.
  destruct (t ++ r) as [ | c q ]; [ congruence | ]. rewrite Es, Ep, (dec_near_none neg D j (text_nonneg _ _ _ _ Ht) Hd). reflexivity.
Qed.
Lemma mag_most d : is_double d -> mag d <= (2 ^ 53 - 1) * 2 ^ (971 + 1074).
Proof. intros (A & B & _). unfold mag. apply Z.mul_le_mono_nonneg; [ lia | lia | apply Z.pow_nonneg; lia | apply Z.pow_le_mono_r; lia ]. Qed.

(** ** Vectors of char *)
Lemma blank_space c : Cast_Model.isspace c = true <-> blank c.
Proof. unfold Cast_Model.isspace, blank. lia. Qed.
Lemma get_chr_nonblank w c r : Forall blank w -> ~ blank c -> get_chr {| left := w ++ c :: r; atend := false; bad := false |} = (Some c, {| left := r; atend := false; bad := false |}).
Proof. intros Hw Hc. unfold get_chr. cbn [atend bad orb left]. rewrite (skip_blanks w (c :: r) Hw Hc). reflexivity. Qed.
Lemma chars_kept : forall a rest w, a <> [] -> Forall (fun c => ~ blank c) a -> Forall blank w ->
  cread (length a) {| left := w ++ cwrite a ++ rest; atend := false; bad := false |} = Ok (a, {| left := rest; atend := false; bad := false |}).
Proof.
  induction a as [ | c a IH ]; intros rest w N F Hw; [ congruence | ]. pose proof (Forall_inv F) as Fc. apply Forall_inv_tail in F. destruct a as [ | y a ].
  - cbn [cwrite length cread app]. rewrite (get_chr_nonblank w c rest Hw Fc). reflexivity.
  - change (cwrite (c :: y :: a)) with (c :: 32 :: cwrite (y :: a)). cbn [app]. specialize (IH rest [32] ltac:(congruence) F ltac:(constructor; [ now right | constructor ])).
    remember (y :: a) as b. cbn [length cread]. rewrite (get_chr_nonblank w c _ Hw Fc). cbn [app] in IH. rewrite IH. reflexivity.
Qed.
Definition visible (s : list Z) : nat := length (filter (fun c => negb (Cast_Model.isspace c)) s).
Lemma visible_skip s : visible (Cast_Model.skip_ws s) = visible s.
Proof. induction s as [ | c s IH ]; [ reflexivity | ]. cbn [Cast_Model.skip_ws]. destruct (Cast_Model.isspace c) eqn:E; [ | reflexivity ]. rewrite IH. unfold visible. cbn [filter]. rewrite E. reflexivity. Qed.
Lemma skip_head s c r : Cast_Model.skip_ws s = c :: r -> Cast_Model.isspace c = false.
Proof. induction s as [ | x s IH ]; [ discriminate | ]. cbn [Cast_Model.skip_ws]. destruct (Cast_Model.isspace x) eqn:E; [ exact IH | ]. intros Q. injection Q as <- _. exact E. Qed.
Lemma cread_short : forall n i, (visible (left i) < n)%nat -> cread n i = UB.
Proof.
  induction n as [ | n IH ]; intros i H; [ lia | ]. cbn [cread]. unfold get_chr. destruct (atend i || bad i); [ reflexivity | ].
  destruct (Cast_Model.skip_ws (left i)) as [ | c r ] eqn:E; [ reflexivity | ]. rewrite IH; [ reflexivity | ]. cbn [left].
  rewrite <- visible_skip, E in H. unfold visible in *. cbn [filter] in H. rewrite (skip_head _ _ _ E) in H. cbn [negb length] in H. lia.
Qed.
Lemma visible_write a : (visible (cwrite a) <= length a)%nat /\ (Exists blank a -> (visible (cwrite a) < length a)%nat).
Proof.
  induction a as [ | c a (IH1 & IH2) ]; [ split; [ cbn; lia | intros H; inversion H ] | ].
  assert (E : visible (cwrite (c :: a)) = ((if Cast_Model.isspace c then 0 else 1) + visible (cwrite a))%nat).
  { destruct a as [ | y a ]; unfold visible; cbn [cwrite filter]; destruct (Cast_Model.isspace c); cbn; reflexivity. }
  rewrite E. cbn [length]. split; [ destruct (Cast_Model.isspace c); lia | ]. intros H. inversion H as [ x l Hx | x l Hx ]; subst.
  - apply blank_space in Hx. rewrite Hx. lia.
  - specialize (IH2 Hx). destruct (Cast_Model.isspace c); lia.
Qed.
