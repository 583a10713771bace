(** Proofs about vectors of float as text. *)
From Verif Require Import Common CommonLemmas NumText_Model NumText_Proof Double_Model Double_Spec Double_Proof Single_Model Single_Spec Single_Proof Json_Model Json_Spec JsonFloat_Proof JsonFloat_Spec LexFloat_Spec LexFloat_Model LexFloat_Proof LexFloatRead_Proof
  LexSingle_Spec LexSingle_Model LexSingle_Proof VecFloat_Model VecFloat_Proof VecSingle_Spec VecSingle_Model.
From Verif Require Cast_Model.
Local Open Scope Z_scope.

Lemma fget_text w t neg D j f r : Forall blank w -> float_text t neg D j -> near_single neg D j f -> stops r ->
  get_flt {| left := w ++ t ++ r; atend := false; bad := false |} = (Some (SFin f), after r).
Proof.
  intros Hw Ht Hd Hr. unfold get_flt. cbn [atend bad orb left]. rewrite (skip_blanks w _ Hw (text_head t neg D j r Ht)).
  assert (NE1 : t ++ r <> []).
  { destruct Ht as [ s n ip pt f' e x Hs Hi Hf Hn Hp He ]. intros E.
    apply app_eq_nil in E as [ E _ ]. apply app_eq_nil in E as [ _ E ]. apply app_eq_nil in E as [ -> E ]. apply app_eq_nil in E as [ _ E ]. apply app_eq_nil in E as [ -> _ ]. now apply Hn. }
  pose proof (taken_text t neg D j r Ht Hr) as Et. pose proof (parse_text t neg D j r Ht Hr) as Ep. pose proof (skipn_len t r) as Es. rewrite <- Et in Es.
  destruct (t ++ r) as [ | c q ]; [ congruence | ]. rewrite Es, Ep, (proj2 (dec_single_spec neg D j f (text_nonneg _ _ _ _ Ht)) Hd). reflexivity.
Qed.
Lemma fwritten f : is_single f -> exists D j g, float_text (insert_f (SFin f)) (fneg f) D j /\ near_single (fneg f) D j g /\ skept6 f g /\ (g = f <-> six_single f).
Proof.
  intros Hf. pose proof (fkept f Hf) as K. unfold skept6. destruct (Z.eq_dec (fman f) 0) as [ E | N ].
  - exists 0, 0, f. assert (Nz : near_single (fneg f) 0 0 f).
    { pose proof (near_zero_s (fneg f)) as Nz. rewrite <- (fzero_eq f Hf E) in Nz. exact Nz. }
    assert (T : float_text (insert_f (SFin f)) (fneg f) 0 0).
    { cbn [insert_f]. rewrite (widen_zero f E). pose proof (zero_text (mkD (fneg f) 0 (-1074)) ltac:(unfold is_double; cbn; lia) eq_refl) as T. exact T. }
    split; [ exact T | ]. split; [ exact Nz | ]. split; [ split; [ reflexivity | congruence ] | ]. split; [ intros _ | reflexivity ]. exists 0, 0. split; [ lia | exact Nz ].
  - destruct (fprint_text f Hf N) as (n & k & D & j & R & T & S). destruct (rounded_near_s (fneg f) f n k Hf R) as (g & Ng).
    pose proof (near_single_same _ _ _ _ _ _ (same_sym _ _ _ _ S) Ng) as N2. exists D, j, g. split; [ exact T | ]. split; [ exact N2 | ].
    split; [ split; [ congruence | intros _; exists n, k; auto ] | ]. rewrite <- K. rewrite (fread_all _ _ _ _ T), (proj2 (dec_single_spec _ _ _ _ (text_nonneg _ _ _ _ T)) N2).
    split; [ intros ->; reflexivity | intros E; injection E as ->; reflexivity ].
Qed.
Lemma fget_all : forall a rest w, a <> [] -> Forall is_single a -> stops rest -> Forall blank w ->
  exists b, get_flts (length a) {| left := w ++ fwrite (map SFin a) ++ rest; atend := false; bad := false |} = (map (fun d => Some (SFin d)) b, after rest) /\
  Forall2 skept6 a b /\ (b = a <-> Forall six_single a).
Proof.
  induction a as [ | d a IH ]; intros rest w N F Hr Hw; [ congruence | ]. pose proof (Forall_inv F) as Fd. apply Forall_inv_tail in F.
  destruct (fwritten d Fd) as (D & j & e & T & Ne & K & S). cbn [length get_flts map fwrite]. destruct a as [ | y a ].
  - cbn [map length get_flts]. rewrite app_nil_r, (fget_text w _ _ _ _ e rest Hw T Ne Hr). exists [e]. split; [ reflexivity | ]. split; [ constructor; [ exact K | constructor ] | ].
    split; [ intros E; injection E as E; constructor; [ now apply S | constructor ] | intros E; f_equal; apply S; exact (Forall_inv E) ].
  - destruct (IH rest [32] ltac:(congruence) F Hr ltac:(constructor; [ now right | constructor ])) as (b & E & K2 & S2). cbn [map app] in E |- *.
    rewrite <- app_assoc. cbn [app]. rewrite (fget_text w _ _ _ _ e (32 :: fwrite (SFin y :: map SFin a) ++ rest) Hw T Ne) by (cbn; unfold digit; lia).
    unfold after at 1. rewrite E. exists (e :: b). split; [ reflexivity | ]. split; [ constructor; assumption | ].
    split; [ intros Q; injection Q as Q1 Q2; constructor; [ now apply S | now apply S2 ] | intros Q; pose proof (Forall_inv Q) as Q1; pose proof (Forall_inv_tail Q) as Q2; f_equal; [ now apply S | now apply S2 ] ].
Qed.
Lemma fsettled_some b : fsettled (map (fun d => Some (SFin d)) b) = Ok (map SFin b).
Proof. induction b as [ | x b IH ]; [ reflexivity | ]. cbn. now rewrite IH. Qed.
Lemma fdead n i : bad i = true -> (0 < n)%nat -> fsettled (fst (get_flts n i)) = UB.
Proof. intros H N. destruct n as [ | n ]; [ lia | ]. cbn [get_flts]. unfold get_flt. rewrite H, orb_true_r. destruct (get_flts n _). reflexivity. Qed.
Lemma fspecial_lost v a rest : (exists neg, v = SInf neg \/ v = SNaN neg) -> a <> [] -> fread (S (length a)) {| left := fwrite (v :: a) ++ rest; atend := false; bad := false |} = UB.
Proof.
  intros (neg & H) N. destruct a as [ | y a ]; [ congruence | ]. clear N. change (fwrite (v :: y :: a)) with (insert_f v ++ 32 :: fwrite (y :: a)). unfold fread. cbn [get_flts]. rewrite <- app_assoc.
  set (q := (32 :: fwrite (y :: a)) ++ rest).
  assert (G : fst (get_flt {| left := insert_f v ++ q; atend := false; bad := false |}) = Some (SFin (mkF false 0 (-149))) /\ bad (snd (get_flt {| left := insert_f v ++ q; atend := false; bad := false |})) = true).
  { destruct H as [ -> | -> ]; destruct neg; unfold get_flt; cbn; split; reflexivity. }
  destruct (get_flt {| left := insert_f v ++ q; atend := false; bad := false |}) as [ o i ]. cbn [fst snd] in G. destruct G as [ -> Gb ].
  pose proof (fdead (length (y :: a)) i Gb ltac:(cbn; lia)) as Dd. cbn [length get_flts] in Dd |- *. destruct (get_flt i) as [ o1 i1 ]. destruct (get_flts (length a) i1) as [ vs i2 ].
  cbn [fst fsettled] in Dd |- *. destruct o1; [ | reflexivity ]. destruct (fsettled vs); cbn in *; congruence.
Qed.
(** A number too large for a float *)
Lemma fget_large w t neg D j r : Forall blank w -> float_text t neg D j -> too_large_single D j -> stops r ->
  get_flt {| left := w ++ t ++ r; atend := false; bad := false |} = (Some (SFin (mkF neg (2 ^ 24 - 1) 104)), {| left := r; atend := match r with [] => true | _ => false end; bad := true |}).
Proof.
  intros Hw Ht Hd Hr. unfold get_flt. cbn [atend bad orb left]. rewrite (skip_blanks w _ Hw (text_head t neg D j r Ht)).
  assert (NE1 : t ++ r <> []).
  { destruct Ht as [ s n ip pt f' e x Hs Hi Hf Hn Hp He ]. intros E.
    apply app_eq_nil in E as [ E _ ]. apply app_eq_nil in E as [ _ E ]. apply app_eq_nil in E as [ -> E ]. apply app_eq_nil in E as [ _ E ]. apply app_eq_nil in E as [ -> _ ]. now apply Hn. }
  pose proof (taken_text t neg D j r Ht Hr) as Et. pose proof (parse_text t neg D j r Ht Hr) as Ep. pose proof (skipn_len t r) as Es. rewrite <- Et in Es.
  destruct (t ++ r) as [ | c q ]; [ congruence | ]. rewrite Es, Ep, (proj2 (dec_single_inf neg D j (text_nonneg _ _ _ _ Ht)) Hd). reflexivity.
Qed.

(** ** Texts with too few numbers *)
Lemma get_flts_app n m i : get_flts (n + m) i = (fst (get_flts n i) ++ fst (get_flts m (snd (get_flts n i))), snd (get_flts m (snd (get_flts n i)))).
Proof.
  revert i. induction n as [ | n IH ]; intros i; [ cbn [Nat.add get_flts fst snd app]; now destruct (get_flts m i) | ]. cbn [Nat.add get_flts]. destruct (get_flt i) as [ v i1 ]. rewrite IH.
  destruct (get_flts n i1) as [ vs i2 ]. reflexivity.
Qed.
Lemma fsettled_app l r : fsettled r = UB -> (forall x, In x l -> x <> None) -> fsettled (l ++ r) = UB.
Proof.
  intros H. induction l as [ | [ v | ] l IH ]; intros N; [ exact H | | elim (N None (or_introl eq_refl) eq_refl) ]. cbn [app fsettled].
  rewrite IH; [ reflexivity | intros x I; apply N; now right ].
Qed.
Lemma get_flt_nothing rest n : Forall blank rest -> (0 < n)%nat -> fsettled (fst (get_flts n (after rest))) = UB.
Proof.
  intros H N. destruct n as [ | n ]; [ lia | ]. cbn [get_flts]. assert (E : fst (get_flt (after rest)) = None).
  { unfold get_flt, after. cbn [left atend bad]. destruct rest as [ | c rest ]; [ reflexivity | ]. cbn [orb].
    pose proof (skip_blanks (c :: rest) [] H I) as E. rewrite app_nil_r in E. rewrite E. reflexivity. }
  destruct (get_flt (after rest)) as [ o i ]. cbn [fst] in E. subst o. destruct (get_flts n i). reflexivity.
Qed.
Lemma fwrite_short a rest n : a <> [] -> Forall is_single a -> Forall blank rest -> (length a < n)%nat ->
  fread n {| left := fwrite (map SFin a) ++ rest; atend := false; bad := false |} = UB.
Proof.
  intros N F Hb L. assert (Hr : stops rest) by (destruct rest as [ | c rest ]; [ exact I | apply Forall_inv in Hb; unfold blank in Hb; cbn [stops]; unfold digit; lia ]).
  destruct (fget_all a rest [] N F Hr (Forall_nil _)) as (b & E & _). cbn [app] in E. unfold fread. replace n with (length a + (n - length a))%nat by lia. rewrite get_flts_app, E. cbn [fst snd].
  rewrite fsettled_app; [ reflexivity | apply get_flt_nothing; [ exact Hb | lia ] | ]. intros x I. apply in_map_iff in I as (y & <- & _). discriminate.
Qed.
