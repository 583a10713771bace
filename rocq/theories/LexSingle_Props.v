(** C118: floats through lexical_cast. *)
From Verif Require Import Common CommonLemmas Double_Model Double_Spec Json_Spec JsonFloat_Spec JsonFloat_Proof Single_Model Single_Spec Single_Proof
  LexFloat_Spec LexFloat_Model LexFloat_Proof LexFloatRead_Proof LexSingle_Spec LexSingle_Model LexSingle_Proof.
Local Open Scope Z_scope.

Lemma ffrom_some s v : ffrom_string s = Ok v <-> extract_f s = Some v.
Proof. unfold ffrom_string. destruct (extract_f s); split; intros E; try discriminate; injection E as ->; reflexivity. Qed.

(** The text of a finite number is a number: the number rounded to six digits. *)
Theorem C118_text f : is_single f ->
  (fman f = 0 -> fto_string (SFin f) = (if fneg f then str "-0" else str "0")) /\
  (fman f <> 0 -> exists n k D j, srounds6 f n k /\ float_text (fto_string (SFin f)) (fneg f) D j /\ same_decimal D j n k).
Proof. intros Hf. split; [ apply fzero_text | apply fprint_text, Hf ]. Qed.
Example C118_text_nonvacuous : fto_string (SFin (mkF false 13421773 (-27))) = str "0.1" /\ fto_string (SFin (mkF true (2 ^ 24 - 1) 104)) = str "-3.40282e+38" /\ is_single (mkF false 13421773 (-27)).
Proof. split; [ vm_compute; reflexivity | ]. split; [ vm_compute; reflexivity | ]. unfold is_single. cbn [fman fexp]. lia. Qed.

(** A number at the beginning of a text, after blanks, is read as the nearest float, rounded once; too large ones are refused. *)
Theorem C118_read w t neg D j r : Forall blank w -> float_text t neg D j -> stops r ->
  (forall f, ffrom_string (w ++ t ++ r) = Ok (SFin f) <-> near_single neg D j f) /\
  (ffrom_string (w ++ t ++ r) = Throw <-> too_large_single D j).
Proof.
  intros Hw Ht Hr. pose proof (fread_text w t neg D j r Hw Ht Hr) as E. pose proof (text_nonneg _ _ _ _ Ht) as H0. split.
  - intros f. rewrite ffrom_some, E, <- (dec_single_spec neg D j f H0). destruct (dec_single neg D j); split; intros X; try discriminate; injection X as ->; reflexivity.
  - rewrite <- (dec_single_inf neg D j H0). unfold ffrom_string. rewrite E. pose proof (dec_fraction neg D j) as F. unfold narrow in F.
    destruct (dec_single neg D j) as [ f | s | s ]; split; intros X; try discriminate; try reflexivity; try (injection X as ->; reflexivity).
    + destruct (D * up j =? 0); [ discriminate | ]. destruct (scale 2 _ _ _) as [ a b ]. cbv zeta in F.
      destruct (rhe a b =? 2 ^ 24); [ destruct (104 <? _) in F; congruence | destruct (104 <? _) in F; congruence ].
    + destruct (D * up j =? 0); [ discriminate | ]. destruct (scale 2 _ _ _) as [ a b ]. cbv zeta in F.
      destruct (rhe a b =? 2 ^ 24); [ destruct (104 <? _) in F; congruence | destruct (104 <? _) in F; congruence ].
Qed.
Example C118_read_nonvacuous : float_text (str "1e39") false 1 39 /\ too_large_single 1 39 /\ ffrom_string (str "1e39") = Throw /\ ffrom_string (str " 1e-50x") = Ok (SFin (mkF false 0 (-149))) /\
  ffrom_string (str "16777217") = Ok (SFin (mkF false (2 ^ 23) 1)) /\ ffrom_string (str "0.1") = Ok (SFin (mkF false 13421773 (-27))).
Proof.
  split; [ | split; [ unfold too_large_single; apply Z.leb_le; vm_compute; reflexivity | repeat split; vm_compute; reflexivity ] ].
  exact (fx [] false [49] [] [] [101; 51; 57] 39 sg_none ltac:(repeat constructor; unfold digit; lia) ltac:(constructor) ltac:(discriminate) (or_intror (conj eq_refl eq_refl))
    (xp_some 101 [] false [51; 57] (or_introl eq_refl) sg_none ltac:(discriminate) ltac:(repeat constructor; unfold digit; lia))).
Qed.
(** Whatever is read is a finite number that stands in the text after blanks. *)
Theorem C118_sound s v : ffrom_string s = Ok v ->
  exists w t r neg D j f, s = w ++ t ++ r /\ Forall blank w /\ float_text t neg D j /\ v = SFin f /\ near_single neg D j f.
Proof. rewrite ffrom_some. apply fread_sound. Qed.

(** There and back: the float nearest to the number rounded to six digits *)
Theorem C118_back f : is_single f -> fman f <> 0 -> exists n k g, srounds6 f n k /\ near_single (fneg f) n k g /\ ffrom_string (fto_string (SFin f)) = Ok (SFin g).
Proof.
  intros Hf N. destruct (fprint_text f Hf N) as (n & k & D & j & R & T & S). destruct (fback (fneg f) f n k Hf R _ D j T S) as (g & G & E).
  exists n, k, g. split; [ exact R | ]. split; [ exact G | ]. apply ffrom_some, E.
Qed.
(** That is the number itself exactly if it is the nearest to some number of at most six digits. *)
Theorem C118_kept f : is_single f -> (ffrom_string (fto_string (SFin f)) = Ok (SFin f) <-> six_single f).
Proof. intros Hf. rewrite ffrom_some. exact (fkept f Hf). Qed.
Example C118_kept_nonvacuous : ffrom_string (fto_string (SFin (mkF false 13421773 (-27)))) = Ok (SFin (mkF false 13421773 (-27))) /\ six_single (mkF false 13421773 (-27)).
Proof.
  assert (E : ffrom_string (fto_string (SFin (mkF false 13421773 (-27)))) = Ok (SFin (mkF false 13421773 (-27)))) by (vm_compute; reflexivity).
  split; [ exact E | ]. apply C118_kept; [ unfold is_single; cbn [fman fexp]; lia | exact E ].
Qed.
(** So a second trip changes nothing. *)
Theorem C118_stable f v : is_single f -> ffrom_string (fto_string (SFin f)) = Ok v -> ffrom_string (fto_string v) = Ok v.
Proof.
  intros Hf E. destruct (Z.eq_dec (fman f) 0) as [ Z0 | N ].
  - assert (K : v = SFin (mkF (fneg f) 0 (-149))); [ | rewrite K; destruct (fneg f); vm_compute; reflexivity ].
    unfold fto_string in E. rewrite (fzero_text f Z0) in E. destruct (fneg f); vm_compute in E; now injection E as <-.
  - destruct (C118_back f Hf N) as (n & k & g & R & G & E'). rewrite E' in E. injection E as <-. apply C118_kept; [ exact (proj1 G) | ].
    exact (six_single_again _ g n k (proj1 (proj2 R)) G).
Qed.
(** A text of at most six digits within the range of normal floats comes back as the same number. *)
Theorem C118_digits w t neg D j r f : Forall blank w -> float_text t neg D j -> stops r -> 0 < D < 10 ^ 6 -> ffrom_string (w ++ t ++ r) = Ok (SFin f) -> 2 ^ 23 <= fman f ->
  exists D' j', float_text (fto_string (SFin f)) neg D' j' /\ same_decimal D' j' D j.
Proof.
  intros Hw Ht Hr HD E Nf. apply (C118_read w t neg D j r Hw Ht Hr) in E. pose proof (proj1 E) as Hf. assert (Sg : fneg f = neg) by (unfold near_single, nearest_single in E; tauto).
  destruct (fprint_text f Hf ltac:(lia)) as (n & k & D' & j' & R & T & S). rewrite Sg in T. exists D', j'. split; [ exact T | ].
  apply (same_trans _ _ n k); [ exact S | ]. apply same_sym. exact (round_exact_s neg f D j n k Hf Nf HD E R).
Qed.
Example C118_digits_nonvacuous : exists f, ffrom_string (str "987654e-20") = Ok (SFin f) /\ 2 ^ 23 <= fman f /\ fto_string (SFin f) = str "9.87654e-15".
Proof. eexists. split; [ vm_compute; reflexivity | ]. split; [ cbn [fman]; lia | vm_compute; reflexivity ]. Qed.
(** Of the others some digits are lost; so are the signs and values of infinities and NaN. *)
Theorem C118_precision_refuted : exists a b, is_single a /\ is_single b /\ a <> b /\ fto_string (SFin a) = fto_string (SFin b) /\ ffrom_string (fto_string (SFin a)) = Ok (SFin b).
Proof.
  exists (mkF false (2 ^ 23 + 1) (-23)), (mkF false (2 ^ 23) (-23)). split; [ unfold is_single; cbn [fman fexp]; lia | ]. split; [ unfold is_single; cbn [fman fexp]; lia | ].
  split; [ intros E; injection E; discriminate | ]. split; vm_compute; reflexivity.
Qed.
Theorem C118_special_refuted neg : ffrom_string (fto_string (SInf neg)) = Throw /\ ffrom_string (fto_string (SNaN neg)) = Throw.
Proof. destruct neg; vm_compute; auto. Qed.

(** From float to double and back, lexical_cast goes through the text: six digits, rounded again. *)
Theorem C118_to_double f : is_single f -> fman f <> 0 -> exists n k d, srounds6 f n k /\ near (fneg f) n k d /\ float_to_double (SFin f) = Ok (Fin d).
Proof.
  intros Hf N. destruct (widen_spec f Hf N) as ([ Hd Hm ] & Sg & _). destruct (back (widen f) Hd ltac:(lia)) as (n & k & d & R & Nd & E). rewrite Sg in Nd.
  exists n, k, d. split; [ now apply rounds_widen | ]. split; [ exact Nd | ]. unfold float_to_double. cbn [insert_f insert]. rewrite E. reflexivity.
Qed.
Theorem C118_to_float d : is_double d -> dman d <> 0 -> exists n k, rounds6 d n k /\
  (forall f, double_to_float (Fin d) = Ok (SFin f) <-> near_single (dneg d) n k f) /\ (double_to_float (Fin d) = Throw <-> too_large_single n k).
Proof.
  intros Hd N. destruct (print_text d Hd N) as (n & k & D & j & R & T & S). exists n, k. split; [ exact R | ].
  destruct (C118_read [] (fmt6 d) (dneg d) D j [] (Forall_nil _) T I) as [ A B ]. rewrite app_nil_r in A, B. cbn [app] in A, B. split.
  - intros f. change (double_to_float (Fin d)) with (ffrom_string (fmt6 d)). rewrite A. split; apply near_single_same; [ exact S | exact (same_sym _ _ _ _ S) ].
  - change (double_to_float (Fin d)) with (ffrom_string (fmt6 d)). rewrite B. unfold too_large_single, same_decimal in *. pose proof (down_pos j). pose proof (down_pos k).
    set (X := 2 ^ 128 - 2 ^ 103). clearbody X. clear - S H H0. split; intros L.
    + apply (Z.mul_le_mono_pos_r _ _ (down j) H). rewrite <- S. apply (Z.mul_le_mono_pos_r _ _ (down k) H0) in L. lia.
    + apply (Z.mul_le_mono_pos_r _ _ (down k) H0). rewrite S. apply (Z.mul_le_mono_pos_r _ _ (down j) H) in L. lia.
Qed.
Example C118_to_float_nonvacuous : double_to_float (Fin (mkD false 7205759403792794 (-56))) = Ok (SFin (mkF false 13421773 (-27))) /\ double_to_float (Fin (mkD false (2 ^ 52) 100)) = Throw.
Proof. split; vm_compute; reflexivity. Qed.
(** So the double is another number than the float, even where it could be the same: 16777216 becomes 16777200, 0.1f becomes 0.1. *)
Theorem C118_to_double_refuted : exists f g, is_single f /\ is_single g /\
  smag f = 16777216 * 2 ^ 149 /\ (exists d, float_to_double (SFin f) = Ok (Fin d) /\ mag d = 16777200 * 2 ^ 1074) /\
  (exists d, float_to_double (SFin g) = Ok (Fin d) /\ mag d <> mag (widen g)).
Proof.
  exists (mkF false (2 ^ 23) 1), (mkF false 13421773 (-27)). split; [ unfold is_single; cbn [fman fexp]; lia | ]. split; [ unfold is_single; cbn [fman fexp]; lia | ].
  split; [ vm_compute; reflexivity | ]. split; eexists; (split; [ vm_compute; reflexivity | ]); [ vm_compute; reflexivity | intros E; vm_compute in E; discriminate E ].
Qed.


Print Assumptions C118_text.
Print Assumptions C118_read.
Print Assumptions C118_sound.
Print Assumptions C118_back.
Print Assumptions C118_kept.
Print Assumptions C118_stable.
Print Assumptions C118_digits.
Print Assumptions C118_precision_refuted.
Print Assumptions C118_special_refuted.
Print Assumptions C118_to_double.
Print Assumptions C118_to_float.
Print Assumptions C118_to_double_refuted.
