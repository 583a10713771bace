(** C111: lexical_cast and floating numbers. *)
From Verif Require Import Common NumText_Model Double_Model Double_Spec Json_Spec JsonFloat_Spec LexFloat_Spec LexFloat_Model LexFloat_Proof LexFloatRead_Proof.
From Verif Require Cast_Model Cast_Proof NumText_Proof.
Local Open Scope Z_scope.

Lemma from_some s v : from_string s = Ok v <-> extract s = Some v.
Proof. unfold from_string. destruct (extract s); split; intros E; try discriminate; injection E as ->; reflexivity. Qed.

(** The text of a finite number is a number: the number rounded to six digits. *)
Theorem C111_text d : is_double d ->
  (dman d = 0 -> to_string (Fin d) = (if dneg d then str "-0" else str "0")) /\
  (dman d <> 0 -> exists n k D j, rounds6 d n k /\ float_text (to_string (Fin d)) (dneg d) D j /\ same_decimal D j n k).
Proof. intros Hd. split; [ | apply print_text, Hd ]. intros E. cbn [to_string insert]. unfold fmt6. rewrite E. destruct (dneg d); reflexivity. Qed.
Example C111_text_nonvacuous :
  to_string (Fin (mkD false (3 * 2 ^ 51) (-52))) = str "1.5" /\ to_string (Fin (mkD true (2 ^ 52) (-72))) = str "-9.53674e-07" /\
  to_string (Fin (mkD false (15625 * 2 ^ 39) (-33))) = str "1e+06".
Proof. vm_compute. auto. Qed.

(** A number in the text, after blanks and before anything that cannot continue it, is read as the nearest double; it fails if it is too large. *)
Theorem C111_read w t neg D j r : Forall blank w -> float_text t neg D j -> stops r ->
  (forall d, from_string (w ++ t ++ r) = Ok (Fin d) <-> near neg D j d) /\
  (too_large D j -> from_string (w ++ t ++ r) = Throw).
Proof.
  intros Hw Ht Hr. pose proof (read_text w t neg D j r Hw Ht Hr) as E. pose proof (text_nonneg _ _ _ _ Ht) as H0. split.
  - intros d. rewrite from_some, E, <- (dec_near_spec neg D j d H0). destruct (dec_near neg D j); split; intros X; try discriminate; injection X as ->; reflexivity.
  - intros L. unfold from_string. rewrite E, (dec_near_none neg D j H0 L). reflexivity.
Qed.
Example C111_read_nonvacuous :
  float_text (str "-12.50E+1") true 1250 (-1) /\ from_string (str " -12.50E+1 m") = Ok (Fin (mkD true (125 * 2 ^ 46) (-46))) /\
  float_text (str "1e400") false 1 400 /\ too_large 1 400 /\ from_string (str "1e400") = Throw.
Proof.
  split; [ | split; [ vm_compute; reflexivity | split; [ | split; [ unfold too_large; apply Z.leb_le; vm_compute; reflexivity | vm_compute; reflexivity ] ] ] ].
  - exact (fx [45] true [49; 50] [46] [53; 48] [69; 43; 49] 1 sg_minus ltac:(repeat constructor; unfold digit; lia) ltac:(repeat constructor; unfold digit; lia) ltac:(discriminate) (or_introl eq_refl)
      (xp_some 69 [43] false [49] (or_intror eq_refl) sg_plus ltac:(discriminate) ltac:(repeat constructor; unfold digit; lia))).
  - exact (fx [] false [49] [] [] [101; 52; 48; 48] 400 sg_none ltac:(repeat constructor; unfold digit; lia) ltac:(constructor) ltac:(discriminate) (or_intror (conj eq_refl eq_refl))
      (xp_some 101 [] false [52; 48; 48] (or_introl eq_refl) sg_none ltac:(discriminate) ltac:(repeat constructor; unfold digit; lia))).
Qed.
(** Whatever is read is a finite number that stands in the text after blanks. *)
Theorem C111_sound s v : from_string s = Ok v ->
  exists w t r neg D j d, s = w ++ t ++ r /\ Forall blank w /\ float_text t neg D j /\ v = Fin d /\ near neg D j d.
Proof. rewrite from_some. apply read_sound. Qed.
Example C111_sound_nonvacuous : (exists v, from_string (str "7.") = Ok v) /\ from_string (str "x7") = Throw /\ from_string [] = Throw /\ from_string (str ".") = Throw.
Proof. vm_compute. split; [ eexists; reflexivity | auto ]. Qed.

(** Writing a finite number and reading it: the double nearest to the number rounded to six digits. *)
Theorem C111_back d : is_double d -> dman d <> 0 -> exists n k d', rounds6 d n k /\ near (dneg d) n k d' /\ from_string (to_string (Fin d)) = Ok (Fin d').
Proof. intros Hd Hm. destruct (back d Hd Hm) as (n & k & d' & R & N & E). exists n, k, d'. split; [ exact R | ]. split; [ exact N | ]. apply from_some, E. Qed.
(** That is the number itself exactly if it is the nearest to some number of at most six digits. *)
Theorem C111_kept d : is_double d -> (from_string (to_string (Fin d)) = Ok (Fin d) <-> six d).
Proof. intros Hd. rewrite from_some. exact (kept d Hd). Qed.
Example C111_kept_nonvacuous :
  from_string (to_string (Fin (mkD false (3 * 2 ^ 51) (-52)))) = Ok (Fin (mkD false (3 * 2 ^ 51) (-52))) /\
  from_string (to_string (Fin (mkD true 0 (-1074)))) = Ok (Fin (mkD true 0 (-1074))) /\
  from_string (to_string (Fin (mkD false 1 (-1074)))) = Ok (Fin (mkD false 1 (-1074))).
Proof. vm_compute. auto. Qed.
(** A text of at most six digits within the range of normal doubles comes back as the same number. *)
Theorem C111_digits w t neg D j r d : Forall blank w -> float_text t neg D j -> stops r -> 0 < D < 10 ^ 6 -> from_string (w ++ t ++ r) = Ok (Fin d) -> 2 ^ 52 <= dman d ->
  exists D' j', float_text (to_string (Fin d)) neg D' j' /\ same_decimal D' j' D j.
Proof.
  intros Hw Ht Hr HD E Nd. apply (C111_read w t neg D j r Hw Ht Hr) in E. pose proof (proj1 E) as Hd. assert (Sg : dneg d = neg) by (unfold near, nearest in E; tauto).
  destruct (print_text d Hd ltac:(lia)) as (n & k & D' & j' & R & T & S). rewrite Sg in T. exists D', j'. split; [ exact T | ].
  apply (JsonFloat_Proof.same_trans _ _ n k); [ exact S | ]. apply JsonFloat_Proof.same_sym. exact (round_exact6 neg d D j n k (conj Hd Nd) HD E R).
Qed.
Example C111_digits_nonvacuous : exists d, from_string (str "987654e-300") = Ok (Fin d) /\ 2 ^ 52 <= dman d /\ to_string (Fin d) = str "9.87654e-295".
Proof. eexists. split; [ vm_compute; reflexivity | ]. split; [ cbn [dman]; lia | vm_compute; reflexivity ]. Qed.
(** So a second trip changes nothing. *)
Theorem C111_stable d v : is_double d -> from_string (to_string (Fin d)) = Ok v -> from_string (to_string v) = Ok v.
Proof.
  intros Hd E. destruct (Z.eq_dec (dman d) 0) as [Hz|Hz].
  - assert (v = Fin (mkD (dneg d) 0 (-1074))) as ->; [|destruct (dneg d); vm_compute; reflexivity].
    destruct (C111_text d Hd) as [T _]. rewrite (T Hz) in E. destruct (dneg d); vm_compute in E; now injection E as <-.
  - destruct (C111_back d Hd Hz) as (n & k & d' & R & N & E'). rewrite E' in E. injection E as <-. apply C111_kept; [exact (proj1 N)|].
    assert (Hn : dneg d' = dneg d) by (unfold near, nearest in N; tauto). destruct R as (_ & [R1 R2] & _). unfold six. rewrite Hn.
    destruct (Z.eq_dec n (10 ^ 6)) as [->|Hne]; [|exists n, k; split; [lia|exact N]].
    exists (10 ^ 5), (k + 1). split; [lia|]. apply (near_same _ (10 ^ 6) k); [|exact N]. pose proof (JsonFloat_Proof.same_shift (10 ^ 5) (k + 1) 1 ltac:(lia)) as Q. replace (k + 1 - 1) with k in Q by lia. exact Q.
Qed.
(** Not every number is kept: 1 + 2^-52 and 16777217 are not. *)
Theorem C111_precision_refuted : exists a b, is_double a /\ is_double b /\ a <> b /\ to_string (Fin a) = to_string (Fin b) /\
  from_string (to_string (Fin a)) = Ok (Fin b).
Proof.
  exists (mkD false (2 ^ 52 + 1) (-52)), (mkD false (2 ^ 52) (-52)). split; [ unfold is_double; cbn [dman dexp]; lia | ]. split; [ unfold is_double; cbn [dman dexp]; lia | ].
  split; [ discriminate | ]. vm_compute. auto.
Qed.
(** The infinities and NaN are written, but their text is not read. *)
Theorem C111_special_text neg : to_string (Inf neg) = (if neg then str "-inf" else str "inf") /\ to_string (NaN neg) = (if neg then str "-nan" else str "nan").
Proof. destruct neg; split; reflexivity. Qed.
Theorem C111_special_refuted neg : from_string (to_string (Inf neg)) = Throw /\ from_string (to_string (NaN neg)) = Throw.
Proof. destruct neg; vm_compute; auto. Qed.
(** A number in front of other text: the text is ignored, or the number is refused if the text begins with an e. *)
Theorem C111_rest_refuted : exists d, from_string (str "12 apples") = Ok (Fin d) /\ from_string (str "12.0.1") = Ok (Fin d) /\ from_string (str "12euro") = Throw /\ from_string (str "12") = Ok (Fin d).
Proof. exists (mkD false (3 * 2 ^ 51) (-49)). vm_compute. auto. Qed.

(** An integer becomes the nearest double, itself up to 2^53. *)
Theorem C111_from_int s b n :
  (forall d, from_integral (Cast_Model.TNum s b) n = Ok (Fin d) <-> near (n <? 0) (Z.abs n) 0 d) /\
  (Z.abs n <= 2 ^ 53 -> exists d, from_integral (Cast_Model.TNum s b) n = Ok (Fin d) /\ is_double d /\ dneg d = (n <? 0) /\ mag d = Z.abs n * 2 ^ 1074).
Proof.
  assert (A : forall d, from_integral (Cast_Model.TNum s b) n = Ok (Fin d) <-> near (n <? 0) (Z.abs n) 0 d).
  { intros d. unfold from_integral. cbn [Cast_Model.insert]. rewrite (read_all _ _ _ _ (show_text n)), <- (dec_near_spec (n <? 0) (Z.abs n) 0 d) by lia.
    destruct (dec_near (n <? 0) (Z.abs n) 0); split; intros X; try discriminate; injection X as ->; reflexivity. }
  split; [ exact A | ]. intros H. destruct (int_exact n H) as (d & Hd & Hs & Hm & N). exists d. split; [ apply A, N | auto ].
Qed.
Example C111_from_int_nonvacuous : from_integral (Cast_Model.TNum true 32) (-3) = Ok (Fin (mkD true (3 * 2 ^ 51) (-51))).
Proof. vm_compute. reflexivity. Qed.
(** A double that is an integer below a million becomes that integer, if the type has it. *)
Theorem C111_to_int_partial s b d n : is_double d -> 0 <= n < 10 ^ 6 -> mag d = n * 2 ^ 1074 -> let v := if dneg d then - n else n in
  Cast_Model.lo (Cast_Model.TNum s b) <= v <= Cast_Model.hi (Cast_Model.TNum s b) -> to_integral (Cast_Model.TNum s b) (Fin d) = Ok v.
Proof. intros Hd Hn Hm v Hv. unfold to_integral. cbn [insert]. rewrite (int_back s b d n Hd Hn Hm Hv). reflexivity. Qed.
Example C111_to_int_nonvacuous : mag (mkD true (999999 * 2 ^ 33) (-33)) = 999999 * 2 ^ 1074 /\ to_integral (Cast_Model.TNum true 32) (Fin (mkD true (999999 * 2 ^ 33) (-33))) = Ok (- 999999).
Proof. vm_compute. auto. Qed.
Lemma scan_nonneg s neg m rest : Cast_Model.scan s = Some (neg, m, rest) -> 0 <= m.
Proof.
  unfold Cast_Model.scan. cbv zeta. set (p := match Cast_Model.skip_ws s with [] => _ | _ => _ end). destruct p as [g t]. pose proof (NumText_Proof.spanb_spec isdigit t) as (_ & D & _).
  destruct (spanb isdigit t) as [ds r]. cbn [fst] in D. intros E. destruct ds as [|c ds]; [discriminate|]. injection E as _ <- _. apply (NumText_Proof.dec_val_bound _ D).
Qed.
(** Any double gives a number of the type or bad_cast; so do the infinities and NaN, always, and the integers below a million that a signed type does not have. *)
Theorem C111_to_int_refused s b : 1 <= b ->
  (forall v, to_integral (Cast_Model.TNum s b) v = Throw \/ exists n, to_integral (Cast_Model.TNum s b) v = Ok n /\ Cast_Model.lo (Cast_Model.TNum s b) <= n <= Cast_Model.hi (Cast_Model.TNum s b)) /\
  (forall neg, to_integral (Cast_Model.TNum s b) (Inf neg) = Throw /\ to_integral (Cast_Model.TNum s b) (NaN neg) = Throw) /\
  (forall d n, is_double d -> 0 <= n < 10 ^ 6 -> mag d = n * 2 ^ 1074 -> s = true -> let v := if dneg d then - n else n in
     v < Cast_Model.lo (Cast_Model.TNum s b) \/ Cast_Model.hi (Cast_Model.TNum s b) < v -> to_integral (Cast_Model.TNum s b) (Fin d) = Throw).
Proof.
  intros Hb. assert (P : 0 < 2 ^ (b - 1)) by (apply Z.pow_pos_nonneg; lia). assert (P2 : 0 < 2 ^ b) by (apply Z.pow_pos_nonneg; lia). split; [|split].
  - intros v. unfold to_integral. destruct (Cast_Model.extract (Cast_Model.TNum s b) (insert v)) as [n|] eqn:E; [right; exists n; split; [reflexivity|]|now left].
    destruct s; cbn [Cast_Model.extract] in E; destruct (Cast_Model.scan (insert v)) as [[[neg m] rest]|] eqn:S; try discriminate.
    + cbv zeta in E. destruct ((Cast_Model.lo (Cast_Model.TNum true b) <=? _) && _) eqn:R in E; [|discriminate]. injection E as <-. lia.
    + destruct (m <=? Cast_Model.hi (Cast_Model.TNum false b)) eqn:R; [|discriminate]. injection E as <-. pose proof (scan_nonneg _ _ _ _ S). cbn [Cast_Model.lo Cast_Model.hi] in *. destruct neg; [|lia]. pose proof (Z.mod_pos_bound (- m) (2 ^ b) P2). lia.
  - intros []; destruct s; split; reflexivity.
  - intros d n Hd Hn Hm -> v Hv. assert (N : n <> 0). { intros ->. unfold v in Hv. cbn in Hv. destruct (dneg d); lia. }
    unfold to_integral. cbn [insert]. rewrite (fmt6_int d n Hd ltac:(lia) Hm). assert (E : (if dneg d then [45] else []) ++ dec_text n = show_int v).
    { unfold show_int, v. destruct (dneg d); [ replace (- n <? 0) with true by lia; now rewrite Z.opp_involutive | replace (n <? 0) with false by lia; reflexivity ]. }
    rewrite E. cbn [Cast_Model.extract]. rewrite (Cast_Proof.scan_show v). cbv zeta. replace (if v <? 0 then - Z.abs v else Z.abs v) with v by (destruct (Z.ltb_spec v 0); lia).
    destruct ((_ <=? v) && _) eqn:R; [lia|reflexivity].
Qed.
Example C111_to_int_refused_nonvacuous : to_integral (Cast_Model.TNum true 16) (Fin (mkD false (40000 * 2 ^ 37) (-37))) = Throw /\ is_double (mkD false (40000 * 2 ^ 37) (-37)).
Proof. split; [vm_compute; reflexivity|]. unfold is_double; cbn [dman dexp]; lia. Qed.
(** The full claim is false: a million becomes 1, 1234567 becomes 1, and two and a half is accepted as 2. *)
Theorem C111_to_int_refuted : exists d e f, is_double d /\ is_double e /\ is_double f /\ mag d = 1000000 * 2 ^ 1074 /\ mag e = 1234567 * 2 ^ 1074 /\ 2 * mag f = 5 * 2 ^ 1074 /\
  to_integral (Cast_Model.TNum true 32) (Fin d) = Ok 1 /\ to_integral (Cast_Model.TNum true 32) (Fin e) = Ok 1 /\ to_integral (Cast_Model.TNum true 32) (Fin f) = Ok 2.
Proof.
  exists (mkD false (15625 * 2 ^ 39) (-33)), (mkD false (1234567 * 2 ^ 32) (-32)), (mkD false (5 * 2 ^ 50) (-51)).
  split; [ unfold is_double; cbn [dman dexp]; lia | ]. split; [ unfold is_double; cbn [dman dexp]; lia | ]. split; [ unfold is_double; cbn [dman dexp]; lia | ].
  vm_compute. repeat split; reflexivity.
Qed.

Print Assumptions C111_text.
Print Assumptions C111_read.
Print Assumptions C111_sound.
Print Assumptions C111_back.
Print Assumptions C111_kept.
Print Assumptions C111_precision_refuted.
Print Assumptions C111_special_text.
Print Assumptions C111_special_refuted.
Print Assumptions C111_rest_refuted.
Print Assumptions C111_from_int.
Print Assumptions C111_to_int_partial.
Print Assumptions C111_to_int_refused.
Print Assumptions C111_to_int_refuted.
Print Assumptions C111_stable.
Print Assumptions C111_digits.
