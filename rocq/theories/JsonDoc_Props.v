(** C15, C93: documents and archives with floating numbers. *)
From Verif Require Import Common CommonLemmas Double_Model Double_Spec Double_Proof Utf8_Model Utf8_Spec Utf8_Proof Json_Model Json_Spec JsonPrint_Proof JsonCast_Model JsonCast_Spec JsonArchive_Spec JsonArchive_Model
  JsonFloat_Spec JsonFloat_Proof JsonDoc_Spec JsonDoc_Proof JsonDocCast_Proof JsonArchive_Proof.
Local Open Scope Z_scope.

(** Any document whose floating numbers are zero or normal is read back from both kinds of text, the floating numbers rounded to 12 digits.  Partial: strings without
    U+0000, texts below 2^30 bytes; subnormal numbers are rejected (C94_subnormal_refuted). *)
Theorem C15_floats_partial : forall fbk esc v, value readable v -> holds text v ->
  (Z.of_nat (length (print esc v)) < 2 ^ 30 - 8 -> exists w st, parse fbk (start (print esc v)) = JOk (w, st) /\ inp st = [] /\ reread v w) /\
  (Z.of_nat (length (pretty esc v)) < 2 ^ 30 - 8 -> exists w st, parse fbk (start (pretty esc v)) = JOk (w, st) /\ reread v w).
Proof. intros fbk esc v Hv Hh. split; intros HL; [now apply document_parse|now apply document_pretty]. Qed.
(** If each floating number can be written with 12 digits, what is read is equal in the sense of operator==. *)
Theorem C15_short_floats_partial : forall fbk esc v, value short v -> holds text v ->
  (Z.of_nat (length (print esc v)) < 2 ^ 30 - 8 -> exists w st, parse fbk (start (print esc v)) = JOk (w, st) /\ inp st = [] /\ equals true v w = true) /\
  (Z.of_nat (length (pretty esc v)) < 2 ^ 30 - 8 -> exists w st, parse fbk (start (pretty esc v)) = JOk (w, st) /\ equals true v w = true).
Proof.
  intros fbk esc v Hv Hh. assert (Hr : value readable v) by (apply (value_imp short); [intros d [H|[H _]]; [now left|now right]|exact Hv]). split; intros HL.
  - destruct (document_parse fbk esc v Hr Hh HL) as (w & st & E & I & R). exists w, st. split; [exact E|]. split; [exact I|]. now apply short_equal.
  - destruct (document_pretty fbk esc v Hr Hh HL) as (w & st & E & R). exists w, st. split; [exact E|]. now apply short_equal.
Qed.
(** What is printed is a JSON text in the sense of RFC 8259 that denotes the document with rounded numbers. *)
Theorem C15_floats_rfc8259_partial : forall v, value readable v -> holds text v -> exists w, reread v w /\ forall esc, jval dec_value (print esc v) w.
Proof. intros v Hv Hh. destruct (document v Hv Hh) as (w & R & J & _). eauto. Qed.

(** 0.1, 2.0, -0.0 and an integer *)
Definition C15_floats_sample : json := JArr [JFloat (mkD false 7205759403792794 (-56)); JObj [(str "a", JFloat (mkD false (2 ^ 52) (-51)))]; JFloat (mkD true 0 (-1074)); JInt 7].
Example C15_floats_nonvacuous : value short C15_floats_sample /\ holds text C15_floats_sample /\ print true C15_floats_sample = str "[0.1,{""a"":2},-0,7]" /\
  (forall fbk, match parse fbk (start (print true C15_floats_sample)) with JOk (JArr [a; JObj [(_, b)]; c; d], _) => a = JFloat (mkD false 7205759403792794 (-56)) /\ b = JInt 2 /\ c = JInt 0 /\ d = JInt 7 | _ => False end).
Proof.
  split; [|split; [|split; [vm_compute; reflexivity|intros fbk; vm_compute; auto]]].
  - unfold C15_floats_sample. cbn [value fold_right snd map fst]. split; [|split; [|split; [|split; [lia|exact I]]]].
    + right. split; [unfold normal, is_double; cbn [dman dexp]; lia|]. exists 1, (-1). split; [lia|]. apply dec_double_spec; [lia|vm_compute; reflexivity].
    + split; [constructor; [intros []|constructor]|]. split; [|exact I]. right. split; [unfold normal, is_double; cbn [dman dexp]; lia|]. exists 2, 0. split; [lia|]. apply dec_double_spec; [lia|vm_compute; reflexivity].
    + left. split; [unfold is_double; cbn [dman dexp]; lia|reflexivity].
  - cbn [holds C15_floats_sample fold_right fst snd]. repeat split. exists [97]. split; [exact (utf8_cons 97 _ [97] _ (u1 97 ltac:(lia)) utf8_nil)|]. intros [H|[]]; discriminate.
Qed.

(** ** C93 *)
(** Values of any type made of the supported ones, whose doubles are +0 or normal and can be written with 12 digits, come out of the archive as they were put.
    Partial: the doubles; strings without U+0000; texts below 2^30 bytes; no json inside the type (it would come back as an equal one, C15). *)
Theorem C93_floats_partial : forall fbk pr esc tvs,
  Forall (fun tv => plain (fst tv) /\ solid (fst tv) /\ typed (fst tv) (snd tv) /\ value exact12 (to_json (snd tv)) /\ holds text (to_json (snd tv)) /\ Z.of_nat (length (put pr esc (snd tv))) < 2 ^ 30 - 8) tvs ->
  exists ws r, gets fbk (map fst tvs) (puts pr esc (map snd tvs)) = (map AValue ws, Some r) /\ Forall2 veq (map snd tvs) ws /\ forall t, get fbk t r = (AEnd, None).
Proof. intros fbk pr esc tvs F. apply (gets_floats fbk pr esc); [exact F|left; reflexivity]. Qed.
(** Of the zeros only +0 comes back with its sign. *)
Theorem C93_minus_zero_refuted : exists v, typed TDouble v /\ forall fbk pr esc w r, gets fbk [TDouble] (puts pr esc [v]) = ([AValue w], r) -> ~ veq v w.
Proof.
  exists (VDbl (mkD true 0 (-1074))). split; [constructor|]. intros fbk pr esc w r E K. destruct pr, esc; vm_compute in E; injection E as <- _; inversion K.
Qed.
(** 0.1, and 2.0, which is written as an integer *)
Definition C93_floats_sample : val := VVec [VDbl (mkD false 7205759403792794 (-56)); VDbl (mkD false (2 ^ 52) (-51)); VDbl (mkD false 0 (-1074))].
Example C93_floats_nonvacuous : typed (TVec TDouble) C93_floats_sample /\ value exact12 (to_json C93_floats_sample) /\ put false true C93_floats_sample = str "[0.1,2,0]" ++ [10] /\
  forall fbk, gets fbk [TVec TDouble; TInt] (puts false true [C93_floats_sample; VInt 7]) = ([AValue C93_floats_sample; AValue (VInt 7)], Some []).
Proof.
  split; [|split; [|split; [vm_compute; reflexivity|intros fbk; vm_compute; reflexivity]]].
  - repeat constructor.
  - cbn [to_json C93_floats_sample map value fold_right]. split; [|split; [|split; [now left|exact I]]].
    + right. split; [unfold normal, is_double; cbn [dman dexp]; lia|]. exists 1, (-1). split; [lia|]. apply dec_double_spec; [lia|vm_compute; reflexivity].
    + right. split; [unfold normal, is_double; cbn [dman dexp]; lia|]. exists 2, 0. split; [lia|]. apply dec_double_spec; [lia|vm_compute; reflexivity].
Qed.

Print Assumptions C15_floats_partial.
Print Assumptions C15_short_floats_partial.
Print Assumptions C15_floats_rfc8259_partial.
Print Assumptions C93_floats_partial.
Print Assumptions C93_minus_zero_refuted.
