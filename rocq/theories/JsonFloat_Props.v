(** Floating numbers in JSON: the properties. *)
From Verif Require Import Common CommonLemmas NumText_Model Double_Model Double_Spec Double_Proof Json_Model Json_Spec JsonParse_Proof JsonFloat_Spec JsonFloat_Proof.
Local Open Scope Z_scope.

(** ** C94 *)
(** Every floating number but zero is printed as a JSON number: the number rounded to 12 digits. *)
Theorem C94_text : forall esc d, is_double d -> dman d <> 0 -> exists n k, rounds12 d n k /\ denotes (print esc (JFloat d)) (dneg d) n k.
Proof. intros esc d. exact (fmt12_denotes d). Qed.
(** The parser reads that text, anywhere in a stream, and finds the number rounded to 12 digits.  Only for normal numbers: *)
Theorem C94_read_partial : forall fbk esc d w r, normal d -> ws w -> ends_value r ->
  exists n k v st, rounds12 d n k /\ number_is v (dneg d) n k /\ parse fbk (start (w ++ print esc (JFloat d) ++ r)) = JOk (v, st).
Proof. intros fbk esc d w r H1 H2 H3. destruct (float_read fbk esc d w r H1 H2 H3) as (n & k & v & st & A & B & C & _). eauto 10. Qed.
(** the text of a subnormal number is rejected. *)
Theorem C94_subnormal_refuted : exists d, is_double d /\ dman d <> 0 /\ forall fbk esc, parse fbk (start (print esc (JFloat d))) = JParse.
Proof.
  exists (mkD false 1 (-1074)). split; [ unfold is_double; cbn [dman dexp]; lia | ]. split; [ discriminate | ]. intros fbk esc.
  change (print esc (JFloat (mkD false 1 (-1074)))) with (fmt12 (mkD false 1 (-1074))).
  assert (E : fmt12 (mkD false 1 (-1074)) = str "4.94065645841e-324") by (vm_compute; reflexivity). rewrite E. vm_compute. reflexivity.
Qed.
(** A number that can be written with 12 digits is read back as an equal one: the same number, or the same integer. *)
Theorem C94_kept_partial : forall fbk esc d D j w r, normal d -> 0 < D < 10 ^ 12 -> dec_value (dneg d) D j d -> ws w -> ends_value r ->
  exists v st, parse fbk (start (w ++ print esc (JFloat d) ++ r)) = JOk (v, st) /\ equals true (JFloat d) v = true /\ (v = JFloat d \/ exists m, v = JInt m /\ int_to_double m = DOk d).
Proof.
  intros fbk esc d D j w r H1 HD HV H2 H3. destruct (float_read fbk esc d w r H1 H2 H3) as (n & k & v & st & A & B & C & _).
  exists v, st. split; [ exact C | ]. apply (number_equal v (dneg d) n k); [ destruct A as (_ & A & _); lia | exact B | ].
  eapply dec_same; [ | exact HV ]. exact (rounds_exact _ d D j n k H1 HD HV A).
Qed.
(** Zero, and that a floating number can come back as an integer *)
Theorem C94_zero : forall fbk esc neg, exists st, parse fbk (start (print esc (JFloat (mkD neg 0 (-1074))))) = JOk (JInt 0, st) /\ equals true (JFloat (mkD neg 0 (-1074))) (JInt 0) = true.
Proof. intros fbk esc neg. destruct neg; (eexists; split; [ vm_compute | ]; reflexivity). Qed.
Theorem C94_digits_refuted : exists d, normal d /\ forall fbk esc, exists v st, parse fbk (start (print esc (JFloat d))) = JOk (v, st) /\ equals true (JFloat d) v = false.
Proof.
  exists (mkD false (2 ^ 52 + 1) (-52)). split; [ unfold normal, is_double; cbn [dman dexp]; lia | ]. intros fbk esc. exists (JInt 1). eexists.
  change (print esc (JFloat (mkD false (2 ^ 52 + 1) (-52)))) with (fmt12 (mkD false (2 ^ 52 + 1) (-52))).
  assert (E : fmt12 (mkD false (2 ^ 52 + 1) (-52)) = str "1") by (vm_compute; reflexivity). rewrite E. split; vm_compute; reflexivity.
Qed.
(** 0.1 is kept. *)
Example C94_nonvacuous : let d := mkD false 7205759403792794 (-56) in normal d /\ dec_value (dneg d) 1 (-1) d /\ print true (JFloat d) = str "0.1".
Proof.
  cbv zeta. split; [ unfold normal, is_double; cbn [dman dexp]; lia | ]. split; [ apply dec_double_spec; [ lia | vm_compute; reflexivity ] | vm_compute; reflexivity ].
Qed.
Example C94_case_exponent : print true (JFloat (mkD true 5497558138880000 47)) = str "-7.73712524553e+29" /\ print true (JFloat (mkD false (2 ^ 52) (-1074))) = str "2.22507385851e-308".
Proof. split; vm_compute; reflexivity. Qed.

Print Assumptions C94_text.
Print Assumptions C94_read_partial.
Print Assumptions C94_subnormal_refuted.
Print Assumptions C94_kept_partial.
Print Assumptions C94_zero.
Print Assumptions C94_digits_refuted.
