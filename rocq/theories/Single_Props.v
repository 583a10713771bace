(** Single precision and unsigned numbers in JSON: the properties. *)
From Verif Require Import Common CommonLemmas NumText_Model Double_Model Double_Spec Double_Proof Single_Model Single_Spec Json_Model Json_Spec JsonParse_Proof JsonPrint_Proof JsonFloat_Spec JsonFloat_Proof Single_Proof.
Local Open Scope Z_scope.

(** ** C115 *)
(** A single precision number but zero, written as JSON text and read from it, anywhere in a stream, is the same number. *)
Theorem C115_kept : forall fbk esc f w r, is_single f -> fman f <> 0 -> ws w -> ends_value r ->
  exists j v st, to_json_float (SFin f) = Ok j /\ parse fbk (start (w ++ print esc j ++ r)) = JOk (v, st) /\ cast_float v = Ok (SFin f).
Proof. exact single_kept. Qed.
(** Zero is read as zero, but loses its sign. *)
Theorem C115_zero_partial : forall fbk esc neg, exists j v st, to_json_float (SFin (mkF neg 0 (-149))) = Ok j /\
  parse fbk (start (print esc j)) = JOk (v, st) /\ cast_float v = Ok (SFin (mkF false 0 (-149))).
Proof. intros fbk esc neg. destruct neg; (do 3 eexists; split; [ reflexivity | split; [ vm_compute; reflexivity | vm_compute; reflexivity ] ]). Qed.
(** Without the text the double is the same number; infinity and NaN are refused. *)
Theorem C115_widened : forall f, is_single f -> exists d, to_json_float (SFin f) = Ok (JFloat d) /\ is_double d /\ dneg d = fneg f /\ mag d = smag f * 2 ^ 925.
Proof.
  intros f Hf. exists (widen f). split; [ reflexivity | ]. destruct (Z.eq_dec (fman f) 0) as [ E | N ].
  - unfold widen. rewrite E. cbn [Z.eqb]. split; [ unfold is_double; cbn [dman dexp]; lia | ]. split; [ reflexivity | ]. unfold mag, smag. cbn [dman]. rewrite E. reflexivity.
  - destruct (widen_spec f Hf N) as ((A & _) & B & C). auto.
Qed.
Theorem C115_refused : forall f, to_json_float f = Throw <-> (forall g, f <> SFin g).
Proof. intros [ f | n | n ]; split; intros H; try reflexivity; try discriminate; try (intros g; discriminate). destruct (H f). reflexivity. Qed.
(** json_cast<float> rounds a double, or an integer, to the nearest number; too large doubles become infinite. *)
Theorem C115_cast : forall d f, is_double d -> (cast_float (JFloat d) = Ok (SFin f) <-> nearest_single (dneg d) (mag d) (2 ^ 1074) f).
Proof. exact cast_nearest. Qed.
Theorem C115_overflow : forall d, is_double d -> (cast_float (JFloat d) = Ok (SInf (dneg d)) <-> 2 ^ 1074 * (2 ^ 128 - 2 ^ 103) <= mag d).
Proof. exact cast_infinite. Qed.
Theorem C115_integer : forall n f, cast_float (JInt n) = Ok (SFin f) <-> nearest_single (n <? 0) (Z.abs n) 1 f.
Proof.
  intros n f. rewrite <- (narrow_spec (n <? 0) (Z.abs n) 1 f) by lia. cbn [cast_float]. split; [ intros K; injection K; auto | intros ->; reflexivity ].
Qed.
Theorem C115_kinds : forall j def, (cast_float j = Throw <-> (forall d, j <> JFloat d) /\ (forall n, j <> JInt n)) /\
  (cast_float j = Throw -> cast_float_default j def = def) /\ (forall x, cast_float j = Ok x -> cast_float_default j def = x).
Proof.
  intros j def. destruct j; cbn [cast_float cast_float_default];
    (split; [ split; [ intros H; try discriminate H; split; intros; discriminate | intros (H1 & H2); try reflexivity; exfalso; eauto ] | split; [ intros H; try discriminate H; reflexivity | intros x H; try discriminate H; injection H; auto ] ]).
  - exact (H2 n eq_refl).
  - exact (H1 d eq_refl).
Qed.
(** But a number text is rounded twice, so that the float found need not be the nearest to it. *)
Theorem C115_twice_refuted : let t := str "1.000000059604644775390626" in let p := 1000000059604644775390626 in let q := 10 ^ 24 in
  exists d f g, (forall fbk, exists st, parse fbk (start t) = JOk (JFloat d, st)) /\ float_token t false p (-24) /\
  cast_float (JFloat d) = Ok (SFin f) /\ is_single g /\ sdist p q g < sdist p q f.
Proof.
  cbv zeta. exists (mkD false (2 ^ 52 + 2 ^ 28) (-52)), (mkF false (2 ^ 23) (-23)), (mkF false (2 ^ 23 + 1) (-23)).
  split; [ intros fbk; eexists; vm_compute; reflexivity | ]. split.
  { change (float_token ([] ++ str "1" ++ (str "." ++ str "000000059604644775390626") ++ []) false (num (str "1" ++ str "000000059604644775390626")) (0 - Z.of_nat (length (str "000000059604644775390626")))).
    apply ft_intro; [ constructor | | | constructor | left; discriminate ].
    - change (int_part (49 :: [])). apply ip_pos; [ lia | constructor ].
    - let l := eval vm_compute in (str "000000059604644775390626") in change (frac_part (46 :: l) l). apply fp_some; [ unfold digit; lia | ]. repeat (constructor; [ unfold digit; lia | ]). constructor. }
  split; [ vm_compute; reflexivity | ]. split; [ unfold is_single; cbn [fman fexp]; lia | vm_compute; reflexivity ].
Qed.
(** An unsigned number below 2^63 is written as itself; a larger one is not. *)
Theorem C115_unsigned_partial : forall esc n, 0 <= n < 2 ^ 63 -> int_token (print esc (to_json_unsigned n)) n.
Proof.
  intros esc n H. assert (E : to_json_unsigned n = JInt n).
  { unfold to_json_unsigned. rewrite Z.mod_small by lia. f_equal. lia. }
  rewrite E. apply show_int_ok.
Qed.
Theorem C115_unsigned_refuted : forall esc, print esc (to_json_unsigned (2 ^ 64 - 1)) = str "-1".
Proof. intros esc. vm_compute. reflexivity. Qed.
(** 0.1f: the text of its double is 0.10000000149, and it comes back. *)
Example C115_nonvacuous : let f := mkF false 13421773 (-27) in is_single f /\ exists j d st, to_json_float (SFin f) = Ok j /\ print true j = str "0.10000000149" /\
  parse (fun _ => 0) (start (str "0.10000000149")) = JOk (JFloat d, st) /\ cast_float (JFloat d) = Ok (SFin f) /\ JFloat d <> j.
Proof.
  cbv zeta. split; [ unfold is_single; cbn [fman fexp]; lia | ]. do 3 eexists. split; [ reflexivity | ]. split; [ vm_compute; reflexivity | ].
  split; [ vm_compute; reflexivity | ]. split; [ vm_compute; reflexivity | vm_compute; discriminate ].
Qed.

Print Assumptions C115_kept.
Print Assumptions C115_zero_partial.
Print Assumptions C115_widened.
Print Assumptions C115_refused.
Print Assumptions C115_cast.
Print Assumptions C115_overflow.
Print Assumptions C115_integer.
Print Assumptions C115_kinds.
Print Assumptions C115_twice_refuted.
Print Assumptions C115_unsigned_partial.
Print Assumptions C115_unsigned_refuted.
