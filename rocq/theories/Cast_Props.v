(** C63: lexical_cast round-trips integers. *)
From Verif Require Import Common CommonLemmas NumText_Model Cast_Spec Cast_Model Cast_Proof.
Local Open Scope Z_scope.

(** Every integer of every integral type but the character types, of any width, comes back from its text; a character does if it is not
    a blank. *)
Theorem C63_round_trip_partial t n : lo t <= n <= hi t -> (t = TChar -> ~ blank n) -> from_string t (to_string t n) = Ok n.
Proof.
  intros Hn Hc. unfold from_string, to_string, insert. destruct t as [| |s b].
  - cbn [extract skip_ws]. destruct (isspace n) eqn:E; [|reflexivity]. exfalso. now apply Hc, blank_isspace.
  - now rewrite extract_show.
  - now rewrite extract_show.
Qed.
(** char is an integral type, and a blank does not come back: the cast throws. *)
Theorem C63_blank_character_refuted : lo TChar <= 32 <= hi TChar /\ forall n, blank n -> from_string TChar (to_string TChar n) = Throw.
Proof.
  split; [cbn; lia|]. intros n Hn. unfold from_string, to_string, insert. cbn [extract skip_ws]. apply blank_isspace in Hn. now rewrite Hn.
Qed.

(** Signed types: a text that starts (after blanks) with an integer in range gives it, one out of range throws, and so does a text that
    does not start with an integer. *)
Theorem C63_signed_range bits s : let t := TNum true bits in
  (forall neg m rest, leading s neg m rest ->
     (lo t <= value neg m <= hi t -> from_string t s = Ok (value neg m)) /\
     (~ lo t <= value neg m <= hi t -> from_string t s = Throw)) /\
  ((forall neg m rest, ~ leading s neg m rest) -> from_string t s = Throw).
Proof.
  intros t. split.
  - intros neg m rest H%scan_leading. unfold from_string, t, value. cbn [extract]. rewrite H. fold t.
    destruct ((lo t <=? (if neg then - m else m)) && ((if neg then - m else m) <=? hi t)) eqn:E; split; intros G; try reflexivity; lia.
  - intros H. unfold from_string, t. cbn [extract]. destruct (scan s) as [[[neg m] rest]|] eqn:E; [|reflexivity].
    apply leading_scan in E. now apply H in E.
Qed.
Theorem C63_bool_range s :
  (forall neg m rest, leading s neg m rest ->
     (0 <= value neg m <= 1 -> from_string TBool s = Ok (value neg m)) /\ (~ 0 <= value neg m <= 1 -> from_string TBool s = Throw)) /\
  ((forall neg m rest, ~ leading s neg m rest) -> from_string TBool s = Throw).
Proof.
  split.
  - intros neg m rest H%scan_leading. unfold from_string, value. cbn [extract]. rewrite H. cbv zeta beta.
    destruct (((if neg then - m else m) =? 0) || ((if neg then - m else m) =? 1)) eqn:E; split; intros G; try reflexivity; lia.
  - intros H. unfold from_string. cbn [extract]. destruct (scan s) as [[[neg m] rest]|] eqn:E; [|reflexivity].
    apply leading_scan in E. now apply H in E.
Qed.
(** Unsigned types: the same for integers written without a minus sign. *)
Theorem C63_unsigned_range_partial bits s : let t := TNum false bits in
  (forall m rest, leading s false m rest ->
     (m <= hi t -> from_string t s = Ok m) /\ (hi t < m -> from_string t s = Throw)) /\
  ((forall neg m rest, ~ leading s neg m rest) -> from_string t s = Throw).
Proof.
  intros t. split.
  - intros m rest H%scan_leading. unfold from_string, t. cbn [extract]. rewrite H. fold t.
    destruct (Z.leb_spec m (hi t)); split; intros G; try reflexivity; lia.
  - intros H. unfold from_string, t. cbn [extract]. destruct (scan s) as [[[neg m] rest]|] eqn:E; [|reflexivity].
    apply leading_scan in E. now apply H in E.
Qed.
(** With a minus sign the text is out of range (unless it is a zero), but it does not throw: every magnitude up to the largest value is
    accepted and wraps around. *)
Theorem C63_unsigned_minus_refuted bits s m rest : 1 <= bits -> leading s true m rest -> 0 < m <= hi (TNum false bits) ->
  value true m < lo (TNum false bits) /\ from_string (TNum false bits) s = Ok (2 ^ bits - m).
Proof.
  intros Hb H%scan_leading Hm. cbn [value lo]. split; [lia|]. unfold from_string. cbn [extract]. rewrite H. cbn [hi] in *.
  destruct (Z.leb_spec m (2 ^ bits - 1)); [|lia]. f_equal. symmetry. apply (Z.mod_unique_pos _ _ (-1)); lia.
Qed.

(** A cast between two number types goes through the same text: it keeps values the target can hold. *)
Theorem C63_between_types target source n : target <> TChar -> source <> TChar ->
  lo source <= n <= hi source -> lo target <= n <= hi target -> cast target source n = Ok n.
Proof.
  intros Ht Hs Hn Hm. unfold cast. destruct (ty_eq_dec target source); [reflexivity|]. replace (insert source n) with (show_int n).
  - now rewrite extract_show.
  - destruct source; [congruence|reflexivity|reflexivity].
Qed.
(** and to a signed type or bool throws for all others. *)
Theorem C63_narrowing_throws target source n : target <> source -> source <> TChar ->
  (target = TBool \/ exists b, target = TNum true b) -> lo source <= n <= hi source -> ~ lo target <= n <= hi target -> cast target source n = Throw.
Proof.
  intros Hne Hs Ht Hn Hm. unfold cast. destruct (ty_eq_dec target source) as [E|_]; [congruence|].
  replace (insert source n) with (show_int n) by (destruct source; [congruence|reflexivity|reflexivity]).
  assert (Ev : (if n <? 0 then - Z.abs n else Z.abs n) = n) by (destruct (Z.ltb_spec n 0); lia).
  destruct Ht as [-> | (b & ->)]; cbn [extract]; rewrite scan_show, Ev.
  - cbn [lo hi] in Hm. replace ((n =? 0) || (n =? 1)) with false by lia. reflexivity.
  - replace ((lo (TNum true b) <=? n) && (n <=? hi (TNum true b))) with false by lia. reflexivity.
Qed.

Example C63_round_trip_nonvacuous :
  let i64 := TNum true 64 in
  to_string i64 (- 2 ^ 63) = str "-9223372036854775808" /\ from_string i64 (to_string i64 (- 2 ^ 63)) = Ok (- 2 ^ 63) /\
  from_string (TNum false 64) (to_string (TNum false 64) (2 ^ 64 - 1)) = Ok (2 ^ 64 - 1) /\
  from_string TBool (to_string TBool 1) = Ok 1 /\ from_string TChar (to_string TChar 65) = Ok 65.
Proof. vm_compute. repeat split; reflexivity. Qed.
Example C63_range_nonvacuous :
  leading (str " +2147483648 x") false 2147483648 (str " x") /\
  from_string (TNum true 32) (str " +2147483648 x") = Throw /\ from_string (TNum true 32) (str " -2147483648 x") = Ok (-2147483648) /\
  from_string (TNum true 32) (str "x") = Throw /\ from_string (TNum true 32) [] = Throw /\ from_string (TNum true 32) (str "12x") = Ok 12 /\
  from_string TBool (str "2") = Throw /\ from_string (TNum false 16) (str "65536") = Throw /\
  leading (str "-1") true 1 [] /\ from_string (TNum false 32) (str "-1") = Ok 4294967295 /\
  cast (TNum true 16) (TNum true 32) 70000 = Throw /\ cast (TNum true 16) (TNum true 32) (-7) = Ok (-7).
Proof.
  split; [apply leading_scan; vm_compute; reflexivity|]. do 7 (split; [vm_compute; reflexivity|]).
  split; [apply leading_scan; vm_compute; reflexivity|]. vm_compute. repeat split; reflexivity.
Qed.
Example C63_blank_nonvacuous : blank 32 /\ from_string TChar (str " ") = Throw.
Proof. split; [left; reflexivity|reflexivity]. Qed.
Print Assumptions C63_round_trip_partial.
Print Assumptions C63_blank_character_refuted.
Print Assumptions C63_signed_range.
Print Assumptions C63_bool_range.
Print Assumptions C63_unsigned_range_partial.
Print Assumptions C63_unsigned_minus_refuted.
Print Assumptions C63_between_types.
Print Assumptions C63_narrowing_throws.
