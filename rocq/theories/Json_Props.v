(** C15-C20, C68-C72: JSON. *)
From Coq Require Import Permutation.
From Verif Require Import Common CommonLemmas Double_Model Double_Spec Double_Proof Utf8_Model Utf8_Spec Utf8_Proof Json_Model Json_Spec JsonParse_Proof
  JsonComplete_Proof JsonPrint_Proof JsonSafe_Proof JsonEq_Proof JsonStream_Proof JsonCast_Model JsonCast_Spec JsonCast_Proof.
Local Open Scope Z_scope.

(** In all statements [fbk] is what the UTF-8 reader makes of a malformed character; see Json_Model.v. *)

(** C15.  Partial: strings without U+0000 (see C16 for why), and texts below 2^30 bytes. *)
Theorem C15_compact_round_trip_partial : forall fbk esc v, value no_floats v -> holds text v ->
  Z.of_nat (length (print esc v)) < 2 ^ 30 - 8 ->
  exists st, parse fbk (start (print esc v)) = JOk (v, st) /\ inp st = [].
Proof. exact print_parse. Qed.
Theorem C15_pretty_round_trip_partial : forall fbk esc v, value no_floats v -> holds text v ->
  Z.of_nat (length (pretty esc v)) < 2 ^ 30 - 8 ->
  exists st, parse fbk (start (pretty esc v)) = JOk (v, st).
Proof. intros fbk esc v H1 H2 H3. destruct (pretty_parse fbk esc v H1 H2 H3) as (st & E & _). eauto. Qed.
(** False for strings that hold U+0000, at any place: the element is read as the empty string. *)
Theorem C15_nul_refuted : forall fbk esc,
  let v := JObj [(str "a", JArr [JStr [0]; JStr (str "x")]); (str "b", JNull)] in let w := JObj [(str "a", JArr [JStr []; JStr (str "x")]); (str "b", JNull)] in
  (exists st, parse fbk (start (print esc v)) = JOk (w, st)) /\ (exists st, parse fbk (start (pretty esc v)) = JOk (w, st)) /\ (forall conv, equals conv v w = false).
Proof. intros fbk esc v w. split; [|split]; [destruct esc; eexists; vm_compute; reflexivity|destruct esc; eexists; vm_compute; reflexivity|intros conv; destruct conv; vm_compute; reflexivity]. Qed.
(** Reading back is equal in the sense of operator== as well. *)
Theorem C15_equal_partial : forall conv v, value no_floats v -> equals conv v v = true.
Proof. intros conv v H. apply equals_same; auto. apply same_refl. Qed.
(** What is printed is a JSON text in the sense of RFC 8259 that denotes the value. *)
Theorem C15_prints_rfc8259_partial : forall esc v, value no_floats v -> holds text v ->
  jval dec_value (print esc v) v.
Proof. intros esc v H1 H2. now apply print_jval. Qed.

Definition C15_sample : json :=
  JObj [(str "a""", JArr [JInt (-7); JNull; JBool true; JStr [0xE3; 0x81; 0x82; 10; 0xF0; 0x9F; 0x98; 0x80]]); ([], JObj [])].
Example C15_nonvacuous : value no_floats C15_sample /\ holds text C15_sample /\
  print true C15_sample = str "{""a\"""":[-7,null,true,""\u3042\n\uD83D\uDE00""],"""":{}}".
Proof.
  split; [|split; [|vm_compute; reflexivity]].
  - cbn -[Z.pow]. repeat split; try lia. constructor; [intros [H|[]]; discriminate H|constructor; [intros []|constructor]]. constructor.
  - cbn [holds fold_right C15_sample fst snd]. repeat split.
    + exists [97; 34]. split; [|intros [H|[H|[]]]; discriminate H].
      exact (utf8_cons 97 _ [97] _ (u1 97 ltac:(lia)) (utf8_cons 34 _ [34] _ (u1 34 ltac:(lia)) utf8_nil)).
    + exists [0x3042; 10; 0x1F600]. split; [|intros [H|[H|[H|[]]]]; discriminate H].
      exact (utf8_cons 0x3042 _ _ _ (u3 0x3042 ltac:(lia) ltac:(unfold scalar; lia)) (utf8_cons 10 _ [10] _ (u1 10 ltac:(lia))
        (utf8_cons 0x1F600 _ _ _ (u4 0x1F600 ltac:(lia)) utf8_nil))).
    + exact text_nil.
Qed.

(** C16.  False: printing stops at U+0000. *)
Theorem C16_nul_refuted : exists s, well_formed s /\ forall fbk esc,
  parse fbk (start (print esc (JStr s))) = JOk (JStr [], mkP [] None 256) /\ s <> [].
Proof.
  exists [0]. split; [exists [0]; exact (utf8_cons 0 [] [0] [] (u1 0 ltac:(lia)) utf8_nil)|]. intros fbk esc. split; [|discriminate].
  destruct esc; reflexivity.
Qed.
Theorem C16_string_round_trip_partial : forall fbk esc s, text s -> Z.of_nat (length (print esc (JStr s))) < 2 ^ 30 - 8 ->
  exists st, parse fbk (start (print esc (JStr s))) = JOk (JStr s, st) /\ inp st = [].
Proof. intros fbk esc s H HL. apply print_parse; auto. exact I. Qed.
Theorem C16_printed_string_partial : forall esc s, text s -> jstring (print_string esc s) s.
Proof. exact print_string_ok. Qed.
Example C16_nonvacuous : text (str "tab	/") /\ print_string true (str "tab	/") = str """tab\t\/""".
Proof.
  split; [|vm_compute; reflexivity]. exists (str "tab	/"). split; [|cbn; intuition discriminate].
  assert (A : forall s, Forall (fun c => 0 <= c < 128) s -> utf8 s s).
  { induction s as [|c s IH]; intros H; [constructor|]. inversion H; subst. apply (utf8_cons c s [c] s); auto. apply u1; lia. }
  apply A. exact (ascii_forallb (str "tab	/") eq_refl).
Qed.

(** C17.  On every byte stream, with either answer of the UTF-8 reader for malformed bytes. *)
Theorem C17_parsed_strings_well_formed : forall fbk s v st, (forall r, fbk r = 0 \/ fbk r = 0xFFFD) -> bytes s ->
  parse fbk (start s) = JOk (v, st) -> holds well_formed v.
Proof.
  intros fbk s v st Hf Hs E. eapply parse_wellformed; eauto. intros r. unfold scalar. destruct (Hf r) as [-> | ->]; lia.
Qed.
Example C17_nonvacuous : exists v st, parse (fun _ => 0xFFFD) (start ([34; 0xFF; 97] ++ str "\uD83D\uDE00""")) = JOk (v, st) /\
  v = JStr [0xEF; 0xBF; 0xBD; 97; 0xF0; 0x9F; 0x98; 0x80].
Proof. eexists. eexists. split; [vm_compute; reflexivity|reflexivity]. Qed.
Example C17_case_lone_surrogates : forall fbk,
  parse fbk (start (str """\uD800""")) = JParse /\ parse fbk (start (str """\uDC00""")) = JParse /\
  parse fbk (start (str """\uD800A""")) = JParse.
Proof. repeat split; reflexivity. Qed.

(** C18.  False in both halves: 1e5 at the end of the stream is read as 1, and -, 1., -.5, 007 are accepted. *)
Theorem C18_last_digit_refuted : exists t D k d d', float_token t false D k /\ dec_value false D k d /\
  (forall fbk, exists st, parse fbk (start (t ++ str " ")) = JOk (JFloat d, st)) /\
  (forall fbk, exists st, parse fbk (start t) = JOk (JFloat d', st)) /\ d' <> d.
Proof.
  exists (str "1e5"), 1, 5, (mkD false 0x186A0000000000 (-36)), (mkD false (2 ^ 52) (-52)).
  split; [|split; [|split; [|split]]].
  - exact (ft_intro [] false [49] [] [] [101; 53] 5 sg_none (ip_pos 49 [] ltac:(lia) ltac:(constructor)) fp_none
      (ex_bare 101 53 [] ltac:(now left) ltac:(unfold digit; lia) ltac:(constructor)) ltac:(right; discriminate)).
  - apply dec_double_spec; [lia|]. vm_compute. reflexivity.
  - intros fbk. eexists. vm_compute. reflexivity.
  - intros fbk. eexists. vm_compute. reflexivity.
  - discriminate.
Qed.
Theorem C18_malformed_accepted_refuted : exists ts, Forall (fun t => (forall v, ~ jval dec_value t v) /\
  forall fbk, exists v st, parse fbk (start t) = JOk (v, st) /\ inp st = []) ts /\ ts = [str "-"; str "1."; str "007"].
Proof.
  exists [str "-"; str "1."; str "007"]. split; [|reflexivity].
  assert (B : forall t v, jval dec_value t v -> (hd 0 t = 45 \/ digit (hd 0 t)) ->
    (exists n, int_token t n) \/ (exists neg D k, float_token t neg D k)).
  { intros t v H Hh. destruct H as [| | | | |t0 s0 Hs| | | |]; cbn in Hh; unfold digit in Hh; try lia; eauto. 
    1-3: exfalso; vm_compute in Hh; destruct Hh as [E|[E1 E2]]; [discriminate E|exact (E2 eq_refl)].
    destruct Hs. cbn in Hh. lia. }
  assert (N : forall t, (forall sg neg ip ft fp et x, sign_part sg neg -> int_part ip -> frac_part ft fp -> exponent et x -> t = sg ++ ip ++ ft ++ et -> False) ->
    (hd 0 t = 45 \/ digit (hd 0 t)) -> forall v, ~ jval dec_value t v).
  { intros t H Hh v Hj. destruct (B t v Hj Hh) as [(n & Hi)|(neg & D & k & Hi)].
    - destruct Hi as [sg neg ip Hsg Hip]. apply (H sg neg ip [] [] [] 0 Hsg Hip fp_none ex_none). now rewrite app_nil_r.
    - destruct Hi as [sg neg ip ft fp et x Hsg Hip Hft Het _]. eapply H; eauto. }
  repeat constructor.
  - apply N; [|now left]. intros sg neg ip ft fp et x Hsg Hip Hft Het E. change (str "-") with [45] in E.
    destruct Hsg, Hip; cbn in E; try discriminate E; injection E; intros; lia.
  - intros fbk. do 2 eexists. split; reflexivity.
  - apply N; [|right; vm_compute; split; discriminate]. intros sg neg ip ft fp et x Hsg Hip Hft Het E. change (str "1.") with [49; 46] in E.
    destruct Hsg; [|discriminate E]. destruct Hip as [|c r Hc Hr]; [discriminate E|].
    cbn [app] in E. destruct r as [|c' r]; [|cbn in E; injection E as E1 E2 E3; inversion Hr; unfold digit in *; lia].
    cbn [app] in E. destruct Hft as [|d r Hd Hr']; [|discriminate E]. cbn [app] in E. destruct Het; try discriminate E; cbn in E; injection E; intros; lia.
  - intros fbk. do 2 eexists. split; reflexivity.
  - apply N; [|right; vm_compute; split; discriminate]. intros sg neg ip ft fp et x Hsg Hip Hft Het E. change (str "007") with [48; 48; 55] in E.
    destruct Hsg; [|discriminate E]. destruct Hip as [|c r Hc Hr]; [|cbn in E; injection E; intros; lia].
    destruct Hft; [|discriminate E]. destruct Het; try discriminate E; cbn in E; injection E; intros; lia.
  - intros fbk. do 2 eexists. split; reflexivity.
Qed.
(** Every other RFC 8259 number token is read at its full, correctly rounded value, whatever
    follows, and out of range numbers are rejected. *)
Theorem C18_number_value_partial : forall fbk t v w r, jval dec_value t v -> (exists n, v = JInt n) \/ (exists d, v = JFloat d) ->
  ws w -> ends_value r -> (r = [] -> ~ bare_exponent t) -> Z.of_nat (length t) < 2 ^ 30 - 8 ->
  exists st, parse fbk (start (w ++ t ++ r)) = JOk (v, st) /\ Rem st r.
Proof.
  intros fbk t v w r Hj _ Hw Hr Hb HL.
  destruct (parse_value fbk dec_value (fun neg D k d H HD => proj2 (dec_double_spec neg D k d HD) H) (Z.of_nat (length t)) t v w (start (w ++ t ++ r)) r) as (st & E & HR & _);
    auto; [lia|apply start_cap; lia|lia|apply (Rem0 _ 256)|eauto].
Qed.
Theorem C18_integer_range_partial : forall fbk t n w r, int_token t n -> ~ (- 2 ^ 63 <= n < 2 ^ 63) -> ws w -> ends_value r ->
  parse fbk (start (w ++ t ++ r)) = JParse.
Proof. exact int_out_of_range. Qed.
Theorem C18_float_range_partial : forall fbk t neg D k w r, float_token t neg D k -> (forall d, ~ dec_value neg D k d) ->
  ws w -> ends_value r -> (r = [] -> ~ bare_exponent t) -> parse fbk (start (w ++ t ++ r)) = JParse.
Proof. exact float_out_of_range. Qed.
Example C18_nonvacuous : jval dec_value (str "-12.5e+1") (JFloat (mkD true 0x1F400000000000 (-46))) /\ ~ bare_exponent (str "-12.5e+1").
Proof.
  split.
  - apply (jv_float dec_value _ true 125 0).
    + exact (ft_intro [45] true [49; 50] [46; 53] [53] [101; 43; 49] 1 sg_minus (ip_pos 49 [50] ltac:(lia) ltac:(repeat constructor; unfold digit; lia))
        (fp_some 53 [] ltac:(unfold digit; lia) ltac:(constructor)) (ex_plus 101 49 [] ltac:(now left) ltac:(unfold digit; lia) ltac:(constructor)) ltac:(left; discriminate)).
    + apply dec_double_spec; [lia|]. vm_compute. reflexivity.
  - intros (p & e & c & E & He & _). apply (f_equal (fun l => nth 1 (rev l) 0)) in E. rewrite rev_app_distr in E. vm_compute in E. subst e. destruct He; discriminate.
Qed.

(** C19.  Deep merging is false of the code: merge replaces nested objects. *)
Theorem C19_deep_merge_refuted : exists a b m, is_map a /\ is_map b /\ merge (JObj a) (JObj b) = Ok (JObj m) /\
  ~ deep_merged (JObj a) (JObj b) (JObj m).
Proof. exact merge_shallow. Qed.
(** What holds: exactly the keys of both; b wins (or the given function decides). *)
Theorem C19_merge_keys_partial : forall a b, is_map a -> is_map b ->
  exists m, merge (JObj a) (JObj b) = Ok (JObj m) /\ combined (fun _ y => y) a b m.
Proof. exact (merge_with_ok (fun _ y => y)). Qed.
Theorem C19_merge_with_partial : forall f a b, is_map a -> is_map b ->
  exists m, merge_with f (JObj a) (JObj b) = Ok (JObj m) /\ combined f a b m.
Proof. exact merge_with_ok. Qed.
Theorem C19_non_objects_partial : forall f a b, ~ (is_obj a /\ is_obj b) -> merge_with f a b = Throw.
Proof. exact merge_other. Qed.
Theorem C19_associative_partial : forall a b c, is_map a -> is_map b -> is_map c ->
  exists ab bc l r, merge (JObj a) (JObj b) = Ok (JObj ab) /\ merge (JObj ab) (JObj c) = Ok (JObj l) /\
    merge (JObj b) (JObj c) = Ok (JObj bc) /\ merge (JObj a) (JObj bc) = Ok (JObj r) /\ same_map l r.
Proof. exact merge_assoc. Qed.
Theorem C19_idempotent_partial : forall a, is_map a -> exists m, merge (JObj a) (JObj a) = Ok (JObj m) /\ same_map m a.
Proof. exact merge_idem. Qed.
Example C19_nonvacuous : is_map [(str "a", JInt 1); (str "b", JInt 2)] /\
  merge (JObj [(str "a", JInt 1); (str "b", JInt 2)]) (JObj [(str "b", JNull); (str "c", JInt 3)]) =
  Ok (JObj [(str "a", JInt 1); (str "b", JNull); (str "c", JInt 3)]).
Proof. split; [|reflexivity]. constructor; [intros [H|[]]; discriminate H|constructor; [intros []|constructor]]. Qed.

(** C20.  False for optionals of types that can be null. *)
Theorem C20_nested_optional_refuted : exists t v, typed t v /\
  forall v', from_json t (to_json v) = Ok v' -> ~ veq v v'.
Proof.
  exists (TOpt (TOpt TInt)), (VOpt (Some (VOpt None))). split; [repeat constructor|]. intros v' E. injection E as <-. intros H. inversion H.
Qed.
(** An out of range integer is not rejected by from_json<int>, and an integer is read as a double. *)
Theorem C20_silent_conversion_refuted : (exists n v, ~ (- 2 ^ 31 <= n < 2 ^ 31) /\ from_json TInt (JInt n) = Ok v) /\
  (exists n v, from_json TDouble (JInt n) = Ok v).
Proof.
  split; [exists (2 ^ 32), (VInt 0); split; [lia|reflexivity]|]. exists 1, (VDbl (mkD false (2 ^ 52) (-52))). reflexivity.
Qed.
(** Everything else round-trips, through any reordering of object members. *)
Theorem C20_round_trip_partial : forall t v j, plain t -> typed t v -> same (to_json v) j ->
  exists v', from_json t j = Ok v' /\ veq v v'.
Proof. exact cast_round. Qed.
(** from_json returns a value of the type exactly on JSON of the right kinds and throws otherwise. *)
Theorem C20_kinds_partial : forall F t j, value F j ->
  (exists v, from_json t j = Ok v /\ typed t v /\ fits t j) \/ (from_json t j = Throw /\ ~ fits t j).
Proof. exact from_json_cases. Qed.
Definition C20_type : ty := TRec [(str "n", TInt); (str "xs", TVec (TOpt TStr)); (str "m", TMap TBool); (str "o", TOpt TLong)].
Definition C20_value : val := VRec [(str "n", VInt (-1)); (str "xs", VVec [VOpt (Some (VStr (str "x"))); VOpt None]);
  (str "m", VMap [(str "k", VBool true)]); (str "o", VOpt None)].
Example C20_nonvacuous : plain C20_type /\ typed C20_type C20_value /\
  print true (to_json C20_value) = str "{""n"":-1,""xs"":[""x"",null],""m"":{""k"":true},""o"":null}".
Proof.
  split; [|split; [|vm_compute; reflexivity]].
  - cbn. repeat split. repeat constructor; cbn; intuition discriminate.
  - repeat constructor; cbn; try lia; intuition.
Qed.

(** C68.  The parser accepts every RFC 8259 text and reads it as the value it denotes.  Partial:
    a number ending in a single exponent digit at the very end of the stream (C18); 2^30 bytes. *)
Theorem C68_reads_rfc8259_partial : forall fbk t v w r, jval dec_value t v -> ws w -> ends_value r -> (r = [] -> ~ bare_exponent t) ->
  Z.of_nat (length t) < 2 ^ 30 - 8 ->
  exists st, parse fbk (start (w ++ t ++ r)) = JOk (v, st) /\ Rem st r.
Proof.
  intros fbk t v w r Hj Hw Hr Hb HL.
  destruct (parse_value fbk dec_value (fun neg D k d H HD => proj2 (dec_double_spec neg D k d HD) H) (Z.of_nat (length t)) t v w (start (w ++ t ++ r)) r) as (st & E & HR & _);
    auto; [lia|apply start_cap; lia|lia|apply (Rem0 _ 256)|eauto].
Qed.
Theorem C68_last_digit_refuted : exists t d d', jval dec_value t (JFloat d) /\ d' <> d /\ forall fbk, exists st, parse fbk (start t) = JOk (JFloat d', st).
Proof. destruct C18_last_digit_refuted as (t & D & k & d & d' & H1 & H2 & _ & H3 & H4). exists t, d, d'. split; [exact (jv_float _ t false D k d H1 H2)|]. now split. Qed.
Example C68_nonvacuous : jval dec_value (str "[ 0 , true]") (JArr [JInt 0; JBool true]).
Proof.
  apply (jv_arr dec_value (str " 0 , true")). assert (W : ws [32]) by (constructor; [now left|constructor]).
  apply (je_cons dec_value [32] [48] (JInt 0) [32] (str " true")); auto.
  - constructor; [|lia]. exact (it_intro [] false [48] sg_none ip_zero).
  - apply (je_one dec_value [32] (str "true") (JBool true) []); auto; constructor.
Qed.

(** C69.  On arbitrary bytes the parser ends with a value, a parse_error or an end_of_data: no
    access outside its buffer, no underflow of its stacks, no endless loop; and the values are proper. *)
Theorem C69_parser_total : forall fbk s, (forall r, fbk r = 0 \/ fbk r = 0xFFFD) -> bytes s -> Z.of_nat (length s) < 2 ^ 28 - 2 ->
  (exists v st, parse fbk (start s) = JOk (v, st)) \/ parse fbk (start s) = JParse \/ parse fbk (start s) = JEnd.
Proof. intros fbk s Hf Hs HL. apply parse_total; auto. intros r. unfold scalar. destruct (Hf r) as [-> | ->]; lia. Qed.
Theorem C69_parsed_value_proper : forall fbk s v st, (forall r, fbk r = 0 \/ fbk r = 0xFFFD) -> bytes s ->
  parse fbk (start s) = JOk (v, st) -> value is_double v.
Proof. intros fbk s v st Hf Hs E. eapply parse_wellformed; eauto. intros r. unfold scalar. destruct (Hf r) as [-> | ->]; lia. Qed.
Example C69_nonvacuous : parse (fun _ => 0) (start (str "[1,{]")) = JParse /\ parse (fun _ => 0) (start (str "  ")) = JEnd /\
  parse (fun _ => 0) (start (str "[[[")) = JEnd /\ (exists v st, parse (fun _ => 0) (start (str "[1,{}]")) = JOk (v, st)).
Proof. repeat split; try reflexivity. do 2 eexists. vm_compute. reflexivity. Qed.

(** C70.  operator== is equality up to the order of object members. *)
Theorem C70_equality : forall conv a b, value no_floats a -> value no_floats b -> (equals conv a b = true <-> same a b).
Proof. exact equals_same. Qed.
Example C70_nonvacuous :
  equals true (JObj [(str "a", JInt 1); (str "b", JNull)]) (JObj [(str "b", JNull); (str "a", JInt 1)]) = true /\
  equals true (JObj [(str "a", JInt 1)]) (JObj [(str "a", JInt 2)]) = false /\ equals true (JArr [JNull; JInt 1]) (JArr [JInt 1; JNull]) = false.
Proof. repeat split. Qed.

(** C71.  json_cast_with_default.  False for optional<int> and the like: a fresh, uninitialised T is read. *)
Theorem C71_uninitialised_refuted : exists t j v, typed t v /\ from_def t j v = UB.
Proof. exists (TOpt TInt), (JStr []), (VOpt (Some (VInt 5))). split; [repeat constructor; lia|reflexivity]. Qed.
Theorem C71_never_throws_partial : forall F t j v, value F j -> safe_optionals t -> typed t v ->
  exists v', from_def t j v = Ok v' /\ typed t v'.
Proof. exact from_def_ok. Qed.
Theorem C71_keeps_default_partial : forall t j v, ~ top_kind t j -> typed t v -> from_def t j v = Ok v.
Proof. exact from_def_keeps. Qed.
Theorem C71_agrees_with_cast_partial : forall F t j v w, value F j -> blank t v -> from_json t j = Ok w -> from_def t j v = Ok w.
Proof. exact from_def_agrees. Qed.
Example C71_nonvacuous : safe_optionals (TVec (TOpt TStr)) /\ typed (TVec TInt) (VVec [VInt 1; VInt 2; VInt 3]) /\
  from_def (TVec TInt) (JArr [JInt 7; JStr []]) (VVec [VInt 1; VInt 2; VInt 3]) = Ok (VVec [VInt 7; VInt 2; VInt 3]).
Proof. split; [cbn; auto|]. split; [repeat constructor; lia|reflexivity]. Qed.

(** C72.  One parser reads the values of a stream one after the other.  That the end of the data
    is then reported as such is false after a number followed by white space. *)
Theorem C72_end_of_data_refuted : exists s, value_stream dec_value s [JInt 1] /\ forall fbk,
  exists st, parse fbk (start s) = JOk (JInt 1, st) /\ parse fbk st = JParse.
Proof.
  exists (str "1 "). split.
  - apply (vs_cons dec_value [] [49] (JInt 1) 32 [] []); [constructor| |now left|apply vs_end; constructor; [now left|constructor]].
    constructor; [|lia]. exact (it_intro [] false [49] sg_none (ip_pos 49 [] ltac:(lia) ltac:(constructor))).
  - intros fbk. eexists. split; reflexivity.
Qed.
Theorem C72_reads_stream_partial : forall fbk s vs, value_stream dec_value s vs -> Z.of_nat (length s) < 2 ^ 30 - 8 ->
  exists st, parse_many fbk (length vs) (start s) = JOk (vs, st).
Proof.
  intros fbk s vs H HL. eapply (many_ok fbk dec_value (fun neg D k d H HD => proj2 (dec_double_spec neg D k d HD) H) (Z.of_nat (length s)) s vs); eauto;
    [lia|lia|apply (Rem0 _ 256)|apply start_cap; lia].
Qed.
(** operator>> makes a new parser each time: the character read ahead after a number is lost. *)
Theorem C72_lookahead_lost_refuted : forall fbk, read_json fbk (str "1[2]") = JOk (JInt 1, str "2]").
Proof. intros fbk. reflexivity. Qed.
Example C72_nonvacuous : forall fbk, exists st, parse_many fbk 3 (start (str "1 [2] null")) = JOk ([JInt 1; JArr [JInt 2]; JNull], st).
Proof. intros fbk. eexists. reflexivity. Qed.
Print Assumptions C15_compact_round_trip_partial.
Print Assumptions C15_pretty_round_trip_partial.
Print Assumptions C15_equal_partial.
Print Assumptions C15_prints_rfc8259_partial.
Print Assumptions C16_nul_refuted.
Print Assumptions C16_string_round_trip_partial.
Print Assumptions C16_printed_string_partial.
Print Assumptions C17_parsed_strings_well_formed.
Print Assumptions C18_last_digit_refuted.
Print Assumptions C18_malformed_accepted_refuted.
Print Assumptions C18_number_value_partial.
Print Assumptions C18_integer_range_partial.
Print Assumptions C18_float_range_partial.
Print Assumptions C19_deep_merge_refuted.
Print Assumptions C19_merge_keys_partial.
Print Assumptions C19_merge_with_partial.
Print Assumptions C19_non_objects_partial.
Print Assumptions C19_associative_partial.
Print Assumptions C19_idempotent_partial.
Print Assumptions C20_nested_optional_refuted.
Print Assumptions C20_silent_conversion_refuted.
Print Assumptions C20_round_trip_partial.
Print Assumptions C20_kinds_partial.
Print Assumptions C68_reads_rfc8259_partial.
Print Assumptions C69_parser_total.
Print Assumptions C69_parsed_value_proper.
Print Assumptions C70_equality.
Print Assumptions C71_uninitialised_refuted.
Print Assumptions C71_never_throws_partial.
Print Assumptions C71_keeps_default_partial.
Print Assumptions C71_agrees_with_cast_partial.
Print Assumptions C72_end_of_data_refuted.
Print Assumptions C72_reads_stream_partial.
Print Assumptions C72_lookahead_lost_refuted.
Print Assumptions C15_nul_refuted.
Print Assumptions C68_last_digit_refuted.
