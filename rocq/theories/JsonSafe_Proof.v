(** Arbitrary input: the parser ends with a well-formed value or an exception, and stays in its buffer. *)
From Verif Require Import Common CommonLemmas NumText_Model NumText_Proof Double_Model Double_Spec Double_Proof Utf8_Model Utf8_Spec Utf8_Proof
  Json_Model Json_Spec JsonParse_Proof JsonComplete_Proof JsonPrint_Proof.
Local Open Scope Z_scope.

Section Safe.
  Context (fbk : list Z -> Z) (Hf : forall r, scalar (fbk r)) (L : nat).
  (** Inputs this small cannot make the buffer outgrow an int. *)
  Definition small : Prop := 2 * (4 * Z.of_nat L + 8) < 2 ^ 31.

  Definition rem (st : pst) : nat := (length (inp st) + match cbuf st with Some _ => 1 | None => 0 end)%nat.
  Definition inv (st : pst) : Prop :=
    bytes (inp st) /\ (forall c, cbuf st = Some c -> scalar c) /\ (rem st <= L)%nat /\ (small -> cap_ok (4 * Z.of_nat L) (cap st)).

  Definition wp {A} (m : P A) (Q : A -> pst -> Prop) (st : pst) : Prop :=
    match m st with JOk (a, st') => Q a st' | JParse | JEnd => True | JUB => ~ small | JFuel => False end.

  Lemma wp_mono {A} (m : P A) (Q Q' : A -> pst -> Prop) st : wp m Q st -> (forall a st', Q a st' -> Q' a st') -> wp m Q' st.
  Proof. unfold wp. intros H HQ. destruct (m st) as [[a st']| | | |]; auto. Qed.
  Lemma wp_bind {A B} (m : P A) (k : A -> P B) Q st : wp m (fun a st' => wp (k a) Q st') st -> wp (bind m k) Q st.
  Proof. unfold wp, bind. destruct (m st) as [[a st']| | | |]; auto. Qed.
  Lemma wp_seq {A B} (m : P A) (k : A -> P B) Q1 Q st : wp m Q1 st -> (forall a st', Q1 a st' -> wp (k a) Q st') -> wp (bind m k) Q st.
  Proof. intros H HK. apply wp_bind. eapply wp_mono; eauto. Qed.
  Lemma wp_ret {A} (a : A) (Q : A -> pst -> Prop) st : Q a st -> wp (ret a) Q st.
  Proof. auto. Qed.
  Lemma wp_fail {A} (Q : A -> pst -> Prop) st : wp fail Q st.
  Proof. exact I. Qed.

  Definition less (n : nat) (st st' : pst) : Prop := inv st' /\ (rem st' + n <= rem st)%nat.
  Lemma less_weak n st st' : less n st st' -> less 0 st st'.
  Proof. unfold less. intros [H1 H2]. split; [auto|lia]. Qed.
  Lemma less_trans n m st st1 st2 : less n st st1 -> less m st1 st2 -> less (n + m) st st2.
  Proof. unfold less. intros [H1 H2] [H3 H4]. split; [auto|lia]. Qed.
  Lemma less_trans' n m k st st1 st2 : less n st st1 -> less m st1 st2 -> (k <= n + m)%nat -> less k st st2.
  Proof. unfold less. intros [H1 H2] [H3 H4] ?. split; [auto|lia]. Qed.
  Lemma less_refl st : inv st -> less 0 st st.
  Proof. unfold less. split; [auto|lia]. Qed.

  Lemma next_uchar_safe b s : bytes (b :: s) -> let '(c, r) := next_uchar fbk (b :: s) in scalar c /\ bytes r /\ (length r < length (b :: s))%nat.
  Proof.
    intros Hb. unfold next_uchar. pose proof (rest_shorter b s) as H1. pose proof (rest_bytes b s Hb) as H2.
    destruct (chars_to_uchar_impl (b :: s)) as [c r|x r] eqn:E; cbn [rest_of] in H1, H2.
    - destruct (decode_val (b :: s) c r Hb E) as (e & _ & He). split; [eapply utf8_char_scalar; eauto|]. auto.
    - split; [apply Hf|]. auto.
  Qed.

  Lemma peek_safe st : inv st -> wp (peek fbk) (fun c st' => less 0 st st' /\ cbuf st' = Some c /\ scalar c) st.
  Proof.
    intros (H1 & H2 & H3 & H4). unfold wp, peek. destruct (cbuf st) as [c|] eqn:Ec.
    - split; [|split; [assumption|auto]]. apply less_refl. unfold inv. rewrite Ec. auto.
    - destruct (inp st) as [|b s] eqn:Ei; [exact I|]. pose proof (next_uchar_safe b s H1) as HN.
      destruct (next_uchar fbk (b :: s)) as [c r]. destruct HN as (N1 & N2 & N3). cbn [cbuf].
      unfold rem in *. rewrite Ei, Ec in H3. split; [|auto]. unfold less, inv, rem. cbn [inp cbuf cap]. rewrite Ei, Ec.
      split; [|lia]. split; [assumption|]. split; [intros c' E; injection E as <-; assumption|]. split; [lia|assumption].
  Qed.

  Lemma incr_safe st : inv st -> wp (incr fbk) (fun c st' => less 1 st st' /\ scalar c) st.
  Proof.
    intros Hi. unfold incr. eapply wp_seq; [apply peek_safe, Hi|]. cbv beta. intros c st1 ((I1 & L1) & Ec & Hc).
    unfold wp. destruct I1 as (H1 & H2 & H3 & H4). split; [|assumption]. unfold less, inv, rem in *. cbn [inp cbuf cap]. rewrite Ec in *.
    split; [|lia]. split; [assumption|]. split; [discriminate|]. split; [lia|assumption].
  Qed.
  (** After a peek the next incr is on a known character. *)
  Lemma incr_peeked st c : inv st -> cbuf st = Some c -> wp (incr fbk) (fun c' st' => c' = c /\ less 1 st st') st.
  Proof.
    intros Hi Ec. unfold incr, wp, bind, peek. rewrite Ec. split; [reflexivity|].
    destruct Hi as (H1 & H2 & H3 & H4). unfold less, inv, rem in *. cbn [inp cbuf cap]. rewrite Ec in *.
    split; [|lia]. split; [assumption|]. split; [discriminate|]. split; [lia|assumption].
  Qed.

  Lemma match_safe c st : inv st -> wp (match_c fbk c) (fun _ st' => less 1 st st') st.
  Proof.
    intros Hi. unfold match_c. eapply wp_seq; [apply peek_safe, Hi|]. cbv beta. intros x st1 (L1 & Ec & Hx).
    destruct (x =? c); [|apply wp_fail]. eapply wp_seq; [apply incr_safe; apply L1|]. cbv beta. intros x' st2 (L2 & _).
    apply wp_ret. eapply less_trans'; eauto.
  Qed.
  Lemma match_all_safe s st : inv st -> wp (match_all fbk s) (fun _ st' => less (length s) st st') st.
  Proof.
    revert st. induction s as [|c s IH]; intros st Hi; cbn [match_all]; [apply wp_ret, less_refl, Hi|].
    eapply wp_seq; [apply match_safe, Hi|]. cbv beta. intros _ st1 L1. eapply wp_mono; [apply IH, L1|]. cbv beta. intros _ st2 L2.
    cbn [length]. eapply less_trans'; eauto.
  Qed.

  Lemma ss_loop_safe f st : inv st -> (rem st < f)%nat -> wp (ss_loop fbk f) (fun _ st' => less 0 st st') st.
  Proof.
    revert st. induction f as [|f IH]; intros st Hi Hfu; [lia|]. unfold wp. cbn [ss_loop].
    destruct (at_end st); [now apply less_refl|]. change (wp (c <- peek fbk ;; (if jspace c then incr fbk ;;; ss_loop fbk f else ret tt)) (fun _ st' => less 0 st st') st).
    eapply wp_seq; [apply peek_safe, Hi|]. cbv beta. intros c st1 (L1 & Ec & Hc). destruct (jspace c); [|now apply wp_ret].
    eapply wp_seq; [apply incr_safe, L1|]. cbv beta. intros _ st2 (L2 & _). destruct L1 as [I1 R1], L2 as [I2 R2].
    eapply wp_mono; [apply IH; [assumption|lia]|]. cbv beta. intros _ st3 [I3 R3]. split; [assumption|lia].
  Qed.
  Lemma rem_inp st : (rem st <= length (inp st) + 1)%nat.
  Proof. unfold rem. destruct (cbuf st); lia. Qed.
  Lemma ss_safe st : inv st -> wp (ss fbk) (fun _ st' => less 0 st st') st.
  Proof. intros Hi. unfold ss. change (wp (ss_loop fbk (length (inp st) + 2)) (fun _ st' => less 0 st st') st). apply ss_loop_safe; auto. pose proof (rem_inp st). lia. Qed.
  Lemma speek_safe st : inv st -> wp (speek fbk) (fun c st' => less 0 st st' /\ cbuf st' = Some c) st.
  Proof.
    intros Hi. unfold speek. eapply wp_seq; [apply ss_safe, Hi|]. cbv beta. intros _ st1 L1.
    eapply wp_mono; [apply peek_safe, L1|]. cbv beta. intros c st2 (L2 & Ec & _). split; [eapply less_trans'; eauto|assumption].
  Qed.
  Lemma smatch_safe c st : inv st -> wp (smatch fbk c) (fun _ st' => less 1 st st') st.
  Proof.
    intros Hi. unfold smatch. eapply wp_seq; [apply ss_safe, Hi|]. cbv beta. intros _ st1 L1.
    eapply wp_mono; [apply match_safe, L1|]. cbv beta. intros _ st2 L2. eapply less_trans'; eauto.
  Qed.

  (** ** Strings *)
  Lemma parse_hex_safe st : inv st -> wp (parse_hex fbk) (fun v st' => less 1 st st' /\ 0 <= v < 16) st.
  Proof.
    intros Hi. unfold parse_hex. eapply wp_seq; [apply incr_safe, Hi|]. cbv beta. intros c st1 (L1 & _). unfold isdigit.
    destruct ((48 <=? c) && (c <=? 57)) eqn:E1; [apply wp_ret; split; [assumption|lia]|].
    destruct ((65 <=? c) && (c <=? 70)) eqn:E2; [apply wp_ret; split; [assumption|lia]|].
    destruct ((97 <=? c) && (c <=? 102)) eqn:E3; [apply wp_ret; split; [assumption|lia]|]. apply wp_fail.
  Qed.
  Lemma parse_hex4_safe st : inv st -> wp (parse_hex4 fbk) (fun v st' => less 4 st st' /\ 0 <= v < 65536) st.
  Proof.
    intros Hi. unfold parse_hex4.
    eapply wp_seq; [apply parse_hex_safe, Hi|]. cbv beta. intros a st1 (L1 & Ha).
    eapply wp_seq; [apply parse_hex_safe, L1|]. cbv beta. intros b st2 (L2 & Hb).
    eapply wp_seq; [apply parse_hex_safe, L2|]. cbv beta. intros c st3 (L3 & Hc).
    eapply wp_seq; [apply parse_hex_safe, L3|]. cbv beta. intros d st4 (L4 & Hd). apply wp_ret. rewrite lor4 by assumption. split; [|lia].
    pose proof (less_trans _ _ _ _ _ (less_trans _ _ _ _ _ (less_trans _ _ _ _ _ L1 L2) L3) L4). assumption.
  Qed.

  Lemma wf_char c : scalar c -> well_formed (uchar_to_chars c).
  Proof. intros H. exists [c]. rewrite <- (app_nil_r (uchar_to_chars c)). constructor; [now apply encode_char|constructor]. Qed.
  Lemma wf_ascii c : 0 <= c < 128 -> well_formed [c].
  Proof. intros H. exists [c]. apply (utf8_cons c [] [c] []); constructor. lia. Qed.
  Lemma wf_nil : well_formed [].
  Proof. exists []. constructor. Qed.
  Lemma wf_app a b : well_formed a -> well_formed b -> well_formed (a ++ b).
  Proof.
    intros (ca & Ha) (cb & Hb). exists (ca ++ cb). induction Ha as [|c cs e s Hc Ha IH]; [assumption|]. cbn [app]. rewrite <- app_assoc. now constructor.
  Qed.

  Lemma escape_safe st : inv st -> wp (parse_escape fbk) (fun bs st' => less 1 st st' /\ well_formed bs /\ (length bs <= 4)%nat) st.
  Proof.
    intros Hi. unfold parse_escape. eapply wp_seq; [apply incr_safe, Hi|]. cbv beta. intros c st1 (L1 & _).
    repeat match goal with |- wp (if ?x =? ?n then ret [?k] else _) _ _ =>
      destruct (x =? n); [apply wp_ret; split; [assumption|]; split; [apply wf_ascii; lia|cbn; lia]|] end.
    destruct (c =? 117); [|apply wp_fail].
    eapply wp_seq; [apply parse_hex4_safe, L1|]. cbv beta. intros u st2 (L2 & Hu).
    destruct ((56320 <=? u) && (u <=? 57343)) eqn:E1; [apply wp_fail|].
    destruct ((55296 <=? u) && (u <=? 56319)) eqn:E2.
    - eapply wp_seq; [apply match_safe, L2|]. cbv beta. intros _ st3 L3.
      eapply wp_seq; [apply match_safe, L3|]. cbv beta. intros _ st4 L4.
      eapply wp_seq; [apply parse_hex4_safe, L4|]. cbv beta. intros l st5 (L5 & Hl).
      destruct ((l <? 56320) || (57343 <? l)) eqn:E3; [apply wp_fail|]. apply wp_ret.
      split; [|split; [apply wf_char; unfold scalar; lia|apply u2c_len]].
      destruct L1, L2, L3, L4, L5. split; [assumption|lia].
    - apply wp_ret. split; [|split; [apply wf_char; unfold scalar; lia|apply u2c_len]].
      destruct L1, L2. split; [assumption|lia].
  Qed.

  Lemma grow_safe len st : inv st -> Z.of_nat len <= 4 * Z.of_nat L -> (small -> Z.of_nat len <= cap st) ->
    wp (grow len) (fun _ st' => inv st' /\ rem st' = rem st /\ (small -> Z.of_nat len + 8 < cap st')) st.
  Proof.
    intros (H1 & H2 & H3 & H4) Hlen Hcap. unfold wp. unfold grow.
    destruct (Z.leb_spec (cap st) (Z.of_nat len + 8)) as [Hle|Hgt].
    - destruct (Z.leb_spec (2 ^ 31) (2 * cap st)) as [Hbig|Hsm].
      + intros Hs. specialize (H4 Hs). unfold small, cap_ok in *. lia.
      + unfold inv, rem in *. cbn [inp cbuf cap]. split; [|split; [reflexivity|]].
        * split; [assumption|]. split; [assumption|]. split; [assumption|]. intros Hs. specialize (H4 Hs). unfold small, cap_ok in *. lia.
        * intros Hs. specialize (H4 Hs). specialize (Hcap Hs). unfold small, cap_ok in *. lia.
    - split; [unfold inv; auto|]. split; [reflexivity|]. intros _. lia.
  Qed.
  Lemma put_safe out bs st : inv st -> (small -> Z.of_nat (length out + length bs) <= cap st) ->
    wp (put out bs) (fun out' st' => out' = out ++ bs /\ st' = st) st.
  Proof.
    intros Hi Hc. unfold wp, put. destruct (Z.leb_spec (Z.of_nat (length out + length bs)) (cap st)); [auto|]. intros Hs. specialize (Hc Hs). lia.
  Qed.

  (** The primitives leave the buffer alone. *)
  Definition keeps {A} (m : P A) : Prop := forall st a st', m st = JOk (a, st') -> cap st' = cap st.
  Lemma keeps_bind {A B} (m : P A) (k : A -> P B) : keeps m -> (forall a, keeps (k a)) -> keeps (bind m k).
  Proof.
    intros H1 H2 st b st2 E. unfold bind in E. destruct (m st) as [[a st1]| | | |] eqn:E1; try discriminate.
    rewrite (H2 a st1 b st2 E). exact (H1 st a st1 E1).
  Qed.
  Lemma keeps_ret {A} (a : A) : keeps (ret a).
  Proof. intros st b st' E. injection E as <- <-. reflexivity. Qed.
  Lemma keeps_fail {A} : keeps (@fail A).
  Proof. intros st b st' E. discriminate. Qed.
  Lemma keeps_peek : keeps (peek fbk).
  Proof.
    intros st c st' E. unfold peek in E. destruct (cbuf st); [injection E as <- <-; reflexivity|].
    destruct (inp st); [discriminate|]. destruct (next_uchar fbk _). injection E as <- <-. reflexivity.
  Qed.
  Lemma keeps_incr : keeps (incr fbk).
  Proof. apply keeps_bind; [apply keeps_peek|]. intros c st a st' E. injection E as <- <-. reflexivity. Qed.
  Lemma keeps_match c : keeps (match_c fbk c).
  Proof.
    apply keeps_bind; [apply keeps_peek|]. intros x. destruct (x =? c); [|apply keeps_fail].
    apply keeps_bind; [apply keeps_incr|]. intros _. apply keeps_ret.
  Qed.
  Lemma keeps_hex : keeps (parse_hex fbk).
  Proof.
    apply keeps_bind; [apply keeps_incr|]. intros c. destruct (isdigit c); [apply keeps_ret|]. destruct (_ && _); [apply keeps_ret|].
    destruct (_ && _); [apply keeps_ret|apply keeps_fail].
  Qed.
  Lemma keeps_hex4 : keeps (parse_hex4 fbk).
  Proof. do 4 (apply keeps_bind; [apply keeps_hex|]; intros ?). apply keeps_ret. Qed.
  Lemma keeps_escape : keeps (parse_escape fbk).
  Proof.
    apply keeps_bind; [apply keeps_incr|]. intros c. repeat (destruct (c =? _); [try apply keeps_ret|]); [|apply keeps_fail].
    apply keeps_bind; [apply keeps_hex4|]. intros u. destruct (_ && _); [apply keeps_fail|]. destruct (_ && _); [|apply keeps_ret].
    apply keeps_bind; [apply keeps_match|]. intros _. apply keeps_bind; [apply keeps_match|]. intros _.
    apply keeps_bind; [apply keeps_hex4|]. intros l. destruct (_ || _); [apply keeps_fail|apply keeps_ret].
  Qed.
  Lemma wp_keeps {A} (m : P A) Q st : keeps m -> wp m Q st -> wp m (fun a st' => Q a st' /\ cap st' = cap st) st.
  Proof. intros HK H. unfold wp in *. destruct (m st) as [[a st']| | | |] eqn:E; auto. split; [assumption|]. exact (HK st a st' E). Qed.

  Lemma string_loop_safe f out st : inv st -> (rem st < f)%nat -> well_formed out ->
    Z.of_nat (length out) + 4 * Z.of_nat (rem st) <= 4 * Z.of_nat L -> (small -> Z.of_nat (length out) <= cap st) ->
    wp (string_loop fbk f out) (fun s st' => less 0 st st' /\ well_formed s) st.
  Proof.
    revert out st. induction f as [|f IH]; intros out st Hi Hfu Hwf Hlen Hcap; [lia|]. unfold wp. cbn [string_loop].
    match goal with |- match ?m st with _ => _ end => change (wp m (fun s st' => less 0 st st' /\ well_formed s) st) end.
    eapply wp_seq; [apply grow_safe; [assumption|lia|assumption]|]. cbv beta. intros _ st1 (I1 & R1 & C1).
    eapply wp_seq; [apply (wp_keeps _ _ _ keeps_peek (peek_safe _ ltac:(apply I1)))|]. cbv beta. intros c st2 ((L2 & Ec & Hc) & C2).
    destruct (c =? 34).
    { apply wp_ret. split; [|assumption]. destruct L2. split; [assumption|lia]. }
    destruct (c =? 92).
    - eapply wp_seq; [apply (wp_keeps _ _ _ keeps_incr (incr_safe _ ltac:(apply L2)))|]. cbv beta. intros _ st3 ((L3 & _) & C3).
      eapply wp_seq; [apply (wp_keeps _ _ _ keeps_escape (escape_safe _ ltac:(apply L3)))|]. cbv beta. intros bs st4 ((L4 & Hw & Hb) & C4).
      eapply wp_seq; [apply put_safe; [apply L4|]|].
      { intros Hs. specialize (C1 Hs). lia. }
      cbv beta. intros out' st5 (-> & ->). destruct L2 as [I2 R2], L3 as [I3 R3], L4 as [I4 R4].
      eapply wp_mono; [apply IH; auto|].
      + lia.
      + now apply wf_app.
      + rewrite app_length. lia.
      + intros Hs. specialize (C1 Hs). rewrite app_length. lia.
      + cbv beta. intros s st6 ((I6 & R6) & Hs). split; [split; [assumption|lia]|assumption].
    - eapply wp_seq; [apply (wp_keeps _ _ _ keeps_incr (incr_safe _ ltac:(apply L2)))|]. cbv beta. intros c' st3 ((L3 & Hc') & C3).
      destruct (_ || _); [|apply wp_fail].
      pose proof (u2c_len c') as Hul.
      eapply wp_seq; [apply put_safe; [apply L3|]|].
      { intros Hs. specialize (C1 Hs). lia. }
      cbv beta. intros out' st5 (-> & ->). destruct L2 as [I2 R2], L3 as [I3 R3].
      eapply wp_mono; [apply IH; auto|].
      + lia.
      + apply wf_app; [assumption|now apply wf_char].
      + rewrite app_length. lia.
      + intros Hs. specialize (C1 Hs). rewrite app_length. lia.
      + cbv beta. intros s st6 ((I6 & R6) & Hs). split; [split; [assumption|lia]|assumption].
  Qed.

  Lemma parse_string_safe st : inv st -> wp (parse_string_prim fbk) (fun s st' => less 2 st st' /\ well_formed s) st.
  Proof.
    intros Hi. unfold parse_string_prim. eapply wp_seq; [apply match_safe, Hi|]. cbv beta. intros _ st1 L1.
    eapply (wp_seq (fun st0 => string_loop fbk (length (inp st0) + 2) [] st0) _ (fun s st' => less 0 st1 st' /\ well_formed s)).
    { change (wp (string_loop fbk (length (inp st1) + 2) []) (fun s st' => less 0 st1 st' /\ well_formed s) st1).
      destruct L1 as [I1 R1]. apply string_loop_safe; auto.
      - pose proof (rem_inp st1). lia.
      - apply wf_nil.
      - destruct I1 as (_ & _ & ? & _). cbn [length]. lia.
      - intros Hs. destruct I1 as (_ & _ & _ & H4). specialize (H4 Hs). unfold cap_ok in H4. cbn [length]. lia. }
    cbv beta. intros s st2 (L2 & Hs).
    eapply wp_seq; [apply match_safe, L2|]. cbv beta. intros _ st3 L3. apply wp_ret. split; [|assumption].
    destruct L1, L2, L3. split; [assumption|lia].
  Qed.

  (** ** Numbers *)
  Lemma digit_loop_safe strict f src st : inv st -> (rem st < f)%nat ->
    wp (digit_loop fbk strict f src) (fun _ st' => less 0 st st') st.
  Proof.
    revert src st. induction f as [|f IH]; intros src st Hi Hfu; [lia|]. unfold wp. cbn [digit_loop].
    destruct (_ && _); [now apply less_refl|].
    match goal with |- match ?m st with _ => _ end => change (wp m (fun _ st' => less 0 st st') st) end.
    eapply wp_seq; [apply peek_safe, Hi|]. cbv beta. intros c st1 (L1 & Ec & Hc). destruct (isdigit c); [|now apply wp_ret].
    eapply wp_seq; [apply incr_safe, L1|]. cbv beta. intros _ st2 (L2 & _). destruct L1 as [I1 R1], L2 as [I2 R2].
    eapply wp_mono; [apply IH; [assumption|lia]|]. cbv beta. intros _ st3 [I3 R3]. split; [assumption|lia].
  Qed.
  Lemma digit_run_safe strict src st : inv st -> wp (digit_run fbk strict src) (fun _ st' => less 0 st st') st.
  Proof.
    intros Hi. change (wp (digit_loop fbk strict (length (inp st) + 2) src) (fun _ st' => less 0 st st') st). apply digit_loop_safe; auto.
    pose proof (rem_inp st). lia.
  Qed.
  (** A look-ahead digit is consumed. *)
  Lemma digit_run_first_safe src st c : inv st -> cbuf st = Some c -> isdigit c = true ->
    wp (digit_run fbk false src) (fun _ st' => less 1 st st') st.
  Proof.
    intros Hi Ec Hd. unfold wp, digit_run. replace (length (inp st) + 2)%nat with (S (length (inp st) + 1)) by lia. cbn [digit_loop].
    rewrite Ec. cbn [orb]. rewrite andb_false_r.
    match goal with |- match ?m st with _ => _ end => change (wp m (fun _ st' => less 1 st st') st) end.
    unfold bind at 1. unfold wp at 1. unfold peek at 1. rewrite Ec, Hd.
    match goal with |- match ?m st with _ => _ end => change (wp m (fun _ st' => less 1 st st') st) end.
    eapply wp_seq; [apply (incr_peeked st c Hi Ec)|]. cbv beta. intros _ st2 (_ & I2 & R2).
    eapply wp_mono; [apply digit_loop_safe; [assumption|]|].
    - unfold rem in R2 at 2. rewrite Ec in R2. lia.
    - cbv beta. intros _ st3 [I3 R3]. split; [assumption|lia].
  Qed.

  Definition good_value (v : json) : Prop := holds well_formed v /\ value is_double v.

  Lemma strtod_double s d : strtod s = DOk d -> is_double d.
  Proof.
    unfold strtod. intros E.
    destruct (match s with 45 :: r => (true, r) | _ => (false, s) end) as [neg s1].
    destruct (spanb isdigit s1) as [ip s2] eqn:E1.
    destruct (match s2 with 46 :: r => spanb isdigit r | _ => ([], s2) end) as [fp s3] eqn:E2.
    assert (HF : Forall (fun c => isdigit c = true) (ip ++ fp)).
    { apply Forall_app. split.
      - pose proof (spanb_spec isdigit s1) as (_ & H & _). now rewrite E1 in H.
      - assert (HC : fp = [] \/ exists r, spanb isdigit r = (fp, s3)).
        { destruct s2 as [|c r]; [left; congruence|]. destruct (Z.eq_dec c 46) as [->|Hc]; [right; eauto|left].
          pose proof (no_point (c :: r) (fun r => spanb isdigit r) ([], c :: r)) as HN. cbv beta iota in HN. rewrite HN in E2 by (intros ? ? Eq; injection Eq as <- _; assumption). congruence. }
        destruct HC as [->|(r & E3)]; [constructor|]. pose proof (spanb_spec isdigit r) as (_ & H & _). now rewrite E3 in H. }
    destruct (ip ++ fp) as [|x l] eqn:El.
    - injection E as <-. unfold is_double. cbn [dman dexp]. repeat split; try lia; now vm_compute.
    - apply dec_double_spec in E; [|apply dec_val_bound in HF; lia]. destruct E as ((V & _) & _). exact V.
  Qed.

  Lemma strtoll_range s n : strtoll s = Some n -> - 2 ^ 63 <= n < 2 ^ 63.
  Proof.
    unfold strtoll. destruct (match s with 45 :: r => (true, r) | _ => (false, s) end) as [neg ds]. cbv zeta.
    set (n' := if neg then _ else _). destruct (_ || _) eqn:E; [discriminate|]. intros Eq; injection Eq as <-. lia.
  Qed.

  Lemma parse_number_safe st c : inv st -> cbuf st = Some c -> isdigit c || (c =? 45) = true ->
    wp (parse_number fbk) (fun es st' => less 1 st st' /\ exists v, builds es v /\ good_value v) st.
  Proof.
    intros Hi Ec Hd.
    assert (FIN : forall src (frac : bool) st0 st', less 1 st0 st' ->
      wp (if frac then match strtod src with DOk d => ret [ENum d] | DRange => fail end
          else match strtoll src with Some n => ret [EInt n] | None => fail end)
         (fun es st' => less 1 st0 st' /\ exists v, builds es v /\ good_value v) st').
    { intros src frac st0 st' HL. destruct frac.
      - destruct (strtod src) as [d|] eqn:E; [|apply wp_fail]. apply wp_ret. split; [assumption|]. exists (JFloat d). split; [intros S K I; reflexivity|].
        split; [exact I|]. cbn. eapply strtod_double; eauto.
      - destruct (strtoll src) as [n|] eqn:E; [|apply wp_fail]. apply wp_ret. split; [assumption|]. exists (JInt n). split; [intros S K I; reflexivity|].
        split; [exact I|]. cbn -[Z.pow]. eapply strtoll_range; eauto. }
    unfold parse_number.
    (* sign and integer part consume something *)
    apply wp_bind. unfold wp at 1. unfold peek at 1. rewrite Ec.
    apply wp_bind. eapply (wp_mono _ (fun src st1 => less 1 st st1 \/ (st1 = st /\ isdigit c = true))).
    { destruct (c =? 45) eqn:E45.
      - eapply wp_seq; [apply (incr_peeked st c Hi Ec)|]. cbv beta. intros _ st1 (_ & L1). apply wp_ret. now left.
      - rewrite orb_false_r in Hd. apply wp_ret. now right. }
    cbv beta. intros src st1 HC.
    apply wp_bind. eapply (wp_mono _ (fun _ st2 => less 1 st st2)).
    { destruct HC as [L1|(-> & Hdig)].
      - eapply wp_mono; [apply digit_run_safe, L1|]. cbv beta. intros _ st2 L2. eapply less_trans'; eauto.
      - now apply (digit_run_first_safe src st c Hi Ec). }
    cbv beta. intros src2 st2 L2. clear HC src.
    (* fraction *)
    apply wp_bind. eapply (wp_mono _ (fun _ st3 => less 1 st st3)).
    { unfold wp. destruct (at_end st2); [assumption|].
      match goal with |- match ?m st2 with _ => _ end => change (wp m (fun _ st' => less 1 st st') st2) end.
      eapply wp_seq; [apply peek_safe, L2|]. cbv beta. intros c3 st3 (L3 & _).
      destruct (c3 =? 46).
      - eapply wp_seq; [apply incr_safe, L3|]. cbv beta. intros _ st4 (L4 & _).
        eapply wp_seq; [apply digit_run_safe, L4|]. cbv beta. intros src' st5 L5. apply wp_ret.
        destruct L2, L3, L4, L5. split; [assumption|lia].
      - apply wp_ret. destruct L2, L3. split; [assumption|lia]. }
    cbv beta. intros [src3 frac3] st3 L3.
    (* exponent *)
    apply wp_bind. eapply (wp_mono _ (fun _ st4 => less 1 st st4)).
    { unfold wp. destruct (at_end st3); [assumption|].
      match goal with |- match ?m st3 with _ => _ end => change (wp m (fun _ st' => less 1 st st') st3) end.
      eapply wp_seq; [apply peek_safe, L3|]. cbv beta. intros c4 st4 (L4 & _).
      destruct ((c4 =? 101) || (c4 =? 69)).
      - eapply wp_seq; [apply incr_safe, L4|]. cbv beta. intros _ st5 (L5 & _).
        unfold wp. destruct (at_end st5); [exact I|].
        match goal with |- match ?m st5 with _ => _ end => change (wp m (fun _ st' => less 1 st st') st5) end.
        eapply wp_seq; [apply peek_safe, L5|]. cbv beta. intros d st6 (L6 & _).
        destruct ((d =? 43) || (d =? 45)).
        + eapply wp_seq; [apply incr_safe, L6|]. cbv beta. intros _ st7 (L7 & _). apply wp_ret.
          destruct L3, L4, L5, L6, L7. split; [assumption|lia].
        + apply wp_ret. destruct L3, L4, L5, L6. split; [assumption|lia].
      - apply wp_ret. destruct L3, L4. split; [assumption|lia]. }
    cbv beta. intros [src4 frac4] st4 L4.
    eapply wp_seq; [apply digit_run_safe, L4|]. cbv beta. intros src5 st5 L5. apply FIN.
    destruct L4, L5. split; [assumption|lia].
  Qed.

  (** ** Values *)
  Lemma good_arr l : Forall good_value l -> good_value (JArr l).
  Proof.
    intros H. unfold good_value. cbn [holds value]. induction H as [|x l [Hx1 Hx2] H [IH1 IH2]]; cbn; tauto.
  Qed.
  Lemma assign_keys m k v : incl (map fst (assign m k v)) (k :: map fst m) /\ (NoDup (map fst m) -> NoDup (map fst (assign m k v))).
  Proof.
    induction m as [|[k' v'] m [IH1 IH2]]; cbn [assign map fst].
    - split; [intros x H; exact H|]. intros _. constructor; [intros []|constructor].
    - destruct (list_eq_dec Z.eq_dec k k') as [->|Hne]; cbn [map fst].
      + split; [intros x H; now right|auto].
      + split.
        * intros x [H|H]; [right; now left|]. destruct (IH1 x H) as [->|H']; [now left|right; now right].
        * intros Hn. inversion Hn as [|? ? Hn1 Hn2]; subst. constructor; [|auto]. intros HI. destruct (IH1 k' HI) as [E|E]; [congruence|contradiction].
  Qed.
  Lemma assign_vals m k v x : In x (assign m k v) -> x = (k, v) \/ In x m.
  Proof.
    induction m as [|[k' v'] m IH]; cbn [assign]; [intros [H|[]]; auto|].
    destruct (list_eq_dec Z.eq_dec k k') as [->|]; intros [H|H]; auto; [right; now right|right; now left|].
    destruct (IH H); auto. right; now right.
  Qed.
  Lemma good_obj kvs : Forall (fun kv => well_formed (fst kv) /\ good_value (snd kv)) kvs -> good_value (JObj (object_of kvs)).
  Proof.
    intros H.
    assert (G : forall r acc, Forall (fun kv => well_formed (fst kv) /\ good_value (snd kv)) r ->
      Forall (fun kv => well_formed (fst kv) /\ good_value (snd kv)) acc -> NoDup (map fst acc) ->
      let m := fold_left (fun m kv => assign m (fst kv) (snd kv)) r acc in
      NoDup (map fst m) /\ Forall (fun kv => well_formed (fst kv) /\ good_value (snd kv)) m).
    { induction r as [|[k v] r IH]; intros acc Hr Ha Hn; [split; assumption|]. cbn [fold_left fst snd]. inversion Hr; subst.
      apply IH; auto.
      - apply Forall_forall. intros x Hx. destruct (assign_vals _ _ _ _ Hx) as [->|HI]; [assumption|]. rewrite Forall_forall in Ha. now apply Ha.
      - now apply assign_keys. }
    destruct (G kvs [] H ltac:(constructor) ltac:(constructor)) as [Hn Hg]. fold (object_of kvs) in Hn, Hg.
    unfold good_value. cbn [holds value]. split; [|split; [assumption|]].
    - clear Hn. induction Hg as [|[k x] m [Hk [Hx1 Hx2]] Hg IH]; cbn [fold_right fst snd] in *; [exact I|]. auto.
    - clear Hn. induction Hg as [|[k x] m [Hk [Hx1 Hx2]] Hg IH]; cbn [fold_right fst snd] in *; [exact I|]. auto.
  Qed.

  Definition Qv (st : pst) (es : list ev) (st' : pst) : Prop := less 1 st st' /\ exists v, builds es v /\ good_value v.
  Definition Ql (st : pst) (es : list ev) (st' : pst) : Prop := less 0 st st' /\ exists l, builds_list es l /\ Forall good_value l.
  Definition Qm (st : pst) (es : list ev) (st' : pst) : Prop :=
    less 0 st st' /\ exists kvs, builds_mem es kvs /\ Forall (fun kv => well_formed (fst kv) /\ good_value (snd kv)) kvs.

  Lemma scalar_values_good : good_value JNull /\ (forall b, good_value (JBool b)).
  Proof. unfold good_value. cbn. auto. Qed.

  Lemma parse_safe f : (forall st, inv st -> (2 * rem st + 2 <= f)%nat -> wp (parse_impl fbk f) (Qv st) st) /\
    (forall first st, inv st -> (2 * rem st + 3 <= f)%nat -> wp (obj_loop fbk f first) (Qm st) st) /\
    (forall first st, inv st -> (2 * rem st + 3 <= f)%nat -> wp (arr_loop fbk f first) (Ql st) st).
  Proof.
    induction f as [|f (IHv & IHm & IHl)]; [repeat split; intros; lia|].
    assert (SEP : forall (first : bool) st0 st, inv st -> less 0 st0 st -> wp (if first then ret tt else smatch fbk 44) (fun _ st' => less 0 st0 st') st).
    { intros first st0 st Hi HL. destruct first; [now apply wp_ret|]. eapply wp_mono; [apply smatch_safe, Hi|]. cbv beta. intros _ st' HL'. eapply less_trans'; eauto. lia. }
    split; [|split].
    - intros st Hi Hfu. rewrite parse_impl_S.
      eapply wp_seq; [apply ss_safe, Hi|]. cbv beta. intros _ st1 L1.
      eapply wp_seq; [apply peek_safe, L1|]. cbv beta. intros c st2 (L2 & Ec & _).
      assert (L12 : less 0 st st2) by (eapply less_trans'; eauto).
      destruct (c =? 123).
      { eapply wp_seq; [apply smatch_safe, L2|]. cbv beta. intros _ st3 L3. destruct L12, L3.
        eapply wp_seq; [apply IHm; [assumption|lia]|]. cbv beta. intros es st4 ((I4 & R4) & kvs & Hb & Hg).
        apply wp_ret. split; [split; [assumption|lia]|]. eexists. split; [apply (builds_obj dec0 (fun _ _ _ _ H _ => H)), Hb|]. now apply good_obj. }
      destruct (c =? 91).
      { eapply wp_seq; [apply smatch_safe, L2|]. cbv beta. intros _ st3 L3. destruct L12, L3.
        eapply wp_seq; [apply IHl; [assumption|lia]|]. cbv beta. intros es st4 ((I4 & R4) & l & Hb & Hg).
        apply wp_ret. split; [split; [assumption|lia]|]. eexists. split; [apply builds_arr, Hb|]. now apply good_arr. }
      destruct (isdigit c || (c =? 45)) eqn:Ed.
      { eapply wp_mono; [apply (parse_number_safe st2 c); [apply L2|assumption|assumption]|]. cbv beta. intros es st3 (L3 & Hv).
        split; [|assumption]. destruct L12, L3. split; [assumption|lia]. }
      destruct (c =? 34).
      { eapply wp_seq; [apply parse_string_safe, L2|]. cbv beta. intros s st3 (L3 & Hs). apply wp_ret. destruct L12, L3.
        split; [split; [assumption|lia]|]. exists (JStr s). split; [intros S K I; reflexivity|]. split; cbn; auto. }
      destruct (c =? 102).
      { eapply wp_seq; [apply match_all_safe, L2|]. cbv beta. intros _ st3 L3. apply wp_ret. destruct L12, L3. cbn [length str] in *.
        split; [split; [assumption|lia]|]. exists (JBool false). split; [intros S K I; reflexivity|]. split; cbn; auto. }
      destruct (c =? 110).
      { eapply wp_seq; [apply match_all_safe, L2|]. cbv beta. intros _ st3 L3. apply wp_ret. destruct L12, L3. cbn [length str] in *.
        split; [split; [assumption|lia]|]. exists JNull. split; [intros S K I; reflexivity|]. split; cbn; auto. }
      destruct (c =? 116).
      { eapply wp_seq; [apply match_all_safe, L2|]. cbv beta. intros _ st3 L3. apply wp_ret. destruct L12, L3. cbn [length str] in *.
        split; [split; [assumption|lia]|]. exists (JBool true). split; [intros S K I; reflexivity|]. split; cbn; auto. }
      apply wp_fail.
    - intros first st Hi Hfu. rewrite obj_loop_S.
      eapply wp_seq; [apply speek_safe, Hi|]. cbv beta. intros c st1 (L1 & Ec).
      destruct (c =? 125).
      { eapply wp_seq; [apply smatch_safe, L1|]. cbv beta. intros _ st2 L2. apply wp_ret. destruct L1, L2.
        split; [split; [assumption|lia]|]. exists []. split; [apply builds_mem_nil|constructor]. }
      eapply wp_seq; [apply (SEP first st st1); [apply L1|exact L1]|]. cbv beta. intros _ st2 L2.
      eapply wp_seq; [apply ss_safe, L2|]. cbv beta. intros _ st3 L3.
      eapply wp_seq; [apply parse_string_safe, L3|]. cbv beta. intros k st4 (L4 & Hk).
      eapply wp_seq; [apply smatch_safe, L4|]. cbv beta. intros _ st5 L5. destruct L1, L2, L3, L4, L5.
      eapply wp_seq; [apply IHv; [assumption|lia]|]. cbv beta. intros es st6 ((I6 & R6) & v & Hb & Hg).
      eapply wp_seq; [apply IHm; [assumption|lia]|]. cbv beta. intros es' st7 ((I7 & R7) & kvs & Hb' & Hg').
      apply wp_ret. split; [split; [assumption|lia]|]. exists ((k, v) :: kvs). split; [now apply builds_mem_cons|]. constructor; auto.
    - intros first st Hi Hfu. rewrite arr_loop_S.
      eapply wp_seq; [apply speek_safe, Hi|]. cbv beta. intros c st1 (L1 & Ec).
      destruct (c =? 93).
      { eapply wp_seq; [apply smatch_safe, L1|]. cbv beta. intros _ st2 L2. apply wp_ret. destruct L1, L2.
        split; [split; [assumption|lia]|]. exists []. split; [apply builds_nil|constructor]. }
      eapply wp_seq; [apply (SEP first st st1); [apply L1|exact L1]|]. cbv beta. intros _ st2 L2. destruct L1, L2.
      eapply wp_seq; [apply IHv; [assumption|lia]|]. cbv beta. intros es st6 ((I6 & R6) & v & Hb & Hg).
      eapply wp_seq; [apply IHl; [assumption|lia]|]. cbv beta. intros es' st7 ((I7 & R7) & l & Hb' & Hg').
      apply wp_ret. split; [split; [assumption|lia]|]. exists (v :: l). split; [now apply builds_cons|]. constructor; auto.
  Qed.

  Lemma parse_all_safe st : inv st -> wp (parse fbk) (fun v st' => less 1 st st' /\ good_value v) st.
  Proof.
    intros Hi. unfold parse. apply wp_bind. unfold parse_stream.
    eapply wp_seq; [apply ss_safe, Hi|]. cbv beta. intros _ st1 L1. unfold wp.
    destruct (_ && _); [exact I|].
    match goal with |- match ?m st1 with _ => _ end => pose proof (proj1 (parse_safe (2 * length (inp st1) + 4)) st1) as HP end.
    assert (HW : wp (parse_impl fbk (2 * length (inp st1) + 4)) (Qv st1) st1) by (apply HP; [apply L1|pose proof (rem_inp st1); lia]).
    unfold wp in HW. destruct (parse_impl fbk (2 * length (inp st1) + 4) st1) as [[es st2]| | | |]; auto.
    destruct HW as (L2 & v & Hb & Hg). rewrite Hb. cbn. split; [|assumption]. destruct L1, L2. split; [assumption|lia].
  Qed.
End Safe.

(** ** From a fresh parser *)
Theorem parse_wellformed fbk s v st : (forall r, scalar (fbk r)) -> bytes s -> parse fbk (start s) = JOk (v, st) ->
  holds well_formed v /\ value is_double v.
Proof.
  intros Hf Hs E. pose proof (parse_all_safe fbk Hf (length s) (start s)) as H. unfold wp in H. rewrite E in H. apply H.
  unfold inv, start, rem, cap_ok; cbn. repeat split; auto; try discriminate; try lia; unfold small in *; lia.
Qed.
Theorem parse_total fbk s : (forall r, scalar (fbk r)) -> bytes s -> Z.of_nat (length s) < 2 ^ 28 - 2 ->
  (exists v st, parse fbk (start s) = JOk (v, st)) \/ parse fbk (start s) = JParse \/ parse fbk (start s) = JEnd.
Proof.
  intros Hf Hs HL. pose proof (parse_all_safe fbk Hf (length s) (start s)) as H. unfold wp in H.
  destruct (parse fbk (start s)) as [[v st]| | | |]; eauto.
  - exfalso. apply H; [|unfold small; lia]. unfold inv, start, rem, cap_ok; cbn. repeat split; auto; try discriminate; try lia; unfold small in *; lia.
  - exfalso. apply H. unfold inv, start, rem, cap_ok; cbn. repeat split; auto; try discriminate; try lia; unfold small in *; lia.
Qed.
