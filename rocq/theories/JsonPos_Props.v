(** C105: parse errors of JSON texts name a line and a column. *)
From Verif Require Import Common CommonLemmas Utf8_Model Utf8_Spec Utf8_Proof Double_Spec Double_Proof Json_Model Json_Spec JsonParse_Proof JsonComplete_Proof Json_Props
  JsonPos_Spec JsonPos_Model JsonPos_Proof.
Local Open Scope Z_scope.

Lemma fbk_scalar (fbk : list Z -> Z) : (forall x, fbk x = 0 \/ fbk x = 0xFFFD) -> forall x, scalar (fbk x).
Proof. intros H x. unfold scalar. destruct (H x) as [-> | ->]; lia. Qed.
Lemma utf8_split a b s : utf8 (a ++ b) s -> exists u t, s = u ++ t /\ utf8 a u /\ utf8 b t.
Proof.
  revert s. induction a as [|c a IH]; intros s H; [exists [], s; repeat split; auto; constructor|].
  cbn [app] in H. inversion H as [|? ? e s' Hc H' E1 E2]; subst. destruct (IH _ H') as (u & t & -> & Ha & Hb).
  exists (e ++ u), t. rewrite app_assoc. repeat split; auto. now constructor.
Qed.

(** Counting lines and columns changes nothing else: the outcome is that of C68, C69. *)
Theorem C105_same_outcome : forall fbk s,
  match judge fbk s with
  | Value v => exists st, parse fbk (start s) = JOk (v, st)
  | Bad_at _ _ => parse fbk (start s) = JParse
  | Ended => parse fbk (start s) = JEnd
  | Undefined => parse fbk (start s) = JUB \/ parse fbk (start s) = JFuel
  end.
Proof.
  intros fbk s. unfold judge. change (start s) with (base (qstart s)). rewrite <- qparse_er.
  destruct (qparse fbk (qstart s)); cbn [er]; eauto.
Qed.
Example C105_same_nonvacuous : judge (fun _ => 0) (str "[1]") = Value (JArr [JInt 1]) /\ judge (fun _ => 0) (str "[1") = Ended /\
  judge (fun _ => 0) (str "[1,") = Ended /\ judge (fun _ => 0) (str "{}") = Value (JObj []).
Proof. repeat split; vm_compute; reflexivity. Qed.

(** The error comes with reading some character [c], and the place is that of [c] or of what follows [c].  Unless [c] ends the text, it is there that the text
    goes wrong: whatever else follows, the error is the same, and no RFC 8259 text begins like that; and if the text has no quotation marks the place is that
    of [c]. *)
Theorem C105_place_partial : forall fbk cs s line col, (forall x, fbk x = 0 \/ fbk x = 0xFFFD) -> utf8 cs s -> judge fbk s = Bad_at line col ->
  exists dn c rest u, cs = dn ++ c :: rest /\ utf8 (dn ++ [c]) u /\
    ((line, col) = place dn \/ (line, col) = place (dn ++ [c])) /\
    (rest <> [] ->
      (~ In 34 cs -> (line, col) = place dn) /\
      (forall y, y <> [] -> bytes y -> Z.of_nat (length (u ++ y)) < 2 ^ 28 - 2 -> judge fbk (u ++ y) = Bad_at line col) /\
      (forall w t v r y, y <> [] -> jval dec_value t v -> ws w -> ends_value r -> (r = [] -> ~ bare_exponent t) ->
         bytes (w ++ t ++ r) -> Z.of_nat (length (w ++ t ++ r)) < 2 ^ 28 - 2 -> w ++ t ++ r <> u ++ y)).
Proof.
  intros fbk cs s line col Hf Hu H. pose proof (fbk_scalar _ Hf) as Hs. unfold judge in H.
  destruct (qparse fbk (qstart s)) as [?|st| | |] eqn:E; try discriminate. injection H as <- <-.
  destruct (error_place fbk cs s st Hs Hu E) as (dn & c & rest & Ec & Hr & Hp).
  assert (Ec' : cs = (dn ++ [c]) ++ rest) by (rewrite <- app_assoc; exact Ec). pose proof Hu as Hu'. rewrite Ec' in Hu'.
  destruct (utf8_split _ _ _ Hu') as (u & t & Es & Hdn & Ht). exists dn, c, rest, u. split; [exact Ec|]. split; [exact Hdn|].
  split; [destruct Hp as [[_ Hp]|[_ Hp]]; auto|]. intros Hne.
  assert (Et : t = qin st) by (rewrite <- (utf8_u2s _ _ Ht); exact (utf8_u2s _ _ Hr)).
  assert (Htne : t <> []). { intros ->. inversion Ht as [E0|? ? e ? Hc ? E1 E2]; [congruence|]. inversion Hc; subst; discriminate. }
  assert (L : forall y, y <> [] -> bytes y -> Z.of_nat (length (u ++ y)) < 2 ^ 28 - 2 -> judge fbk (u ++ y) = Bad_at (lineno st) (charno st)).
  { intros y Hy Hby HL. destruct (error_local fbk s st u t (dn ++ [c]) y Hs (utf8_bytes _ _ Hu) E Es Et Hdn Htne Hy Hby HL) as (st' & E' & H1 & H2 & _).
    unfold judge. rewrite E'. congruence. }
  split; [|split; [exact L|]].
  { intros Hq. destruct Hp as [[_ Hp]|[Hb _]]; [exact Hp|]. destruct (error_named fbk cs s st Hs Hu Hq E) as [H|H]; congruence. }
  intros w tx v r y Hy Hj Hw He Hb Hby HL X.
  assert (HLt : Z.of_nat (length tx) < 2 ^ 30 - 8) by (rewrite !app_length in HL; lia).
  destruct (C68_reads_rfc8259_partial fbk tx v w r Hj Hw He Hb HLt) as (stt & Ep & _). rewrite X in Ep, Hby, HL.
  specialize (L y Hy (proj2 (proj1 (Forall_app _ _ _) Hby)) HL). pose proof (C105_same_outcome fbk (u ++ y)) as HS. rewrite L in HS. congruence.
Qed.
Example C105_place_nonvacuous : utf8 (str "[1," ++ [10; 0x3042] ++ str "]") (str "[1," ++ [10; 227; 129; 130] ++ str "]") /\
  judge (fun _ => 0) (str "[1," ++ [10; 227; 129; 130] ++ str "]") = Bad_at 2 1 /\ place (str "[1," ++ [10]) = (2, 1).
Proof.
  split; [|split; vm_compute; reflexivity].
  apply (utf8_cons 91 _ [91]); [constructor; lia|]. apply (utf8_cons 49 _ [49]); [constructor; lia|]. apply (utf8_cons 44 _ [44]); [constructor; lia|].
  apply (utf8_cons 10 _ [10]); [constructor; lia|]. apply (utf8_cons 0x3042 _ [227; 129; 130]); [apply (u3 0x3042); [lia|unfold scalar; lia]|].
  apply (utf8_cons 93 _ [93]); [constructor; lia|constructor].
Qed.

(** With strings the place is not that of the character at fault: here is a wrong escape, the text before which is the beginning of a proper one, and the next
    column is named; for a line feed in a string it is the next line. *)
Theorem C105_place_refuted : exists dn c rest y v, forall fbk,
  judge fbk (dn ++ y) = Value v /\ judge fbk (dn ++ c :: rest) = Bad_at (fst (place (dn ++ [c]))) (snd (place (dn ++ [c]))) /\ place (dn ++ [c]) <> place dn.
Proof.
  exists (34 :: str "a\"), 120, (34 :: []), (110 :: [34]), (JStr [97; 10]). intros fbk. repeat split; try (vm_compute; reflexivity). vm_compute. discriminate.
Qed.
Theorem C105_line_refuted : exists dn rest y v, forall fbk,
  judge fbk (dn ++ y) = Value v /\ judge fbk (dn ++ 10 :: rest) = Bad_at 2 1 /\ place dn = (1, 3).
Proof.
  exists (34 :: str "a"), (34 :: []), [34], (JStr [97]). intros fbk. repeat split; vm_compute; reflexivity.
Qed.

Print Assumptions C105_same_outcome.
Print Assumptions C105_place_partial.
Print Assumptions C105_place_refuted.
Print Assumptions C105_line_refuted.
