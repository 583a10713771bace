(** The counters of the parser follow the text, and an error depends only on what was read. *)
From Verif Require Import Common CommonLemmas NumText_Model Double_Model Utf8_Model Utf8_Spec Utf8_Proof
  Json_Model Json_Spec JsonParse_Proof JsonComplete_Proof JsonPrint_Proof JsonSafe_Proof JsonPos_Spec JsonPos_Model.
Local Open Scope Z_scope.

Definition base (s : qst) : pst := mkP (qin s) (qbuf s) (qcap s).
Definition er {A} (o : qres A) : jres (A * pst) :=
  match o with QOk a s => JOk (a, base s) | QParse _ => JParse | QEnd _ => JEnd | QUB => JUB | QFuel => JFuel end.
(** [ends P o]: [P] holds of the state [o] leaves. *)
Definition ends {A} (P : qst -> Prop) (o : qres A) : Prop :=
  match o with QOk _ s | QParse s | QEnd s => P s | QUB | QFuel => True end.
Definition left {A} (n : nat) (o : qres A) : Prop :=
  match o with QOk _ s | QParse s | QEnd s => (n <= length (qin s))%nat | QUB | QFuel => False end.

Lemma filter_app_len cs c : Z.of_nat (length (filter (Z.eqb newline) (cs ++ [c]))) =
  Z.of_nat (length (filter (Z.eqb newline) cs)) + (if c =? newline then 1 else 0).
Proof. rewrite filter_app, app_length. cbn [filter]. rewrite Z.eqb_sym. destruct (c =? newline); cbn [length]; lia. Qed.
Lemma last_line_app cs c : last_line (cs ++ [c]) = if c =? newline then [] else last_line cs ++ [c].
Proof.
  induction cs as [|d cs IH]; cbn [app last_line]; [cbn; destruct (c =? newline); reflexivity|].
  rewrite existsb_app, IH. cbn [existsb]. rewrite orb_false_r, (Z.eqb_sym newline c).
  destruct (c =? newline) eqn:E; [now rewrite orb_true_r|]. rewrite orb_false_r.
  destruct (existsb _ cs); [reflexivity|]. destruct (d =? newline); reflexivity.
Qed.
Lemma place_snoc cs c : place (cs ++ [c]) = if c =? 10 then (fst (place cs) + 1, 1) else (fst (place cs), snd (place cs) + 1).
Proof.
  unfold place. rewrite filter_app_len, last_line_app. change newline with 10. destruct (c =? 10); cbn [fst snd length]; f_equal; try lia.
  rewrite app_length. cbn [length]. lia.
Qed.

Section Follow.
  Context (fbk : list Z -> Z) (T : list Z) (r r' : list Z).

  (** [Inv s]: the state is behind the characters [dn] of the whole text [T]. *)
  Definition Inv (s : qst) : Prop := exists dn rest, utf8 rest (qin s) /\ (lineno s, charno s) = place dn /\
    T = dn ++ match qbuf s with Some c => c :: rest | None => rest end.
  (** [near s1 s2]: the same state but for the tails [r] and [r'] of what is unread. *)
  Definition near (s1 s2 : qst) : Prop := exists cs i, utf8 cs i /\ qin s1 = i ++ r /\ qin s2 = i ++ r' /\
    qbuf s1 = qbuf s2 /\ qcap s1 = qcap s2 /\ lineno s1 = lineno s2 /\ charno s1 = charno s2.
  Definition alike {A} (o1 o2 : qres A) : Prop :=
    match o1, o2 with
    | QOk a s1, QOk b s2 => a = b /\ near s1 s2
    | QParse s1, QParse s2 | QEnd s1, QEnd s2 => near s1 s2
    | _, _ => False
    end.

  Record G {A} (q q' : Q A) (p : P A) : Prop := {
    g_er : forall s, er (q s) = p (base s);
    g_mono : forall s, ends (fun t => (length (qin t) <= length (qin s))%nat) (q s);
    g_inv : forall s, Inv s -> ends Inv (q s);
    g_near : forall s1 s2, r <> [] -> r' <> [] -> near s1 s2 -> q s1 <> QFuel -> q' s2 <> QFuel ->
             left (length r) (q s1) -> alike (q s1) (q' s2) }.

  Lemma G_ret {A} (a : A) : G (qret a) (qret a) (ret a).
  Proof. split; cbn; auto. Qed.
  Lemma G_error {A} : G (@error A) error fail.
  Proof. split; cbn; auto. Qed.
  Lemma G_fuel {A} q' : G (fun _ => @QFuel A) q' (fun _ => JFuel).
  Proof. split; cbn; auto. Qed.
  Lemma G_end {A} : G (fun st => @QEnd A st) (fun st => QEnd st) (fun _ => JEnd).
  Proof. split; cbn; auto. Qed.
  Lemma G_bind {A B} (m m' : Q A) p (k k' : A -> Q B) kp : G m m' p -> (forall a, G (k a) (k' a) (kp a)) ->
    G (qbind m k) (qbind m' k') (bind p kp).
  Proof.
    intros [E M I N] HK. split.
    - intros s. unfold qbind, bind. rewrite <- E. destruct (m s) as [a t|t|t| |]; cbn [er]; auto. apply HK.
    - intros s. unfold qbind. specialize (M s). destruct (m s) as [a t|t|t| |]; cbn [ends] in *; auto.
      pose proof (g_mono _ _ _ (HK a) t) as H. destruct (k a t); cbn [ends] in *; auto; lia.
    - intros s Hs. unfold qbind. specialize (I s Hs). destruct (m s) as [a t|t|t| |]; cbn [ends] in *; auto. now apply HK.
    - intros s1 s2 Hr Hr' Hn F1 F2 HL. unfold qbind in *. specialize (N s1 s2 Hr Hr' Hn).
      destruct (m s1) as [a t|t|t| |] eqn:E1; cbn [left] in HL; try contradiction.
      + assert (H : alike (QOk a t) (m' s2)).
        { apply N; [discriminate|intros X; now rewrite X in F2|]. cbn [left].
          pose proof (g_mono _ _ _ (HK a) t) as H. destruct (k a t); cbn [ends left] in *; try contradiction; lia. }
        destruct (m' s2) as [a' t'|t'|t'| |]; cbn [alike] in H; try contradiction. destruct H as [<- H]. now apply HK.
      + assert (H : alike (QParse t : qres A) (m' s2)) by (apply N; [discriminate|intros X; now rewrite X in F2|exact HL]).
        destruct (m' s2) as [a' t'|t'|t'| |]; cbn [alike] in H; try contradiction. exact H.
      + assert (H : alike (QEnd t : qres A) (m' s2)) by (apply N; [discriminate|intros X; now rewrite X in F2|exact HL]).
        destruct (m' s2) as [a' t'|t'|t'| |]; cbn [alike] in H; try contradiction. exact H.
  Qed.
  Lemma G_test {A} (t : qst -> bool) (pt : pst -> bool) (a a' b b' : Q A) pa pb :
    (forall s, t s = pt (base s)) -> (forall s1 s2, r <> [] -> r' <> [] -> near s1 s2 -> t s1 = t s2) ->
    G a a' pa -> G b b' pb ->
    G (fun s => if t s then a s else b s) (fun s => if t s then a' s else b' s) (fun s => if pt s then pa s else pb s).
  Proof.
    intros Et Nt [E M I N] [E2 M2 I2 N2]. split.
    - intros s. rewrite <- Et. destruct (t s); auto.
    - intros s. destruct (t s); auto.
    - intros s Hs. destruct (t s); auto.
    - intros s1 s2 Hr Hr' Hn. rewrite <- (Nt s1 s2 Hr Hr' Hn). destruct (t s1); auto.
  Qed.
  Lemma G_run {A} (L : nat -> Q A) PL (n : qst -> nat) (pn : pst -> nat) : (forall s, n s = pn (base s)) ->
    (forall f f', G (L f) (L f') (PL f)) -> G (fun s => L (n s) s) (fun s => L (n s) s) (fun s => PL (pn s) s).
  Proof.
    intros En H. split.
    - intros s. rewrite <- En. apply (H (n s) 0%nat).
    - intros s. apply (H (n s) 0%nat).
    - intros s. apply (H (n s) 0%nat).
    - intros s1 s2. apply (H (n s1) (n s2)).
  Qed.
  Lemma G_if {A} (b : bool) (x x' y y' : Q A) px py : G x x' px -> G y y' py ->
    G (if b then x else y) (if b then x' else y') (if b then px else py).
  Proof. destruct b; auto. Qed.

  Lemma near_end s1 s2 : r <> [] -> r' <> [] -> near s1 s2 -> qend s1 = qend s2.
  Proof.
    intros Hr Hr' (cs & i & _ & E1 & E2 & _). unfold qend. rewrite E1, E2. destruct i; [|reflexivity].
    destruct r; [congruence|]. destruct r'; [congruence|reflexivity].
  Qed.
  Lemma near_buf s1 s2 : near s1 s2 -> qbuf s1 = qbuf s2.
  Proof. intros (cs & i & _ & _ & _ & E & _). exact E. Qed.
  Lemma base_end s : qend s = at_end (base s).
  Proof. reflexivity. Qed.

  Lemma G_peek : G (qpeek fbk) (qpeek fbk) (peek fbk).
  Proof.
    split.
    - intros s. unfold qpeek, peek, base. cbn [inp cbuf cap]. destruct (qbuf s) eqn:E; cbn [er base]; [unfold base; now rewrite E|].
      destruct (qin s) as [|b l]; [reflexivity|]. destruct (next_uchar fbk (b :: l)). reflexivity.
    - intros s. unfold qpeek. destruct (qbuf s); cbn [ends]; [lia|].
      destruct (qin s) as [|b l] eqn:Ei; [cbn [ends]; rewrite Ei; lia|].
      destruct (next_uchar fbk (b :: l)) as [c t] eqn:En. cbn [ends qin].
      pose proof (rest_shorter b l) as H. unfold next_uchar in En.
      destruct (chars_to_uchar_impl (b :: l)); injection En as <- <-; cbn [rest_of] in H; lia.
    - intros s (dn & rest & Hu & Hp & HT). unfold qpeek. destruct (qbuf s) as [c|] eqn:E; cbn [ends].
      { exists dn, rest. rewrite E. auto. }
      destruct (qin s) as [|b l] eqn:Ei; [cbn [ends]; exists dn, rest; rewrite E, Ei; auto|].
      inversion Hu as [|c cs e l' Hc Hu' E1 E2]; subst; [].
      unfold next_uchar. rewrite (decode_encoded _ _ _ Hc). cbn [ends]. exists dn, cs. cbn [qin qbuf lineno charno]. auto.
    - intros s1 s2 Hr Hr' (cs & i & Hu & E1 & E2 & Eb & Ec & El & Ech) F1 F2 HL. unfold qpeek in *. rewrite <- Eb in *.
      destruct (qbuf s1) as [c|] eqn:Ebb.
      { cbn [alike]. split; [reflexivity|]. exists cs, i. rewrite Ebb, <- Eb. auto 10. }
      destruct Hu as [|c cs e l Hc Hu].
      + cbn [app] in E1. rewrite E1 in HL. destruct r as [|b l] eqn:Er; [congruence|].
        destruct (next_uchar fbk (b :: l)) as [c t] eqn:En. cbn [left qin] in HL.
        pose proof (rest_shorter b l) as H. unfold next_uchar in En.
        destruct (chars_to_uchar_impl (b :: l)); injection En as <- <-; cbn [rest_of] in H; lia.
      + rewrite E1, E2. rewrite <- !app_assoc.
        assert (HB : exists b e', e = b :: e') by (inversion Hc; eauto). destruct HB as (b & e' & ->). cbn [app].
        unfold next_uchar. change (b :: e' ++ l ++ r) with ((b :: e') ++ l ++ r). change (b :: e' ++ l ++ r') with ((b :: e') ++ l ++ r').
        rewrite !(decode_encoded _ _ _ Hc). cbn [alike]. split; [reflexivity|]. exists cs, l. cbn [qin qbuf qcap lineno charno]. auto 10.
  Qed.
  Lemma G_incr : G (qincr fbk) (qincr fbk) (incr fbk).
  Proof.
    (* peek, then the step behind c *)
    pose proof G_peek as [E M I N].
    assert (B : forall s c t, qpeek fbk s = QOk c t -> qbuf t = Some c).
    { intros s c t H. unfold qpeek in H. destruct (qbuf s) eqn:Eb; [injection H as <- <-; exact Eb|].
      destruct (qin s); [discriminate|]. destruct (next_uchar _ _). injection H as <- <-. reflexivity. }
    split.
    - intros s. unfold qincr, incr, qbind, bind. rewrite <- E. destruct (qpeek fbk s) as [c t|t|t| |]; cbn [er]; auto.
      destruct (c =? 10); reflexivity.
    - intros s. unfold qincr, qbind. specialize (M s). destruct (qpeek fbk s) as [c t|t|t| |]; cbn [ends] in *; auto.
      destruct (c =? 10); exact M.
    - intros s Hs. unfold qincr, qbind. specialize (I s Hs). destruct (qpeek fbk s) as [c t|t|t| |] eqn:Ep; cbn [ends] in *; auto.
      destruct I as (dn & rest & Hu & Hp & HT). rewrite (B _ _ _ Ep) in HT. exists (dn ++ [c]), rest.
      rewrite place_snoc, <- Hp, <- app_assoc. destruct (c =? 10); cbn [qin qbuf lineno charno fst snd app]; auto.
    - intros s1 s2 Hr Hr' Hn F1 F2 HL. unfold qincr, qbind in *. specialize (N s1 s2 Hr Hr' Hn).
      destruct (qpeek fbk s1) as [c t|t|t| |] eqn:E1; cbn [left] in HL; try contradiction.
      + assert (H : alike (QOk c t) (qpeek fbk s2)).
        { apply N; [discriminate|intros X; now rewrite X in F2|]. cbn [left]. destruct (c =? 10); exact HL. }
        destruct (qpeek fbk s2) as [a' t'|t'|t'| |]; cbn [alike] in H; try contradiction.
        destruct H as [<- (cs & i & Hu & H1 & H2 & Hb & Hc & Hl & Hch)]. cbn [alike]. split; [reflexivity|].
        exists cs, i. destruct (c =? 10); cbn [qin qbuf qcap lineno charno]; rewrite ?Hl, ?Hch; auto 10.
      + assert (H : alike (QParse t : qres Z) (qpeek fbk s2)) by (apply N; [discriminate|intros X; now rewrite X in F2|exact HL]).
        destruct (qpeek fbk s2) as [a' t'|t'|t'| |]; cbn [alike] in H; try contradiction. exact H.
      + assert (H : alike (QEnd t : qres Z) (qpeek fbk s2)) by (apply N; [discriminate|intros X; now rewrite X in F2|exact HL]).
        destruct (qpeek fbk s2) as [a' t'|t'|t'| |]; cbn [alike] in H; try contradiction. exact H.
  Qed.
  Lemma G_grow n : G (qgrow n) (qgrow n) (grow n).
  Proof.
    split.
    - intros s. unfold qgrow, grow, base. cbn [cap inp cbuf]. destruct (_ <=? _); [destruct (_ <=? _)|]; reflexivity.
    - intros s. unfold qgrow. destruct (_ <=? _); [destruct (_ <=? _)|]; cbn; lia.
    - intros s (dn & rest & H). unfold qgrow. destruct (_ <=? _); [destruct (_ <=? _)|]; cbn [ends]; auto; exists dn, rest; auto.
    - intros s1 s2 Hr Hr' (cs & i & Hu & H1 & H2 & Hb & Hc & Hl & Hch) _ _ HL. unfold qgrow in *. rewrite <- Hc.
      destruct (_ <=? _); [destruct (_ <=? _)|]; cbn [alike left] in *; try contradiction; (split; [reflexivity|]); exists cs, i;
        cbn [qin qbuf qcap lineno charno]; rewrite <- ?Hc; auto 10.
  Qed.
  Lemma G_put o b : G (qput o b) (qput o b) (put o b).
  Proof.
    split.
    - intros s. unfold qput, put, base. cbn [cap]. destruct (_ <=? _); reflexivity.
    - intros s. unfold qput. destruct (_ <=? _); cbn; lia.
    - intros s H. unfold qput. destruct (_ <=? _); cbn; auto.
    - intros s1 s2 Hr Hr' Hn _ _ HL. unfold qput in *. destruct Hn as (cs & i & Hu & H1 & H2 & Hb & Hc & Hl & Hch). rewrite <- Hc.
      destruct (_ <=? _); cbn [alike left] in *; try contradiction. split; [reflexivity|]. exists cs, i. auto 10.
  Qed.

  Ltac g := repeat first
    [ apply G_ret | apply G_error | apply G_peek | apply G_incr | apply G_grow | apply G_put
    | apply G_if | apply G_bind; [|intros ?] ].

  Lemma G_fuel_r {A} (q q' : Q A) p : G q q' p -> G q (fun _ => QFuel) p.
  Proof. intros [E M I N]. split; auto. congruence. Qed.
  (** Loops: the fuel of the two runs may differ. *)
  Lemma G_loop {A} (L : nat -> Q A) PL : (forall s, L 0%nat s = QFuel) -> (forall s, PL 0%nat s = JFuel) ->
    (forall f, (forall f', G (L f) (L f') (PL f)) -> forall f', G (L (S f)) (L (S f')) (PL (S f))) ->
    forall f f', G (L f) (L f') (PL f).
  Proof.
    intros H0 HP HS. induction f as [|f IH]; intros f'.
    - split; intros; rewrite ?H0, ?HP; cbn; auto.
    - destruct f' as [|f']; [|now apply HS]. pose proof (G_fuel_r _ _ _ (HS f IH 0%nat)) as [E M I N]. split; auto.
      intros. now rewrite H0 in *.
  Qed.
  Lemma G_ss : G (qss fbk) (qss fbk) (ss fbk).
  Proof.
    unfold qss, ss. apply (G_run _ _ (fun s => length (qin s) + 2)%nat (fun s => length (inp s) + 2)%nat); [reflexivity|].
    apply G_loop; [reflexivity..|]. intros f IH f'. cbn [qss_loop ss_loop].
    apply (G_test qend at_end); [reflexivity|exact near_end|apply (G_ret tt)|]. g. apply IH.
  Qed.
  Lemma G_match c : G (qmatch fbk c) (qmatch fbk c) (match_c fbk c).
  Proof. unfold qmatch, match_c. g. Qed.
  Lemma G_speek : G (qspeek fbk) (qspeek fbk) (speek fbk).
  Proof. unfold qspeek, speek. g. apply G_ss. Qed.
  Lemma G_smatch c : G (qsmatch fbk c) (qsmatch fbk c) (smatch fbk c).
  Proof. apply G_bind; [apply G_ss|intros _; apply G_match]. Qed.
  Lemma G_hex : G (qhex fbk) (qhex fbk) (parse_hex fbk).
  Proof. unfold qhex, parse_hex. g. Qed.
  Lemma G_hex4 : G (qhex4 fbk) (qhex4 fbk) (parse_hex4 fbk).
  Proof. unfold qhex4, parse_hex4. g; apply G_hex. Qed.
  Lemma G_escape : G (qescape fbk) (qescape fbk) (parse_escape fbk).
  Proof. unfold qescape, parse_escape. g; try apply G_hex4; apply G_match. Qed.
  Lemma G_string_run : G (qstring_run fbk) (qstring_run fbk) (fun st => string_loop fbk (length (inp st) + 2) [] st).
  Proof.
    unfold qstring_run. apply (G_run (fun f => qstring_loop fbk f []) (fun f => string_loop fbk f []) (fun s => length (qin s) + 2)%nat (fun s => length (inp s) + 2)%nat); [reflexivity|].
    intros f f'. generalize (@nil Z). revert f f'.
    induction f as [|f IH]; intros f' o; [apply G_fuel|].
    assert (HS : forall f', G (qstring_loop fbk (S f) o) (qstring_loop fbk (S f') o) (string_loop fbk (S f) o)).
    { clear f'. intros f'. cbn [qstring_loop string_loop]. g; try apply G_escape; apply IH. }
    destruct f'; [exact (G_fuel_r _ _ _ (HS 0%nat))|apply HS].
  Qed.
  Lemma G_string : G (qstring fbk) (qstring fbk) (parse_string_prim fbk).
  Proof. unfold qstring, parse_string_prim. g; try apply G_match. apply G_string_run. Qed.
  Lemma G_digit_run b src : G (qdigit_run fbk b src) (qdigit_run fbk b src) (digit_run fbk b src).
  Proof.
    unfold qdigit_run, digit_run. apply (G_run (fun f => qdigit_loop fbk b f src) (fun f => digit_loop fbk b f src) (fun s => length (qin s) + 2)%nat (fun s => length (inp s) + 2)%nat); [reflexivity|].
    intros f f'. revert f f' src.
    induction f as [|f IH]; intros f' o; [apply G_fuel|].
    assert (HS : forall f', G (qdigit_loop fbk b (S f) o) (qdigit_loop fbk b (S f') o) (digit_loop fbk b (S f) o)).
    { clear f'. intros f'. cbn [qdigit_loop digit_loop].
      apply (G_test (fun st => qend st && (b || match qbuf st with None => true | _ => false end)) (fun st => at_end st && (b || match cbuf st with None => true | _ => false end)));
        [reflexivity| |apply (G_ret o)|g; apply IH].
      intros s1 s2 Hr Hr' Hn. now rewrite (near_end _ _ Hr Hr' Hn), (near_buf _ _ Hn). }
    destruct f'; [exact (G_fuel_r _ _ _ (HS 0%nat))|apply HS].
  Qed.
  Lemma G_number : G (qnumber fbk) (qnumber fbk) (parse_number fbk).
  Proof.
    unfold qnumber, parse_number. apply G_bind; [apply G_peek|intros c]. apply G_bind; [g|intros src].
    apply G_bind; [apply G_digit_run|intros src1]. apply G_bind.
    { unfold qfrac. apply (G_test qend at_end); [reflexivity|exact near_end|apply (G_ret (src1, false))|]. g. apply G_digit_run. }
    intros [src2 fr]. cbn [fst snd]. apply G_bind.
    { unfold qexp. apply (G_test qend at_end); [reflexivity|exact near_end|apply (G_ret (src2, fr))|]. g.
      unfold qexp_sign. apply (G_test qend at_end); [reflexivity|exact near_end|apply G_error|]. g. }
    intros [src3 fr']. cbn [fst snd]. apply G_bind; [apply G_digit_run|intros src4]. destruct fr'.
    - destruct (strtod src4); g.
    - destruct (strtoll src4); g.
  Qed.
  Lemma G_match_all s : G (qmatch_all fbk s) (qmatch_all fbk s) (match_all fbk s).
  Proof. induction s as [|c s IH]; cbn [qmatch_all match_all]; [apply G_ret|]. apply G_bind; [apply G_match|intros _; apply IH]. Qed.

  Lemma qparse_impl_S f : qparse_impl fbk (S f) =
        (do_ qss fbk ; do c <- qpeek fbk ;
        if c =? 123 then do_ qsmatch fbk 123 ; do es <- qobj_loop fbk f true ; qret (EObjS :: es ++ [EObjE])
        else if c =? 91 then do_ qsmatch fbk 91 ; do es <- qarr_loop fbk f true ; qret (EArrS :: es ++ [EArrE])
        else if isdigit c || (c =? 45) then qnumber fbk
        else if c =? 34 then do s <- qstring fbk ; qret [EStr s]
        else if c =? 102 then do_ qmatch_all fbk (str "false") ; qret [EBool false]
        else if c =? 110 then do_ qmatch_all fbk (str "null") ; qret [ENull]
        else if c =? 116 then do_ qmatch_all fbk (str "true") ; qret [EBool true]
        else error).
  Proof. reflexivity. Qed.
  Lemma qobj_loop_S f first : qobj_loop fbk (S f) first =
        (do c <- qspeek fbk ;
        if c =? 125 then do_ qsmatch fbk 125 ; qret []
        else do_ (if first then qret tt else qsmatch fbk 44) ;
             do_ qss fbk ; do k <- qstring fbk ; do_ qsmatch fbk 58 ;
             do es <- qparse_impl fbk f ; do rest <- qobj_loop fbk f false ; qret (EKey k :: es ++ rest)).
  Proof. reflexivity. Qed.
  Lemma qarr_loop_S f first : qarr_loop fbk (S f) first =
        (do c <- qspeek fbk ;
        if c =? 93 then do_ qsmatch fbk 93 ; qret []
        else do_ (if first then qret tt else qsmatch fbk 44) ;
             do es <- qparse_impl fbk f ; do rest <- qarr_loop fbk f false ; qret (es ++ rest)).
  Proof. reflexivity. Qed.

  Ltac gg := repeat first
    [ apply G_ret | apply G_error | apply G_ss | apply G_smatch | apply G_speek | apply G_peek | apply G_string | apply G_number | apply G_match_all
    | apply G_if | apply G_bind; [|intros ?] ].
  Lemma G_impl : forall f, (forall f', G (qparse_impl fbk f) (qparse_impl fbk f') (parse_impl fbk f)) /\
    (forall b f', G (qobj_loop fbk f b) (qobj_loop fbk f' b) (obj_loop fbk f b)) /\
    (forall b f', G (qarr_loop fbk f b) (qarr_loop fbk f' b) (arr_loop fbk f b)).
  Proof.
    induction f as [|f (IHv & IHm & IHl)]; [split; [|split]; intros; apply G_fuel|].
    assert (V : forall f', G (qparse_impl fbk (S f)) (qparse_impl fbk (S f')) (parse_impl fbk (S f))).
    { intros f'. rewrite !qparse_impl_S, parse_impl_S. gg; auto. }
    assert (M : forall b f', G (qobj_loop fbk (S f) b) (qobj_loop fbk (S f') b) (obj_loop fbk (S f) b)).
    { intros b f'. rewrite !qobj_loop_S, obj_loop_S. gg; auto. }
    assert (L : forall b f', G (qarr_loop fbk (S f) b) (qarr_loop fbk (S f') b) (arr_loop fbk (S f) b)).
    { intros b f'. rewrite !qarr_loop_S, arr_loop_S. gg; auto. }
    split; [|split].
    - intros [|f']; [exact (G_fuel_r _ _ _ (V 0%nat))|apply V].
    - intros b [|f']; [exact (G_fuel_r _ _ _ (M b 0%nat))|apply M].
    - intros b [|f']; [exact (G_fuel_r _ _ _ (L b 0%nat))|apply L].
  Qed.
  Lemma G_stream : G (qparse_stream fbk) (qparse_stream fbk) (parse_stream fbk).
  Proof.
    unfold qparse_stream, parse_stream. apply G_bind; [apply G_ss|intros _]. unfold qimpl_run.
    apply (G_test (fun st => qend st && match qbuf st with None => true | _ => false end) (fun st => at_end st && match cbuf st with None => true | _ => false end));
      [reflexivity| |apply G_end|].
    - intros s1 s2 Hr Hr' Hn. now rewrite (near_end _ _ Hr Hr' Hn), (near_buf _ _ Hn).
    - apply (G_run (qparse_impl fbk) (parse_impl fbk) (fun s => 2 * length (qin s) + 4)%nat (fun s => 2 * length (inp s) + 4)%nat); [reflexivity|].
      intros f f'. apply G_impl.
  Qed.
End Follow.

(** ** Whole texts *)
Lemma qparse_er fbk s : er (qparse fbk s) = parse fbk (base s).
Proof.
  unfold qparse, parse, qbind, bind. rewrite <- (g_er _ _ _ _ _ _ (G_stream fbk [] [] [])).
  destruct (qparse_stream fbk s) as [es t|t|t| |]; cbn [er]; try reflexivity. unfold qget.
  destruct (bsteps _ es) as [b| | |]; try reflexivity. destruct (stk b) as [|v [|]]; reflexivity.
Qed.

(** The builder never fails: every error is one of the parser. *)
Lemma qparse_error fbk s st : (forall x, scalar (fbk x)) -> bytes s -> qparse fbk (qstart s) = QParse st -> qparse_stream fbk (qstart s) = QParse st.
Proof.
  intros Hf Hs H. unfold qparse, qbind in H. pose proof (g_er _ _ _ _ _ _ (G_stream fbk [] [] []) (qstart s)) as E.
  destruct (qparse_stream fbk (qstart s)) as [es t|t|t| |]; try discriminate; [|congruence].
  exfalso. cbn [er] in E.
  assert (W : wp (length s) (parse_stream fbk) (fun es _ => exists v, builds es v) (start s)).
  { unfold parse_stream. assert (Hi : inv (length s) (start s)).
    { unfold inv, start, rem, cap_ok; cbn. repeat split; auto; try discriminate; try lia; unfold small in *; lia. }
    eapply wp_seq; [apply ss_safe; [exact Hf|exact Hi]|]. cbv beta. intros _ st1 L1. unfold wp.
    destruct (_ && _); [exact I|].
    pose proof (proj1 (parse_safe fbk Hf (length s) (2 * length (inp st1) + 4)) st1 (proj1 L1)) as HP.
    assert (HW : wp (length s) (parse_impl fbk (2 * length (inp st1) + 4)) (Qv (length s) st1) st1) by (apply HP; pose proof (rem_inp st1); lia).
    unfold wp in HW. destruct (parse_impl fbk _ st1) as [[es' st2]| | | |]; auto. destruct HW as (_ & v & Hb & _). eauto. }
  unfold wp in W. change (start s) with (base (qstart s)) in W. rewrite <- E in W. destruct W as (v & Hb).
  unfold qget in H. rewrite Hb in H. cbn in H. discriminate.
Qed.

(** What is unread at the error is the text behind some character. *)
Lemma error_place fbk T s st : (forall x, scalar (fbk x)) -> utf8 T s -> qparse fbk (qstart s) = QParse st ->
  exists dn c rest, T = dn ++ c :: rest /\ utf8 rest (qin st) /\
    ((qbuf st = Some c /\ (lineno st, charno st) = place dn) \/ (qbuf st = None /\ (lineno st, charno st) = place (dn ++ [c]))).
Proof.
  intros Hf HT H. apply qparse_error in H; [|exact Hf|exact (utf8_bytes _ _ HT)].
  pose proof (g_inv _ _ _ _ _ _ (G_stream fbk T [] []) (qstart s)) as HI.
  assert (HS : Inv T (qstart s)) by (exists [], T; cbn; auto). specialize (HI HS). rewrite H in HI. cbn [ends] in HI.
  destruct HI as (dn & rest & Hu & Hp & ET). destruct (qbuf st) as [c|] eqn:Eb.
  - exists dn, c, rest. auto.
  - destruct dn as [|d dn] using rev_ind.
    + cbn [app] in ET. subst rest. exfalso. assert (Es : qin st = s) by (rewrite <- (utf8_u2s _ _ Hu); exact (utf8_u2s _ _ HT)).
      destruct s as [|b l]; [discriminate H|].
      pose proof (g_near _ _ _ _ _ _ (G_stream fbk T (b :: l) (str "[]")) (qstart (b :: l)) (qstart (str "[]"))) as N.
      rewrite H in N. cbn [left] in N. rewrite Es in N.
      assert (E2 : exists a t, qparse_stream fbk (qstart (str "[]")) = QOk a t) by (do 2 eexists; vm_compute; reflexivity).
      destruct E2 as (a & t & E2). rewrite E2 in N. cbn [alike] in N. apply N; try discriminate; [|lia].
      exists [], []. cbn. repeat split; auto. constructor.
    + exists dn, d, rest. rewrite <- app_assoc in ET. cbn [app] in ET. auto.
Qed.

(** An error depends only on what was read. *)
Lemma error_local fbk s st u r x y : (forall x, scalar (fbk x)) -> bytes s -> qparse fbk (qstart s) = QParse st ->
  s = u ++ r -> r = qin st -> utf8 x u -> r <> [] -> y <> [] -> bytes y -> Z.of_nat (length (u ++ y)) < 2 ^ 28 - 2 ->
  exists st', qparse fbk (qstart (u ++ y)) = QParse st' /\ lineno st' = lineno st /\ charno st' = charno st /\ qin st' = y.
Proof.
  intros Hf Hs H Es Er Hx Hr Hy Hby HL. apply qparse_error in H; [|exact Hf|exact Hs].
  pose proof (g_near _ _ _ _ _ _ (G_stream fbk [] r y) (qstart s) (qstart (u ++ y)) Hr Hy) as N.
  assert (HN : near r y (qstart s) (qstart (u ++ y))) by (exists x, u; cbn; auto 10).
  specialize (N HN). rewrite H in N.
  assert (Hb : bytes (u ++ y)) by (apply Forall_app; split; [exact (utf8_bytes _ _ Hx)|exact Hby]).
  assert (HF : qparse_stream fbk (qstart (u ++ y)) <> QFuel).
  { intros X. pose proof (parse_total fbk (u ++ y) Hf Hb HL) as PT. change (start (u ++ y)) with (base (qstart (u ++ y))) in PT.
    rewrite <- qparse_er in PT. unfold qparse, qbind in PT. rewrite X in PT. cbn [er] in PT. destruct PT as [(?&?&?)|[?|?]]; discriminate. }
  assert (HA : alike r y (QParse st : qres (list ev)) (qparse_stream fbk (qstart (u ++ y)))).
  { apply N; [discriminate|exact HF|]. cbn [left]. now rewrite Er. }
  destruct (qparse_stream fbk (qstart (u ++ y))) as [a t|t|t| |] eqn:E; cbn [alike] in HA; try contradiction.
  exists t. unfold qparse, qbind. rewrite E. destruct HA as (cs & i & Hu & H1 & H2 & _ & _ & H3 & H4).
  assert (Ei : i = []). { destruct i; [reflexivity|]. exfalso. rewrite <- Er in H1. apply (f_equal (@length Z)) in H1. cbn in H1. rewrite app_length in H1. lia. }
  subst i. auto.
Qed.

(** ** Texts without quotation marks: the error names the character *)
Section Quotes.
  Context (fbk : list Z -> Z).
  Definition noq (s : qst) : Prop := (exists rest, utf8 rest (qin s) /\ ~ In 34 rest) /\ qbuf s <> Some 34.
  Definition named (s : qst) : Prop := qbuf s <> None \/ qin s = [].
  Definition W {A} (q : Q A) : Prop := forall s, noq s -> match q s with QOk _ t => noq t | QParse t => named t | _ => True end.
  Definition WN {A} (q : Q A) : Prop := forall s, noq s -> match q s with QOk _ t => noq t /\ named t | QParse t => named t | _ => True end.

  Lemma W_ret {A} (a : A) : W (qret a).
  Proof. intros s H. exact H. Qed.
  Lemma W_bind {A B} (m : Q A) (k : A -> Q B) : W m -> (forall a, W (k a)) -> W (qbind m k).
  Proof. intros Hm Hk s H. unfold qbind. specialize (Hm s H). destruct (m s); auto. now apply Hk. Qed.
  Lemma W_if {A} (b : bool) (x y : Q A) : W x -> W y -> W (if b then x else y).
  Proof. now destruct b. Qed.
  Lemma peek_noq s : noq s -> match qpeek fbk s with QOk c t => noq t /\ qbuf t = Some c /\ c <> 34 | QEnd _ => True | _ => False end.
  Proof.
    intros [(rest & Hu & Hq) Hb]. unfold qpeek. destruct (qbuf s) as [c|] eqn:E.
    { split; [|split; [auto|congruence]]. split; [eauto|congruence]. }
    destruct (qin s) as [|b l] eqn:Ei; [exact I|]. inversion Hu as [|c cs e l' Hc Hu' E1 E2]; subst; [].
    unfold next_uchar. rewrite (decode_encoded _ _ _ Hc). cbn [In] in Hq.
    split; [|split; [reflexivity|intros ->; apply Hq; now left]]. split; [exists cs; cbn; auto|cbn; intros [= ->]; apply Hq; now left].
  Qed.
  Lemma W_peek : W (qpeek fbk).
  Proof. intros s H. pose proof (peek_noq s H) as P. destruct (qpeek fbk s); auto; [apply P|contradiction]. Qed.
  Lemma W_incr : W (qincr fbk).
  Proof.
    apply W_bind; [apply W_peek|]. intros c s [H _]. destruct (c =? 10); (split; [exact H|discriminate]).
  Qed.
  (** peek, and then an error where [b c] is false *)
  Lemma W_peeked {A} (b : Z -> bool) (k e : Z -> Q A) : (forall c, b c = true -> W (k c)) -> (forall c, b c = false -> c <> 34 -> forall s, noq s -> qbuf s = Some c -> match e c s with QOk _ t => noq t | QParse t => named t | _ => True end) ->
    W (do c <- qpeek fbk ; if b c then k c else e c).
  Proof.
    intros Hk He s H. unfold qbind. pose proof (peek_noq s H) as P. destruct (qpeek fbk s) as [c t|t|t| |]; auto; [|contradiction].
    destruct P as (Ht & Hb & Hc). destruct (b c) eqn:E; [now apply Hk|now apply He].
  Qed.
  Lemma named_some s c : qbuf s = Some c -> named s.
  Proof. intros E. left. congruence. Qed.
  Lemma W_ss : W (qss fbk).
  Proof.
    assert (HL : forall f, W (qss_loop fbk f)).
    { induction f as [|f IH]; intros s H; [exact I|]. cbn [qss_loop]. destruct (qend s); [exact H|]. revert s H.
      apply W_bind; [apply W_peek|intros c]. apply W_if; [apply W_bind; [apply W_incr|intros _; apply IH]|apply W_ret]. }
    intros s. apply HL.
  Qed.
  Lemma W_match c : W (qmatch fbk c).
  Proof.
    apply (W_peeked (fun x => x =? c)).
    - intros x _. apply W_bind; [apply W_incr|intros _; apply W_ret].
    - intros x _ _ s _ E. cbn. eapply named_some; eauto.
  Qed.
  Lemma W_smatch c : W (qsmatch fbk c).
  Proof. apply W_bind; [apply W_ss|intros _; apply W_match]. Qed.
  Lemma W_speek : W (qspeek fbk).
  Proof. apply W_bind; [apply W_ss|intros _; apply W_peek]. Qed.
  Lemma W_match_all t : W (qmatch_all fbk t).
  Proof. induction t; [apply W_ret|]. apply W_bind; [apply W_match|intros _; assumption]. Qed.
  Lemma W_string : W (qstring fbk).
  Proof.
    intros s H. unfold qstring, qbind, qmatch, qbind. pose proof (peek_noq s H) as P.
    destruct (qpeek fbk s) as [c t|t|t| |]; auto; [|contradiction]. destruct P as (Ht & Hb & Hc).
    apply Z.eqb_neq in Hc. rewrite Hc. cbn. eapply named_some; eauto.
  Qed.
  Lemma WN_digits b src : WN (qdigit_run fbk b src).
  Proof.
    assert (HL : forall f src, WN (qdigit_loop fbk b f src)).
    { induction f as [|f IH]; intros o s H; [exact I|]. cbn [qdigit_loop].
      destruct (qend s && _) eqn:E.
      { split; [exact H|]. right. apply andb_prop in E as [E _]. unfold qend in E. now destruct (qin s). }
      unfold qbind. pose proof (peek_noq s H) as P. destruct (qpeek fbk s) as [c t|t|t| |]; auto; [|contradiction].
      destruct P as (Ht & Hb & Hc). destruct (isdigit c).
      - pose proof (W_incr t Ht) as HI. destruct (qincr fbk t) as [c' t'|t'|t'| |]; auto. apply IH, HI.
      - cbn. split; [exact Ht|]. eapply named_some; eauto. }
    intros s. apply HL.
  Qed.
  Lemma W_digits b src : W (qdigit_run fbk b src).
  Proof. intros s H. pose proof (WN_digits b src s H) as HW. destruct (qdigit_run fbk b src s); auto. apply HW. Qed.
  Lemma qend_nil s : qend s = true -> qin s = [].
  Proof. unfold qend. now destruct (qin s). Qed.
  Lemma W_number : W (qnumber fbk).
  Proof.
    unfold qnumber. apply W_bind; [apply W_peek|intros c]. apply W_bind.
    { apply W_if; [|apply W_ret]. apply W_bind; [apply W_incr|intros _; apply W_ret]. }
    intros src. apply W_bind; [apply W_digits|intros src1]. apply W_bind.
    { intros s H. unfold qfrac. destruct (qend s); [exact H|]. revert s H. apply W_bind; [apply W_peek|intros d]. apply W_if; [|apply W_ret].
      apply W_bind; [apply W_incr|intros _]. apply W_bind; [apply W_digits|intros; apply W_ret]. }
    intros [src2 fr]. cbn [fst snd]. apply W_bind.
    { intros s H. unfold qexp. destruct (qend s); [exact H|]. revert s H. apply W_bind; [apply W_peek|intros d]. apply W_if; [|apply W_ret].
      apply W_bind; [apply W_incr|intros _]. intros s H. unfold qexp_sign. destruct (qend s) eqn:E; [right; now apply qend_nil|].
      revert s H E. intros s H _. revert s H. apply W_bind; [apply W_peek|intros x]. apply W_if; [|apply W_ret].
      apply W_bind; [apply W_incr|intros _; apply W_ret]. }
    intros [src3 fr3]. cbn [fst snd]. intros s H. unfold qbind. pose proof (WN_digits true src3 s H) as HW.
    destruct (qdigit_run fbk true src3 s) as [src4 t|t|t| |]; auto. destruct HW as [HW1 HW2].
    destruct fr3; [destruct (strtod src4)|destruct (strtoll src4)]; cbn; auto.
  Qed.
  Lemma W_impl f : W (qparse_impl fbk f) /\ (forall b, W (qobj_loop fbk f b)) /\ (forall b, W (qarr_loop fbk f b)).
  Proof.
    induction f as [|f (IHv & IHm & IHl)]; [split; [|split]; intros; intros s H; exact I|]. split; [|split].
    - rewrite qparse_impl_S. apply W_bind; [apply W_ss|intros _].
      apply (W_peeked (fun c => c =? 123)); intros c Ec; [apply W_bind; [apply W_smatch|intros _]; apply W_bind; [apply IHm|intros; apply W_ret]|].
      intros Hc s H Eb. cbv beta.
      assert (X : forall A (q : Q A), W q -> match q s with QOk _ t => noq t | QParse t => named t | _ => True end) by (intros A q HW; now apply HW).
      destruct (c =? 91); [apply X; apply W_bind; [apply W_smatch|intros _]; apply W_bind; [apply IHl|intros; apply W_ret]|].
      destruct (isdigit c || (c =? 45)); [apply X, W_number|].
      destruct (c =? 34); [apply X, W_bind; [apply W_string|intros; apply W_ret]|].
      destruct (c =? 102); [apply X, W_bind; [apply W_match_all|intros; apply W_ret]|].
      destruct (c =? 110); [apply X, W_bind; [apply W_match_all|intros; apply W_ret]|].
      destruct (c =? 116); [apply X, W_bind; [apply W_match_all|intros; apply W_ret]|].
      cbn. eapply named_some; eauto.
    - intros b. rewrite qobj_loop_S. apply W_bind; [apply W_speek|intros c].
      apply W_if; [apply W_bind; [apply W_smatch|intros; apply W_ret]|].
      apply W_bind; [apply W_if; [apply W_ret|apply W_smatch]|intros _]. apply W_bind; [apply W_ss|intros _].
      apply W_bind; [apply W_string|intros k]. apply W_bind; [apply W_smatch|intros _]. apply W_bind; [apply IHv|intros es].
      apply W_bind; [apply IHm|intros; apply W_ret].
    - intros b. rewrite qarr_loop_S. apply W_bind; [apply W_speek|intros c].
      apply W_if; [apply W_bind; [apply W_smatch|intros; apply W_ret]|].
      apply W_bind; [apply W_if; [apply W_ret|apply W_smatch]|intros _]. apply W_bind; [apply IHv|intros es].
      apply W_bind; [apply IHl|intros; apply W_ret].
  Qed.
  Lemma W_stream : W (qparse_stream fbk).
  Proof.
    apply W_bind; [apply W_ss|intros _]. intros s H. unfold qimpl_run. destruct (_ && _); [exact I|]. now apply W_impl.
  Qed.
End Quotes.

Lemma error_named fbk T s st : (forall x, scalar (fbk x)) -> utf8 T s -> ~ In 34 T -> qparse fbk (qstart s) = QParse st ->
  qbuf st <> None \/ qin st = [].
Proof.
  intros Hf HT HQ H. apply qparse_error in H; [|exact Hf|exact (utf8_bytes _ _ HT)].
  pose proof (W_stream fbk (qstart s)) as HW. rewrite H in HW. apply HW. split; [exists T; auto|discriminate].
Qed.
