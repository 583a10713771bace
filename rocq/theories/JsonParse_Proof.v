(** The parser accepts every RFC 8259 text and returns what it denotes. *)
From Verif Require Import Common CommonLemmas NumText_Model NumText_Proof Double_Model Utf8_Model Utf8_Spec Utf8_Proof Json_Model Json_Spec.
Local Open Scope Z_scope.

Ltac Zify.zify_post_hook ::= Z.div_mod_to_equations.
(** ** Parser states *)
Definition at0 (s : list Z) (k : Z) : pst := mkP s None k.
Definition at1 (c : Z) (s : list Z) (k : Z) : pst := mkP s (Some c) k.

(** [Rem st s]: the characters still to come, including a look-ahead one, are [s]. *)
Inductive Rem : pst -> list Z -> Prop :=
| Rem0 s k : Rem (at0 s k) s
| Rem1 c e s k : utf8_char c e -> Rem (at1 c s k) (e ++ s).

Lemma utf8_char_prefix c e r c' e' r' : utf8_char c e -> utf8_char c' e' -> e ++ r = e' ++ r' -> c = c' /\ r = r'.
Proof.
  intros H H' E. pose proof (decode_encoded c e r H) as D. pose proof (decode_encoded c' e' r' H') as D'.
  rewrite E, D' in D. injection D as -> ->. auto.
Qed.

Lemma utf8_char_ne c e : utf8_char c e -> exists b r, e = b :: r.
Proof. intros H. destruct H; eauto. Qed.

Section P.
  Context (fbk : list Z -> Z).
  Notation peek := (peek fbk). Notation incr := (incr fbk). Notation ss := (ss fbk).
  Notation match_c := (match_c fbk).

  Lemma peek_rem st c e s : Rem st (e ++ s) -> utf8_char c e -> peek st = JOk (c, at1 c s (cap st)).
  Proof.
    intros H He. inversion H as [s' k E1 E2|c' e' s' k He' E1 E2]; subst; clear H.
    - unfold Json_Model.peek, at0; cbn [cbuf inp cap]. destruct (utf8_char_ne c e He) as (b & r & ->).
      cbn [app]. unfold next_uchar. change (b :: r ++ s) with ((b :: r) ++ s).
      rewrite (decode_encoded c _ s He). reflexivity.
    - destruct (utf8_char_prefix _ _ _ _ _ _ He' He E2) as [-> ->]. reflexivity.
  Qed.

  Lemma incr_rem st c e s : Rem st (e ++ s) -> utf8_char c e -> incr st = JOk (c, at0 s (cap st)).
  Proof. intros H He. unfold Json_Model.incr, bind. rewrite (peek_rem _ _ _ _ H He). reflexivity. Qed.

  Lemma ascii_char c : 0 <= c < 128 -> utf8_char c [c].
  Proof. intros. apply u1. lia. Qed.

  Lemma peek_ascii st c s : Rem st (c :: s) -> 0 <= c < 128 -> peek st = JOk (c, at1 c s (cap st)).
  Proof. intros H Hc. exact (peek_rem st c [c] s H (ascii_char c Hc)). Qed.
  Lemma incr_ascii st c s : Rem st (c :: s) -> 0 <= c < 128 -> incr st = JOk (c, at0 s (cap st)).
  Proof. intros H Hc. exact (incr_rem st c [c] s H (ascii_char c Hc)). Qed.
  Lemma Rem1_ascii c s k : 0 <= c < 128 -> Rem (at1 c s k) (c :: s).
  Proof. intros. exact (Rem1 c [c] s k (ascii_char c H)). Qed.

  Lemma match_ascii st c s : Rem st (c :: s) -> 0 <= c < 128 -> match_c c st = JOk (tt, at0 s (cap st)).
  Proof.
    intros H Hc. unfold Json_Model.match_c, bind. rewrite (peek_ascii _ _ _ H Hc), Z.eqb_refl.
    now rewrite (incr_ascii _ c s (Rem1_ascii c s _ Hc) Hc).
  Qed.

  Lemma match_all_ascii p : Forall (fun c => 0 <= c < 128) p -> forall st s, Rem st (p ++ s) -> p <> [] ->
    match_all fbk p st = JOk (tt, at0 s (cap st)).
  Proof.
    intros HF. induction HF as [|c p Hc HF IH]; intros st s H Hne; [congruence|].
    cbn [match_all app] in *. unfold bind. rewrite (match_ascii _ _ _ H Hc).
    destruct p as [|c' p]; [reflexivity|].
    rewrite (IH (at0 ((c' :: p) ++ s) (cap st)) s (Rem0 _ _)) by discriminate. reflexivity.
  Qed.

  Lemma ws_ascii c : c = 32 \/ c = 9 \/ c = 10 \/ c = 13 -> 0 <= c < 128 /\ jspace c = true.
  Proof. unfold jspace. intros [->|[->|[->| ->]]]; split; try reflexivity; lia. Qed.

  Lemma ss_loop_skip c s : 0 <= c < 128 -> jspace c = false -> forall w, ws w -> forall f st, Rem st (w ++ c :: s) ->
    (length w + 2 <= f)%nat ->
    exists st', ss_loop fbk f st = JOk (tt, st') /\ Rem st' (c :: s) /\ cap st' = cap st.
  Proof.
    intros Hc Hsp w Hw. induction Hw as [|x w Hx Hw IH]; intros f st H Hf.
    - destruct f as [|f]; [cbn in Hf; lia|]. cbn [app] in H. cbn [ss_loop].
      destruct (at_end st) eqn:E; [exists st; auto|].
      unfold bind. rewrite (peek_ascii _ _ _ H Hc), Hsp. eexists. split; [reflexivity|]. split; [now apply Rem1_ascii|reflexivity].
    - destruct (ws_ascii x Hx) as [Hxa Hxs]. destruct f as [|f]; [cbn in Hf; lia|]. cbn [app] in H. cbn [ss_loop].
      assert (E : at_end st = false).
      { inversion H as [s' k E1 E2|c' e' s' k He' E1 E2]; subst; unfold at_end, at0, at1; cbn [inp].
        - reflexivity.
        - assert (Hx2 : utf8_char x [x]) by now apply ascii_char.
          destruct (utf8_char_prefix _ _ _ _ [x] (w ++ c :: s) He' Hx2 E2) as [_ ->]. now destruct w. }
      rewrite E. unfold bind. rewrite (peek_ascii _ _ _ H Hxa), Hxs.
      rewrite (incr_ascii _ x _ (Rem1_ascii x _ _ Hxa) Hxa). cbn [cap at1].
      destruct (IH f (at0 (w ++ c :: s) (cap st)) (Rem0 _ _) ltac:(cbn in Hf; lia)) as (st' & E1 & E2 & E3).
      exists st'. auto.
  Qed.

  Lemma rem_len st s : Rem st s -> (length s <= length (inp st) + 4)%nat.
  Proof.
    intros H. inversion H as [s' k E1 E2|c' e' s' k He' E1 E2]; subst; cbn; [lia|].
    rewrite app_length. assert (length e' <= 4)%nat; [destruct He'; cbn; lia|lia].
  Qed.

  (** Generous: the fuel of [ss] covers the text when the look-ahead is one byte. *)
  Lemma ss_skip c s w st : 0 <= c < 128 -> jspace c = false -> ws w -> Rem st (w ++ c :: s) ->
    exists st', ss st = JOk (tt, st') /\ Rem st' (c :: s) /\ cap st' = cap st.
  Proof.
    intros Hc Hsp Hw H. unfold Json_Model.ss. eapply ss_loop_skip; eauto.
    inversion H as [s' k E1 E2|c' e' s' k He' E1 E2]; subst; cbn [inp at0 at1].
    - rewrite app_length. cbn. lia.
    - destruct w as [|x w]; [cbn; lia|]. inversion Hw as [|? ? Hx _]; subst.
      destruct (ws_ascii x Hx) as [Hxa _].
      destruct (utf8_char_prefix _ _ _ _ [x] (w ++ c :: s) He' (ascii_char x Hxa) E2) as [_ ->].
      rewrite app_length. cbn. lia.
  Qed.

  Lemma speek_skip c s w st : 0 <= c < 128 -> jspace c = false -> ws w -> Rem st (w ++ c :: s) ->
    speek fbk st = JOk (c, at1 c s (cap st)).
  Proof.
    intros Hc Hsp Hw H. unfold speek, bind. destruct (ss_skip c s w st Hc Hsp Hw H) as (st' & -> & H' & E).
    rewrite (peek_ascii _ _ _ H' Hc), E. reflexivity.
  Qed.
  Lemma smatch_skip c s w st : 0 <= c < 128 -> jspace c = false -> ws w -> Rem st (w ++ c :: s) ->
    smatch fbk c st = JOk (tt, at0 s (cap st)).
  Proof.
    intros Hc Hsp Hw H. unfold smatch, bind. destruct (ss_skip c s w st Hc Hsp Hw H) as (st' & -> & H' & E).
    rewrite (match_ascii _ _ _ H' Hc), E. reflexivity.
  Qed.

  (** ** Strings *)
  Lemma parse_hex_ok c v s k : hexdig c v -> parse_hex fbk (at0 (c :: s) k) = JOk (v, at0 s k) /\ 0 <= v < 16 /\ 0 <= c < 128.
  Proof.
    intros H. assert (Hc : 0 <= c < 128) by (unfold hexdig in H; lia).
    split; [|unfold hexdig in H; lia].
    unfold parse_hex, bind. rewrite (incr_ascii _ c s (Rem0 _ _) Hc). unfold isdigit, hexdig in *. cbn [cap at0].
    destruct H as [[Hr ->]|[[Hr ->]|[Hr ->]]].
    - replace ((48 <=? c) && (c <=? 57)) with true by lia. reflexivity.
    - replace ((48 <=? c) && (c <=? 57)) with false by lia.
      replace ((65 <=? c) && (c <=? 70)) with true by lia. unfold ret. replace (c - 65 + 10) with (c - 55) by lia. reflexivity.
    - replace ((48 <=? c) && (c <=? 57)) with false by lia.
      replace ((65 <=? c) && (c <=? 70)) with false by lia.
      replace ((97 <=? c) && (c <=? 102)) with true by lia. unfold ret. replace (c - 97 + 10) with (c - 87) by lia. reflexivity.
  Qed.

  Lemma lor4 a b c d : 0 <= a < 16 -> 0 <= b < 16 -> 0 <= c < 16 -> 0 <= d < 16 ->
    Z.lor (Z.lor (Z.lor (Z.shiftl a 12) (Z.shiftl b 8)) (Z.shiftl c 4)) d = ((a * 16 + b) * 16 + c) * 16 + d.
  Proof.
    intros. rewrite !Z.shiftl_mul_pow2 by lia.
    assert (E1 : Z.lor (a * 2 ^ 12) (b * 2 ^ 8) = (a * 16 + b) * 2 ^ 8) by (rewrite lor_add; lia).
    rewrite E1.
    assert (E2 : Z.lor ((a * 16 + b) * 2 ^ 8) (c * 2 ^ 4) = ((a * 16 + b) * 16 + c) * 2 ^ 4) by (rewrite lor_add; lia).
    rewrite E2. rewrite lor_add; lia.
  Qed.

  Lemma parse_hex4_ok h u s k : hex4 h u -> parse_hex4 fbk (at0 (h ++ s) k) = JOk (u, at0 s k) /\ 0 <= u < 65536 /\ length h = 4%nat.
  Proof.
    intros H. destruct H as [a b c d va vb vc vd Ha Hb Hc Hd]. cbn [app].
    unfold parse_hex4, bind.
    destruct (parse_hex_ok a va (b :: c :: d :: s) k Ha) as (-> & ? & _).
    destruct (parse_hex_ok b vb (c :: d :: s) k Hb) as (-> & ? & _).
    destruct (parse_hex_ok c vc (d :: s) k Hc) as (-> & ? & _).
    destruct (parse_hex_ok d vd s k Hd) as (-> & ? & _).
    unfold ret. rewrite lor4 by lia. repeat split; lia.
  Qed.

  Lemma match_at0 c s k : 0 <= c < 128 -> match_c c (at0 (c :: s) k) = JOk (tt, at0 s k).
  Proof. intros Hc. now rewrite (match_ascii _ c s (Rem0 _ _) Hc). Qed.
  Lemma incr_at0 c s k : 0 <= c < 128 -> incr (at0 (c :: s) k) = JOk (c, at0 s k).
  Proof. intros Hc. now rewrite (incr_ascii _ c s (Rem0 _ _) Hc). Qed.

  Lemma u2c_utf8 u e : utf8_char u e -> uchar_to_chars u = e.
  Proof.
    intros H. pose proof (encode_char u (utf8_char_scalar u e H)) as H'. exact (utf8_char_fun _ _ _ H' H).
  Qed.

  Lemma escape_ok t b s k : jchar (92 :: t) b -> parse_escape fbk (at0 (t ++ s) k) = JOk (b, at0 s k).
  Proof.
    intros H. remember (92 :: t) as t0 eqn:Et. destruct H as [c e He H1 H2 H3|x b H|h u e Hh He|h1 u1 h2 u2 e Hh1 Hu1 Hh2 Hu2 He].
    - exfalso. apply (f_equal (hd 0)) in Et. destruct He; cbn [hd] in Et; lia.
    - injection Et as <-. unfold parse_escape, bind. cbn [app].
      assert (Hx : 0 <= x < 128) by (cbn in H; repeat (destruct H as [H|H]; [injection H as <- <-; lia|]); destruct H).
      rewrite incr_at0 by exact Hx.
      cbn in H. repeat (destruct H as [H|H]; [injection H as <- <-; reflexivity|]); destruct H.
    - injection Et as <-. unfold parse_escape, bind. cbn [app]. rewrite incr_at0 by lia. cbn [Z.eqb Pos.eqb].
      destruct (parse_hex4_ok h u s k Hh) as (-> & ? & _). pose proof (utf8_char_scalar u e He) as Hs. unfold scalar in Hs.
      replace ((56320 <=? u) && (u <=? 57343)) with false by lia.
      replace ((55296 <=? u) && (u <=? 56319)) with false by lia.
      unfold ret. now rewrite (u2c_utf8 u e He).
    - injection Et as <-. unfold parse_escape, bind. cbn [app]. rewrite incr_at0 by lia. cbn [Z.eqb Pos.eqb].
      rewrite <- app_assoc.
      destruct (parse_hex4_ok h1 u1 ((92 :: 117 :: h2) ++ s) k Hh1) as (-> & ? & _).
      replace ((56320 <=? u1) && (u1 <=? 57343)) with false by lia.
      replace ((55296 <=? u1) && (u1 <=? 56319)) with true by lia.
      cbn [app]. rewrite match_at0 by lia. rewrite match_at0 by lia.
      destruct (parse_hex4_ok h2 u2 s k Hh2) as (-> & ? & _).
      replace ((u2 <? 56320) || (57343 <? u2)) with false by lia.
      unfold ret. now rewrite (u2c_utf8 _ e He).
  Qed.

  (** The size of the buffer stays below [2*(B+8)] when no string exceeds [B]. *)
  Definition cap_ok (B : Z) (k : Z) : Prop := 256 <= k <= Z.max 256 (2 * (B + 8)).

  Lemma u2c_len c : (length (uchar_to_chars c) <= 4)%nat.
  Proof. unfold uchar_to_chars. repeat match goal with |- context [if ?b then _ else _] => destruct b end; cbn; lia. Qed.

  Lemma grow_ok B len st : cap_ok B (cap st) -> Z.of_nat len <= B -> Z.of_nat len <= cap st -> 2 * (B + 8) < 2 ^ 31 ->
    exists k, grow len st = JOk (tt, mkP (inp st) (cbuf st) k) /\ cap_ok B k /\ Z.of_nat len + 8 < k.
  Proof.
    intros Hk HB Hl Hb. unfold cap_ok in *. unfold grow. destruct (Z.leb_spec (cap st) (Z.of_nat len + 8)).
    - replace (2 ^ 31 <=? 2 * cap st) with false by lia. exists (2 * cap st). split; [reflexivity|]. lia.
    - exists (cap st). destruct st as [i c k]; cbn in *. split; [reflexivity|]. lia.
  Qed.

  Lemma jchar_lens t b : jchar t b -> (1 <= length t)%nat /\ (length b <= length t)%nat /\ (length b <= 4)%nat.
  Proof.
    intros H. destruct H as [c e He H1 H2 H3|x b H|h u e Hh He|h1 u1 h2 u2 e Hh1 Hu1 Hh2 Hu2 He].
    - destruct He; cbn; lia.
    - cbn; lia.
    - destruct Hh; destruct He; cbn; lia.
    - destruct Hh1, Hh2; destruct He; cbn; lia.
  Qed.
  Lemma jchars_lens t s : jchars t s -> (length s <= length t)%nat.
  Proof.
    intros H. induction H as [|t1 s1 t s H1 H IH]; [cbn; lia|]. rewrite !app_length. destruct (jchar_lens _ _ H1). lia.
  Qed.

  Lemma jchar_cases t1 b1 : jchar t1 b1 -> (exists t', t1 = 92 :: t') \/
    (exists c, utf8_char c t1 /\ b1 = t1 /\ 32 <= c /\ c <> 34 /\ c <> 92).
  Proof.
    intros H. destruct H as [c e He H1 H2 H3|x b H|h u e Hh He|h1 u1 h2 u2 e Hh1 Hu1 Hh2 Hu2 He]; eauto.
    right. exists c. auto.
  Qed.

  Lemma string_loop_ok B t s : jchars t s -> 2 * (B + 8) < 2 ^ 31 -> forall f out r k,
    cap_ok B k -> Z.of_nat (length out) <= k -> Z.of_nat (length out + length s) <= B -> (length t < f)%nat ->
    exists k', string_loop fbk f out (at0 (t ++ 34 :: r) k) = JOk (out ++ s, at1 34 r k') /\ cap_ok B k'.
  Proof.
    intros H HB. induction H as [|t1 s1 t s H1 H IH]; intros f out r k Hk Ho Hl Hf.
    - destruct f as [|f]; [cbn in Hf; lia|]. cbn [app string_loop].
      unfold bind at 1. destruct (grow_ok B (length out) (at0 (34 :: r) k) Hk ltac:(lia) Ho HB) as (k' & -> & Hk' & _).
      cbn [at0 inp cbuf]. fold (at0 (34 :: r) k').
      unfold bind at 1. rewrite (peek_ascii (at0 (34 :: r) k') 34 r (Rem0 _ _) ltac:(lia)). cbn [cap at0].
      rewrite Z.eqb_refl. exists k'. rewrite app_nil_r. auto.
    - destruct f as [|f]; [lia|]. cbn [string_loop].
      destruct (jchar_lens _ _ H1) as (L1 & L2 & L3). rewrite !app_length in *.
      unfold bind at 1. destruct (grow_ok B (length out) (at0 ((t1 ++ t) ++ 34 :: r) k) Hk ltac:(lia) Ho HB) as (k' & -> & Hk' & Hbig).
      cbn [at0 inp cbuf]. fold (at0 ((t1 ++ t) ++ 34 :: r) k'). rewrite <- app_assoc.
      assert (Hput : forall st, cap st = k' -> put out s1 st = JOk (out ++ s1, st)).
      { intros st Est. unfold put. rewrite Est. destruct (Z.leb_spec (Z.of_nat (length out + length s1)) k'); [reflexivity|lia]. }
      destruct (IH f (out ++ s1) r k' Hk') as (k2 & E2 & Hk2); try (rewrite ?app_length; lia).
      exists k2. split; [|assumption]. rewrite <- app_assoc in E2.
      destruct (jchar_cases _ _ H1) as [[t' ->]|(c & Hc & -> & C1 & C2 & C3)].
      + cbn [app]. unfold bind at 1. rewrite (peek_ascii (at0 (92 :: t' ++ t ++ 34 :: r) k') 92 _ (Rem0 _ _) ltac:(lia)).
        cbn [cap at0 Z.eqb Pos.eqb].
        unfold bind at 1. rewrite (incr_ascii _ 92 _ (Rem1_ascii 92 (t' ++ t ++ 34 :: r) k' ltac:(lia)) ltac:(lia)). cbn [cap at1].
        unfold bind at 1. rewrite (escape_ok _ _ (t ++ 34 :: r) k' H1).
        unfold bind at 1. rewrite Hput by reflexivity. exact E2.
      + unfold bind at 1. rewrite (peek_rem _ c t1 (t ++ 34 :: r) (Rem0 _ _) Hc). cbn [cap at0].
        replace (c =? 34) with false by lia. replace (c =? 92) with false by lia.
        unfold bind at 1. rewrite (incr_rem _ c t1 (t ++ 34 :: r) (Rem1 _ _ _ _ Hc) Hc). cbn [cap at1].
        pose proof (utf8_char_scalar c t1 Hc) as Hs. unfold scalar in Hs.
        replace ((32 <=? c) && (c <=? 33) || (35 <=? c) && (c <=? 91) || (93 <=? c) && (c <=? 1114111)) with true by lia.
        rewrite (u2c_utf8 c t1 Hc).
        unfold bind at 1. rewrite Hput by reflexivity. exact E2.
  Qed.

  Lemma parse_string_ok B t s : jstring t s -> 2 * (B + 8) < 2 ^ 31 -> forall st r, Rem st (t ++ r) ->
    cap_ok B (cap st) -> Z.of_nat (length t) <= B ->
    exists k', parse_string_prim fbk st = JOk (s, at0 r k') /\ cap_ok B k'.
  Proof.
    intros H HB st r HR Hk Hl. destruct H as [t s H]. rewrite !app_length in Hl. cbn [length] in Hl.
    cbn [app] in HR. rewrite <- app_assoc in HR. cbn [app] in HR.
    unfold parse_string_prim, bind. rewrite (match_ascii _ _ _ HR ltac:(lia)).
    pose proof (jchars_lens _ _ H) as HL. cbn [inp at0].
    destruct (string_loop_ok B t s H HB (length (t ++ 34 :: r) + 2) [] r (cap st) Hk) as (k' & E & Hk').
    - cbn. unfold cap_ok in Hk. lia.
    - cbn. lia.
    - rewrite app_length. lia.
    - unfold at0 in *. cbn [inp]. rewrite E. cbn [app].
      rewrite (match_ascii _ _ _ (Rem1_ascii 34 r k' ltac:(lia)) ltac:(lia)). exists k'. auto.
  Qed.

  (** ** Numbers *)
  Definition nondigit (r : list Z) : Prop := match r with [] => True | c :: _ => 0 <= c < 128 /\ ~ digit c end.

  Lemma digit_isdigit c : digit c -> isdigit c = true /\ 0 <= c < 128.
  Proof. unfold digit, isdigit. lia. Qed.
  Lemma notdigit_isdigit c : ~ digit c -> isdigit c = false.
  Proof. unfold digit, isdigit. lia. Qed.

  (** No digit ahead: nothing is consumed. *)
  Lemma digit_loop_stop strict f src st r : Rem st r -> nondigit r ->
    exists st', digit_loop fbk strict (S f) src st = JOk (src, st') /\ Rem st' r /\ cap st' = cap st.
  Proof.
    intros H Hr. cbn [digit_loop].
    destruct (at_end st && (strict || match cbuf st with None => true | _ => false end)) eqn:E; [exists st; auto|].
    destruct r as [|c r].
    - exfalso. inversion H as [s' k E1 E2|c' e' s' k He' E1 E2]; subst.
      + cbn in E. destruct strict; discriminate.
      + destruct (utf8_char_ne _ _ He') as (b & q & ->). discriminate.
    - destruct Hr as [Hc Hd]. unfold bind. rewrite (peek_ascii _ _ _ H Hc), (notdigit_isdigit c Hd).
      eexists. split; [reflexivity|]. split; [now apply Rem1_ascii|reflexivity].
  Qed.

  Lemma digit_loop_at0 strict r : nondigit r -> forall ds, Forall digit ds -> forall f src k, (length ds < f)%nat ->
    exists st', digit_loop fbk strict f src (at0 (ds ++ r) k) = JOk (src ++ ds, st') /\ Rem st' r /\ cap st' = k.
  Proof.
    intros Hr ds Hds. induction Hds as [|d ds Hd Hds IH]; intros f src k Hf; (destruct f as [|f]; [cbn in Hf; lia|]).
    - rewrite app_nil_r. exact (digit_loop_stop strict f src (at0 r k) r (Rem0 _ _) Hr).
    - destruct (digit_isdigit d Hd) as [Hdd Hda]. cbn [digit_loop app at_end at0 inp cbuf andb].
      unfold bind. fold (at0 (d :: ds ++ r) k). rewrite (peek_ascii _ d (ds ++ r) (Rem0 _ _) Hda), Hdd.
      rewrite (incr_ascii _ d _ (Rem1_ascii d (ds ++ r) _ Hda) Hda). cbn [cap at0 at1].
      destruct (IH f (src ++ [d]) k ltac:(cbn in Hf; lia)) as (st' & E & H1 & H2). exists st'.
      rewrite <- app_assoc in E. auto.
  Qed.

  (** With a look-ahead digit the strict loop needs something behind it. *)
  Lemma digit_loop_at1 (strict : bool) r d ds f src k : nondigit r -> digit d -> Forall digit ds ->
    (strict = true -> ds ++ r <> []) -> (length ds + 1 < f)%nat ->
    exists st', digit_loop fbk strict f src (at1 d (ds ++ r) k) = JOk (src ++ d :: ds, st') /\ Rem st' r /\ cap st' = k.
  Proof.
    intros Hr Hd Hds Hs Hf. destruct f as [|f]; [lia|]. destruct (digit_isdigit d Hd) as [Hdd Hda].
    cbn [digit_loop]. assert (E : at_end (at1 d (ds ++ r) k) && (strict || match cbuf (at1 d (ds ++ r) k) with None => true | _ => false end) = false).
    { cbn. destruct strict; cbn; [|now rewrite andb_false_r]. unfold at_end, at1; cbn [inp].
      destruct (ds ++ r); [exfalso; now apply Hs|reflexivity]. }
    rewrite E. unfold bind. rewrite (peek_ascii _ d (ds ++ r) (Rem1_ascii d _ _ Hda) Hda), Hdd.
    rewrite (incr_ascii _ d _ (Rem1_ascii d (ds ++ r) _ Hda) Hda). cbn [cap at1].
    destruct (digit_loop_at0 strict r Hr ds Hds f (src ++ [d]) k ltac:(lia)) as (st' & E' & H1 & H2). exists st'.
    rewrite <- app_assoc in E'. auto.
  Qed.

  (** A non-empty run of digits from any state, in the first loop. *)
  Lemma digit_run_first r d ds src st : nondigit r -> digit d -> Forall digit ds -> Rem st (d :: ds ++ r) ->
    exists st', digit_run fbk false src st = JOk (src ++ d :: ds, st') /\ Rem st' r /\ cap st' = cap st.
  Proof.
    intros Hr Hd Hds H. unfold digit_run. destruct (digit_isdigit d Hd) as [Hdd Hda].
    inversion H as [s' k E1 E2|c' e' s' k He' E1 E2]; subst.
    - cbn [inp at0 cap]. apply (digit_loop_at0 false r Hr (d :: ds) ltac:(constructor; auto)).
      rewrite app_comm_cons, app_length. lia.
    - destruct (utf8_char_prefix _ _ _ _ [d] (ds ++ r) He' (ascii_char d Hda) E2) as [-> ->].
      cbn [inp at1 cap]. apply digit_loop_at1; auto; [discriminate|rewrite app_length; lia].
  Qed.

  Lemma digit_run_at0 strict r ds src k : nondigit r -> Forall digit ds ->
    exists st', digit_run fbk strict src (at0 (ds ++ r) k) = JOk (src ++ ds, st') /\ Rem st' r /\ cap st' = k.
  Proof.
    intros Hr Hds. unfold digit_run. apply digit_loop_at0; auto. cbn [inp at0]. rewrite app_length. lia.
  Qed.

  Lemma digit_run_stop strict r src st : Rem st r -> nondigit r ->
    exists st', digit_run fbk strict src st = JOk (src, st') /\ Rem st' r /\ cap st' = cap st.
  Proof.
    intros H Hr. unfold digit_run. replace (length (inp st) + 2)%nat with (S (length (inp st) + 1)) by lia.
    now apply digit_loop_stop.
  Qed.

  Lemma rem_at_end st c s : Rem st (c :: s) -> 0 <= c < 128 -> s <> [] -> at_end st = false.
  Proof.
    intros H Hc Hs. inversion H as [s' k E1 E2|c' e' s' k He' E1 E2]; subst; [reflexivity|].
    destruct (utf8_char_prefix _ _ _ _ [c] s He' (ascii_char c Hc) E2) as [-> ->].
    unfold at_end, at1; cbn [inp]. destruct s; [congruence|reflexivity].
  Qed.

  Lemma rem_nil_end st : Rem st [] -> at_end st = true.
  Proof.
    intros H. inversion H as [s' k E1 E2|c' e' s' k He' E1 E2]; subst; [reflexivity|].
    destruct (utf8_char_ne _ _ He') as (b & q & ->). discriminate.
  Qed.

  Definition finish (src : list Z) (frac : bool) (st : pst) : jres (list ev * pst) :=
    if frac then match strtod src with DOk d => JOk ([ENum d], st) | DRange => JParse end
    else match strtoll src with Some n => JOk ([EInt n], st) | None => JParse end.

  Definition nonempty (s : list Z) : bool := match s with [] => false | _ => true end.

  Lemma frac_head ft fp et x r : frac_part ft fp -> exponent et x -> ends_value r -> nondigit (ft ++ et ++ r).
  Proof.
    intros Hf He Hr. destruct Hf as [|c q Hc Hq]; [|cbn; unfold digit; lia].
    cbn [app]. destruct He as [|e c q Ee Hc Hq|e c q Ee Hc Hq|e c q Ee Hc Hq]; cbn [app nondigit].
    2-4: unfold digit; lia.
    destruct r as [|c r]; [exact I|]. cbn in Hr. cbn. tauto.
  Qed.

  Lemma exp_head et x r : exponent et x -> ends_value r -> nondigit (et ++ r).
  Proof. intros He Hr. exact (frac_head [] [] et x r fp_none He Hr). Qed.

  Lemma parse_number_ok sg neg ip ft fp et x st r :
    sign_part sg neg -> int_part ip -> frac_part ft fp -> exponent et x ->
    Rem st ((sg ++ ip ++ ft ++ et) ++ r) -> ends_value r -> (r = [] -> ~ exists e c, et = [e; c]) ->
    exists st', Rem st' r /\ cap st' = cap st /\
      parse_number fbk st = finish (sg ++ ip ++ ft ++ et) (nonempty ft || nonempty et) st'.
  Proof.
    intros Hsg Hip Hft Het H Hr Hbare.
    rewrite <- !app_assoc in H.
    assert (Hip' : exists d ds, ip = d :: ds /\ digit d /\ Forall digit ds).
    { destruct Hip as [|c q Hc Hq]; [exists 48, []; repeat split; unfold digit; try lia; constructor|].
      exists c, q. repeat split; auto; unfold digit; lia. }
    destruct Hip' as (d & ds & -> & Hd & Hds). clear Hip.
    destruct (digit_isdigit d Hd) as [Hdd Hda].
    (* after the optional sign: a state at the integer part *)
    assert (HS : exists st1, Rem st1 (d :: ds ++ ft ++ et ++ r) /\ cap st1 = cap st /\
      (c <- peek ;; if c =? 45 then incr ;;; ret [45] else ret []) st = JOk (sg, st1)).
    { unfold bind. destruct Hsg; cbn [app] in H.
      - rewrite (peek_ascii _ _ _ H Hda). replace (d =? 45) with false by (unfold digit in Hd; lia).
        eexists. split; [now apply Rem1_ascii|]. split; reflexivity.
      - rewrite (peek_ascii _ _ _ H ltac:(lia)). cbn [Z.eqb Pos.eqb].
        rewrite (incr_ascii _ 45 _ (Rem1_ascii 45 _ _ ltac:(lia)) ltac:(lia)). cbn [cap at1].
        eexists. split; [apply Rem0|]. split; reflexivity. }
    destruct HS as (st1 & H1 & C1 & E1).
    unfold parse_number.
    assert (EA : forall (K : list Z -> P (list ev)),
      (c <- peek ;; src <- (if c =? 45 then incr ;;; ret [45] else ret []) ;; K src) st = K sg st1).
    { intros K. unfold bind in E1 |- *. destruct (peek st) as [[c st0]| | | |]; try discriminate E1. now rewrite E1. }
    rewrite EA. clear EA E1.
    pose proof (frac_head ft fp et x r Hft Het Hr) as Hnd.
    destruct (digit_run_first (ft ++ et ++ r) d ds sg st1 Hnd Hd Hds H1) as (st2 & E2 & H2 & C2).
    unfold bind at 1. rewrite E2. clear E2.
    (* fraction *)
    assert (HF : exists st3, Rem st3 (et ++ r) /\ cap st3 = cap st /\
      (fun st => if at_end st then JOk ((sg ++ d :: ds, false), st) else
            (c <- peek ;; if c =? 46 then incr ;;; src' <- digit_run fbk true ((sg ++ d :: ds) ++ [46]) ;; ret (src', true)
                          else ret (sg ++ d :: ds, false)) st) st2 = JOk ((sg ++ d :: ds ++ ft, nonempty ft), st3)).
    { destruct Hft as [|c q Hc Hq].
      - cbn [app nonempty] in *. rewrite app_nil_r in *. destruct (at_end st2) eqn:Ee.
        + exists st2. repeat split; auto; congruence.
        + unfold bind. destruct (et ++ r) as [|y s] eqn:Es.
          { pose proof (rem_nil_end _ H2). congruence. }
          assert (Hy : 0 <= y < 128 /\ y <> 46).
          { destruct Het as [|e c q Ee' Hc Hq|e c q Ee' Hc Hq|e c q Ee' Hc Hq]; cbn [app] in Es.
            - subst r. cbn in Hr. tauto.
            - injection Es as <- _. lia.
            - injection Es as <- _. lia.
            - injection Es as <- _. lia. }
          rewrite (peek_ascii _ _ _ H2 ltac:(tauto)). replace (y =? 46) with false by lia.
          exists (at1 y s (cap st2)). split; [apply Rem1_ascii; tauto|]. split; [cbn; congruence|reflexivity].
      - cbn [app nonempty] in *. rewrite (rem_at_end _ _ _ H2) by (try lia; discriminate).
        unfold bind. rewrite (peek_ascii _ _ _ H2 ltac:(lia)). cbn [Z.eqb Pos.eqb].
        rewrite (incr_ascii _ 46 _ (Rem1_ascii 46 _ _ ltac:(lia)) ltac:(lia)). cbn [cap at1].
        destruct (digit_run_at0 true (et ++ r) (c :: q) ((sg ++ d :: ds) ++ [46]) (cap st2)) as (st3 & E3 & H3 & C3).
        { exact (exp_head et x r Het Hr). }
        { constructor; auto. }
        cbn [app] in E3. rewrite E3. exists st3. split; [assumption|]. split; [congruence|].
        unfold ret. rewrite <- !app_assoc. cbn [app]. reflexivity. }
    destruct HF as (st3 & H3 & C3 & E3). unfold bind at 1. rewrite E3. clear E3. cbn [fst snd].
    (* exponent *)
    assert (HE : exists st4, Rem st4 r /\ cap st4 = cap st /\
      (r0 <- (fun st => if at_end st then JOk ((sg ++ d :: ds ++ ft, nonempty ft), st) else
            (c <- peek ;;
             if (c =? 101) || (c =? 69) then
               incr ;;; fun st => if at_end st then JParse else
               (y <- peek ;; if (y =? 43) || (y =? 45) then incr ;;; ret ((sg ++ d :: ds ++ ft) ++ [c; y], true) else ret ((sg ++ d :: ds ++ ft) ++ [c], true)) st
             else ret (sg ++ d :: ds ++ ft, nonempty ft)) st) ;;
        let '(src, frac) := r0 in
        src <- digit_run fbk true src ;;
        if (frac : bool) then match strtod src with DOk d => ret [ENum d] | DRange => fail end
        else match strtoll src with Some n => ret [EInt n] | None => fail end) st3
      = finish (sg ++ d :: ds ++ ft ++ et) (nonempty ft || nonempty et) st4).
    { assert (FIN : forall src frac st', (if (frac : bool) then match strtod src with DOk d => ret [ENum d] | DRange => fail end
        else match strtoll src with Some n => ret [EInt n] | None => fail end) st' = finish src frac st').
      { intros src frac st'. unfold finish, ret, fail. destruct frac; [destruct (strtod src)|destruct (strtoll src)]; reflexivity. }
      destruct Het as [|e c q Ee Hc Hq|e c q Ee Hc Hq|e c q Ee Hc Hq].
      - cbn [app nonempty] in *. rewrite app_nil_r, orb_false_r.
        assert (Hnr : nondigit r) by (destruct r; cbn in *; tauto).
        unfold bind at 1. destruct (at_end st3) eqn:Ea.
        + destruct (digit_run_stop true r (sg ++ d :: ds ++ ft) st3 H3 Hnr) as (st4 & E4 & H4 & C4).
          exists st4. split; [auto|]. split; [congruence|]. unfold bind. rewrite E4. apply FIN.
        + destruct r as [|y s]; [pose proof (rem_nil_end _ H3); congruence|]. cbn in Hr.
          unfold bind at 1. rewrite (peek_ascii _ _ _ H3 ltac:(tauto)).
          replace ((y =? 101) || (y =? 69)) with false by lia. unfold ret at 1.
          destruct (digit_run_stop true (y :: s) (sg ++ d :: ds ++ ft) (at1 y s (cap st3))) as (st4 & E4 & H4 & C4).
          { apply Rem1_ascii; tauto. } { exact Hnr. }
          exists st4. split; [auto|]. split; [cbn in C4; congruence|]. unfold bind. rewrite E4. apply FIN.
      - cbn [app nonempty] in *. rewrite orb_true_r.
        unfold bind at 1. rewrite (rem_at_end _ _ _ H3) by (try lia; discriminate).
        unfold bind at 1. rewrite (peek_ascii _ _ _ H3 ltac:(lia)).
        replace ((e =? 101) || (e =? 69)) with true by lia.
        unfold bind at 1. rewrite (incr_ascii _ e _ (Rem1_ascii e _ _ ltac:(lia)) ltac:(lia)). cbn [cap at1 at_end at0 inp].
        destruct (digit_isdigit c Hc) as [Hcd Hca].
        unfold bind at 1. fold (at0 (c :: q ++ r) (cap st3)). rewrite (peek_ascii _ c (q ++ r) (Rem0 _ _) Hca).
        replace ((c =? 43) || (c =? 45)) with false by (unfold digit in Hc; lia). unfold ret at 1. cbn [cap at0].
        assert (Hnr : nondigit r) by (destruct r; cbn in *; tauto).
        destruct (digit_loop_at1 true r c q (length (q ++ r) + 2) ((sg ++ d :: ds ++ ft) ++ [e]) (cap st3) Hnr Hc Hq) as (st4 & E4 & H4 & C4).
        { intros _ Habs. apply app_eq_nil in Habs. destruct Habs as [-> ->]. apply Hbare; [reflexivity|]. eauto. }
        { rewrite app_length. lia. }
        exists st4. split; [auto|]. split; [congruence|]. unfold bind, digit_run. cbn [inp at1].
        unfold at1 in E4 |- *. cbn [inp]. rewrite E4. etransitivity; [apply (FIN _ true)|]. f_equal. rewrite <- !app_assoc. cbn [app]. rewrite <- ?app_assoc. reflexivity.
      - cbn [app nonempty] in *. rewrite orb_true_r.
        unfold bind at 1. rewrite (rem_at_end _ _ _ H3) by (try lia; discriminate).
        unfold bind at 1. rewrite (peek_ascii _ _ _ H3 ltac:(lia)).
        replace ((e =? 101) || (e =? 69)) with true by lia.
        unfold bind at 1. rewrite (incr_ascii _ e _ (Rem1_ascii e _ _ ltac:(lia)) ltac:(lia)). cbn [cap at1 at_end at0 inp].
        unfold bind at 1. fold (at0 (43 :: c :: q ++ r) (cap st3)). rewrite (peek_ascii _ 43 _ (Rem0 _ _) ltac:(lia)).
        cbn [Z.eqb Pos.eqb orb]. unfold bind at 1.
        rewrite (incr_ascii _ 43 _ (Rem1_ascii 43 _ _ ltac:(lia)) ltac:(lia)). unfold ret at 1. cbn [cap at0 at1].
        assert (Hnr : nondigit r) by (destruct r; cbn in *; tauto).
        destruct (digit_run_at0 true r (c :: q) ((sg ++ d :: ds ++ ft) ++ [e; 43]) (cap st3) Hnr ltac:(constructor; auto)) as (st4 & E4 & H4 & C4).
        exists st4. split; [auto|]. split; [congruence|]. unfold bind. cbn [app] in E4.
        rewrite E4. etransitivity; [apply (FIN _ true)|]. f_equal. rewrite <- !app_assoc. cbn [app]. rewrite <- ?app_assoc. reflexivity.
      - cbn [app nonempty] in *. rewrite orb_true_r.
        unfold bind at 1. rewrite (rem_at_end _ _ _ H3) by (try lia; discriminate).
        unfold bind at 1. rewrite (peek_ascii _ _ _ H3 ltac:(lia)).
        replace ((e =? 101) || (e =? 69)) with true by lia.
        unfold bind at 1. rewrite (incr_ascii _ e _ (Rem1_ascii e _ _ ltac:(lia)) ltac:(lia)). cbn [cap at1 at_end at0 inp].
        unfold bind at 1. fold (at0 (45 :: c :: q ++ r) (cap st3)). rewrite (peek_ascii _ 45 _ (Rem0 _ _) ltac:(lia)).
        cbn [Z.eqb Pos.eqb orb]. unfold bind at 1.
        rewrite (incr_ascii _ 45 _ (Rem1_ascii 45 _ _ ltac:(lia)) ltac:(lia)). unfold ret at 1. cbn [cap at0 at1].
        assert (Hnr : nondigit r) by (destruct r; cbn in *; tauto).
        destruct (digit_run_at0 true r (c :: q) ((sg ++ d :: ds ++ ft) ++ [e; 45]) (cap st3) Hnr ltac:(constructor; auto)) as (st4 & E4 & H4 & C4).
        exists st4. split; [auto|]. split; [congruence|]. unfold bind. cbn [app] in E4.
        rewrite E4. etransitivity; [apply (FIN _ true)|]. f_equal. rewrite <- !app_assoc. cbn [app]. rewrite <- ?app_assoc. reflexivity. }
    destruct HE as (st4 & H4 & C4 & E4). exists st4. split; [auto|]. split; [auto|]. exact E4.
  Qed.
End P.
