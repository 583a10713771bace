(** Proofs about ustrings and streams. *)
From Verif Require Import Common CommonLemmas NumText_Model NumText_Proof Utf8_Spec Utf8_Model Utf8_Proof UStream_Spec UStream_Model.
From Verif Require Cast_Model.
Local Open Scope Z_scope.
Ltac Zify.zify_post_hook ::= Z.div_mod_to_equations.

Lemma space_blank c : Cast_Model.isspace c = true <-> blank c.
Proof. unfold Cast_Model.isspace, blank. lia. Qed.
Lemma space_not c : negb (Cast_Model.isspace c) = true <-> ~ blank c.
Proof. rewrite <- space_blank. destruct (Cast_Model.isspace c); cbn; intuition congruence. Qed.
Lemma write_app a b : write (a ++ b) = write a ++ write b.
Proof. apply flat_map_app. Qed.
Lemma write_utf8 u : Forall scalar u -> utf8 u (write u).
Proof. exact (u2s_utf8 u). Qed.
(** The bytes of a character other than a blank are not blanks. *)
Lemma char_bytes c : scalar c -> ~ blank c -> uchar_to_chars c <> [] /\ Forall (fun b => ~ blank b) (uchar_to_chars c).
Proof.
  intros Hc N. assert (U : utf8_char c (uchar_to_chars c)) by now apply encode_char.
  destruct U as [ c H | c H | c H Hs | c H ]; (split; [ discriminate | ]); repeat constructor; unfold blank in *; lia.
Qed.
Lemma char_blank c : blank c -> uchar_to_chars c = [c] /\ scalar c.
Proof. unfold blank, scalar. intros H. split; [ | lia ]. unfold uchar_to_chars. replace (c <=? 127) with true by lia. reflexivity. Qed.
Lemma write_blank b : Forall blank b -> write b = b /\ Forall scalar b.
Proof.
  induction 1 as [ | c b Hc _ (IH1 & IH2) ]; [ split; [ reflexivity | constructor ] | ]. destruct (char_blank c Hc) as (E & S). cbn [write flat_map]. fold (write b). rewrite E, IH1. auto.
Qed.
Lemma write_word w : Forall scalar w -> Forall (fun c => ~ blank c) w -> Forall (fun c => negb (Cast_Model.isspace c) = true) (write w).
Proof.
  induction w as [ | c w IH ]; intros S N; [ constructor | ]. cbn [write flat_map]. apply Forall_app. split.
  - destruct (char_bytes c (Forall_inv S) (Forall_inv N)) as (_ & F). eapply Forall_impl; [ | exact F ]. intros b. apply space_not.
  - apply IH; eapply Forall_inv_tail; eassumption.
Qed.
Lemma write_nonempty w : Forall scalar w -> Forall (fun c => ~ blank c) w -> w <> [] -> write w <> [].
Proof.
  destruct w as [ | c w ]; intros S N H; [ congruence | ]. destruct (char_bytes c (Forall_inv S) (Forall_inv N)) as (E & _). cbn [write flat_map].
  intros Q. apply app_eq_nil in Q. tauto.
Qed.
Lemma skip_blanks b s : Forall blank b -> match s with c :: _ => ~ blank c | [] => True end -> Cast_Model.skip_ws (b ++ s) = s.
Proof.
  intros H N. induction H as [ | c b Hc _ IH ]; cbn [app].
  - destruct s as [ | c r ]; [ reflexivity | ]. cbn [Cast_Model.skip_ws]. destruct (Cast_Model.isspace c) eqn:E; [ apply space_blank in E; tauto | reflexivity ].
  - cbn [Cast_Model.skip_ws]. apply space_blank in Hc. rewrite Hc. exact IH.
Qed.
Definition after (rest : list Z) : istr := {| left := rest; atend := match rest with [] => true | _ => false end; bad := false |}.
Lemma get_word_one b t r : Forall blank b -> t <> [] -> Forall (fun c => negb (Cast_Model.isspace c) = true) t -> apart r ->
  get_word {| left := b ++ t ++ r; atend := false; bad := false |} = (t, after r).
Proof.
  intros Hb N F Hr. unfold get_word. cbn [atend bad orb left]. destruct t as [ | c t ]; [ congruence | ].
  rewrite (skip_blanks b); [ | exact Hb | cbn; apply space_not; exact (Forall_inv F) ]. cbn [app].
  change (c :: t ++ r) with ((c :: t) ++ r). rewrite spanb_app; [ reflexivity | exact F | ]. intros x q ->. cbn in Hr. apply space_blank in Hr. rewrite Hr. reflexivity.
Qed.
Lemma read_one b w r : Forall blank b -> w <> [] -> Forall scalar w -> Forall (fun c => ~ blank c) w -> apart r ->
  read {| left := b ++ write w ++ r; atend := false; bad := false |} = Ok (w, after r).
Proof.
  intros Hb N S F Hr. unfold read. rewrite (get_word_one b (write w) r Hb (write_nonempty w S F N) (write_word w S F) Hr).
  rewrite (string_to_ustring_utf8 w (write w) (write_utf8 w S)). reflexivity.
Qed.
Lemma read_none b : Forall blank b -> read {| left := b; atend := false; bad := false |} = Ok ([], {| left := []; atend := true; bad := true |}).
Proof. intros Hb. unfold read, get_word. cbn [atend bad orb left]. rewrite <- (app_nil_r b), (skip_blanks b [] Hb I). reflexivity. Qed.
Lemma read_dead i : atend i || bad i = true -> exists j, read i = Ok ([], j) /\ bad j = true /\ left j = left i.
Proof. intros H. unfold read, get_word. rewrite H. eexists. split; [ reflexivity | ]. auto. Qed.
Lemma write_apart r : Forall scalar r -> apart r -> apart (write r).
Proof. destruct r as [ | c r ]; [ auto | ]. cbn [apart]. intros _ H. destruct (char_blank c H) as (E & _). cbn [write flat_map]. rewrite E. exact H. Qed.
Lemma words_read u ws : words_of u ws -> Forall scalar u -> exists i, read_all (S (length ws)) {| left := write u; atend := false; bad := false |} = Ok (ws, i) /\ left i = [].
Proof.
  induction 1 as [ b Hb | b w r ws Hb N F Hr HW IH ]; intros S.
  - destruct (write_blank b Hb) as (E & _). rewrite E. cbn [length read_all]. rewrite (read_none b Hb). cbn. eexists. split; reflexivity.
  - apply Forall_app in S as [ _ S ]. apply Forall_app in S as [ Sw Sr ]. destruct (write_blank b Hb) as (E & _).
    rewrite !write_app, E. cbn [length]. change (read_all (Datatypes.S (Datatypes.S (length ws)))) with (fun i => let* (u, i) := read i in if bad i then Ok ([], i) else let* (l, i) := read_all (Datatypes.S (length ws)) i in Ok (u :: l, i)).
    cbv beta. rewrite (read_one b w (write r) Hb N Sw F (write_apart r Sr Hr)). cbn [obind after bad].
    destruct r as [ | c r ].
    + inversion HW as [ b0 Hb0 E1 E2 | b0 w0 r0 ws0 Hb0 N0 F0 Hr0 HW0 E1 E2 ]; subst.
      * cbn [length read_all write flat_map]. unfold after. destruct (read_dead {| left := []; atend := true; bad := false |} eq_refl) as (j & Ej & Bj & Lj). rewrite Ej. cbn [obind]. rewrite Bj. cbn. exists j. auto.
      * exfalso. destruct b0; [ destruct w0; [ congruence | discriminate ] | discriminate ].
    + destruct (IH Sr) as (i & Ei & Li). assert (A : after (write (c :: r)) = {| left := write (c :: r); atend := false; bad := false |}).
      { unfold after. cbn [apart] in Hr. destruct (char_blank c Hr) as (Ec & _). cbn [write flat_map]. rewrite Ec. reflexivity. }
      rewrite A, Ei. cbn. exists i. auto.
Qed.
Lemma blank_dec c : {blank c} + {~ blank c}.
Proof. destruct (Cast_Model.isspace c) eqn:E; [ left; now apply space_blank | right; apply space_not; now rewrite E ]. Qed.
Lemma words_total : forall u, exists ws, words_of u ws.
Proof.
  induction u as [ | c u (ws & H) ]; [ exists []; constructor; constructor | ]. destruct (blank_dec c) as [ B | N ].
  - inversion H as [ b Hb | b w r ws' Hb Nw F Hr HW ]; subst.
    + exists []. constructor. constructor; assumption.
    + exists (w :: ws'). change (c :: b ++ w ++ r) with ((c :: b) ++ w ++ r). constructor; auto.
  - inversion H as [ b Hb | b w r ws' Hb Nw F Hr HW ]; subst.
    + exists [[c]]. change (c :: u) with ([] ++ [c] ++ u). apply w_word; [ constructor | discriminate | now repeat constructor | destruct u as [ | d u ]; [ exact I | exact (Forall_inv Hb) ] | now constructor ].
    + destruct b as [ | d b ].
      * exists ((c :: w) :: ws'). change (c :: [] ++ w ++ r) with ([] ++ (c :: w) ++ r). apply w_word; [ constructor | discriminate | now constructor | exact Hr | exact HW ].
      * exists ([c] :: w :: ws'). change (c :: (d :: b) ++ w ++ r) with ([] ++ [c] ++ ((d :: b) ++ w ++ r)). apply w_word; [ constructor | discriminate | now repeat constructor | exact (Forall_inv Hb) | now constructor ].
Qed.
