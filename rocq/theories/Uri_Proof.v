From Verif Require Import Common CommonLemmas Uri_Model Uri_Spec.
Local Open Scope Z_scope.
Ltac Zify.zify_post_hook ::= Z.div_mod_to_equations.

(** ** Classes *)
Ltac in_lit H := vm_compute in H; repeat (destruct H as [<-|H]; [reflexivity|]); contradiction.
Lemma alpha_b c : ALPHA c -> isalpha c = true. Proof. intros H. in_lit H. Qed.
Lemma digit_b c : DIGIT c -> isdigit c = true. Proof. intros H. in_lit H. Qed.
Lemma hex_b c : HEXDIG c -> isxdigit c = true. Proof. intros H. in_lit H. Qed.
Lemma mark_b c : In c (str "-._~") -> is_unreserved c = true. Proof. intros H. in_lit H. Qed.
Lemma sub_b c : sub_delim c -> is_sub_delims c = true. Proof. intros H. in_lit H. Qed.
Lemma unres_b c : unreserved c -> is_unreserved c = true.
Proof. intros [H|[H|H]]; [apply alpha_b in H|apply digit_b in H|exact (mark_b c H)]; unfold is_unreserved; rewrite H; now rewrite ?orb_true_r. Qed.
Lemma digit_of c : isdigit c = true -> DIGIT c.
Proof.
  unfold isdigit. intros H. assert (E : c = 48 \/ c = 49 \/ c = 50 \/ c = 51 \/ c = 52 \/ c = 53 \/ c = 54 \/ c = 55 \/ c = 56 \/ c = 57) by lia.
  vm_compute. intuition.
Qed.

Definition pcharb (c : Z) : bool := is_unreserved c || is_sub_delims c || (c =? 58) || (c =? 64).
Lemma pchar_b c : pchar c -> pcharb c = true.
Proof.
  intros [H|[H|H]]; [apply unres_b in H|apply sub_b in H|in_lit H]; unfold pcharb; rewrite H; now rewrite ?orb_true_r.
Qed.

(** ** Loops *)
Lemma span_app a r : span (a ++ r) r = a.
Proof. unfold span. rewrite app_length. replace (length a + length r - length r)%nat with (length a) by lia. rewrite firstn_app, Nat.sub_diag, firstn_all, firstn_O, app_nil_r. reflexivity. Qed.

Inductive eaten (a : P) : list Z -> list Z -> Prop :=
| ea_stop p : a p = Ok (false, p) -> eaten a p p
| ea_step p p' q : a p = Ok (true, p') -> (length p' < length p)%nat -> eaten a p' q -> eaten a p q.
Lemma loop_eaten a p q : eaten a p q -> loop a p = Ok q.
Proof.
  unfold loop. intros H. assert (G : forall f, (length p < f)%nat -> many f a p = Ok q).
  { induction H as [p E|p p' q E HL H IH]; intros f Hf; (destruct f as [|f]; [lia|]); cbn [many]; rewrite E; cbn [obind]; [reflexivity|]. apply IH. lia. }
  apply G. lia.
Qed.
Lemma eaten_chars (a : P) (cls : Z -> Prop) s r : (forall c q, cls c -> a (c :: q) = Ok (true, q)) -> a r = Ok (false, r) -> Forall cls s -> eaten a (s ++ r) r.
Proof. intros H1 H2. induction 1 as [|c s Hc Hs IH]; cbn [app]; [now constructor|]. econstructor; [apply H1; assumption|cbn; lia|exact IH]. Qed.
Lemma eaten_enc (a : P) (cls : Z -> Prop) s r : (forall c q, cls c -> a (c :: q) = Ok (true, q)) -> (forall x y q, HEXDIG x -> HEXDIG y -> a (37 :: x :: y :: q) = Ok (true, q)) ->
  a r = Ok (false, r) -> encoded cls s -> eaten a (s ++ r) r.
Proof.
  intros H1 H2 H3. induction 1 as [|c s Hc Hs IH|x y s Hx Hy Hs IH]; cbn [app]; [now constructor| |].
  - econstructor; [apply H1; assumption|cbn; lia|exact IH].
  - econstructor; [apply H2; assumption|cbn; lia|exact IH].
Qed.

(** ** Single steps *)
Lemma take1_yes f c q : f c = true -> take1 f (c :: q) = Ok (true, q).
Proof. intros H. unfold take1. cbn. now rewrite H. Qed.
Lemma take1_no f c q : f c = false -> take1 f (c :: q) = Ok (false, c :: q).
Proof. intros H. unfold take1. cbn. now rewrite H. Qed.
Lemma pct_no c q : c <> 37 -> parse_pct_encoded (c :: q) = Ok (false, c :: q).
Proof. intros H. unfold parse_pct_encoded, at_. cbn [adv rd obind omap ando]. unfold ando. cbn. now replace (c =? 37) with false by lia. Qed.
Lemma pct_yes x y q : HEXDIG x -> HEXDIG y -> parse_pct_encoded (37 :: x :: y :: q) = Ok (true, q).
Proof. intros Hx Hy. unfold parse_pct_encoded, at_, ando. cbn. rewrite (hex_b x Hx). cbn. rewrite (hex_b y Hy). reflexivity. Qed.

Definition pchb (colon : bool) (c : Z) : bool := is_unreserved c || is_sub_delims c || (colon && (c =? 58)) || (c =? 64).
Lemma pchar_step k c q : parse_pchar k (c :: q) = if c =? 37 then parse_pct_encoded (c :: q) else Ok (if pchb k c then (true, q) else (false, c :: q)).
Proof.
  unfold parse_pchar, pchb, orp, take1. cbn [rd obind tl]. destruct (Z.eqb_spec c 37) as [->|H].
  - change (is_unreserved 37) with false. cbn iota. cbn [obind]. destruct (parse_pct_encoded (37 :: q)) as [[[] p]| | |] eqn:E; cbn [obind]; try reflexivity.
    assert (p = 37 :: q) as ->.
    { unfold parse_pct_encoded in E. destruct (ando _ _) as [[]| | |]; cbn [obind] in E; try discriminate; [destruct (adv 3 (37 :: q)); cbn in E; discriminate|]. congruence. }
    cbn [rd obind]. change (is_sub_delims 37) with false. cbn iota. cbn [obind]. destruct k; cbn; reflexivity.
  - destruct (is_unreserved c); cbn [obind orb]; [reflexivity|]. rewrite (pct_no c q H). cbn [obind rd].
    destruct (is_sub_delims c); cbn [obind orb]; [reflexivity|]. destruct k; cbn [andb orb obind rd].
    + destruct (c =? 58); cbn [obind orb rd]; [reflexivity|]. destruct (c =? 64); reflexivity.
    + destruct (c =? 64); reflexivity.
Qed.
Lemma not_pct k c : pchb k c = true -> c <> 37.
Proof. intros H ->. destruct k; discriminate. Qed.
Lemma pchar_yes k c q : pchb k c = true -> parse_pchar k (c :: q) = Ok (true, q).
Proof. intros H. rewrite pchar_step, H. apply not_pct in H. now replace (c =? 37) with false by lia. Qed.
Lemma pchar_pct k x y q : HEXDIG x -> HEXDIG y -> parse_pchar k (37 :: x :: y :: q) = Ok (true, q).
Proof. intros. rewrite pchar_step. now apply pct_yes. Qed.
Lemma pchar_no k c q : pchb k c = false -> c <> 37 -> parse_pchar k (c :: q) = Ok (false, c :: q).
Proof. intros H H2. rewrite pchar_step, H. now replace (c =? 37) with false by lia. Qed.

(** ** Queries and fragments *)
Lemma query_ok s d r : ok_query s -> d = 35 \/ d = 0 -> parse_query (s ++ d :: r) = Ok (d :: r).
Proof.
  intros H Hd. apply loop_eaten. eapply eaten_enc; [| | |exact H].
  - intros c q Hc. unfold query_step, orp. destruct Hc as [Hc|Hc].
    + apply pchar_b in Hc. rewrite (pchar_yes true c q); [reflexivity|]. exact Hc.
    + vm_compute in Hc. destruct Hc as [<-|[<-|[]]]; reflexivity.
  - intros x y q Hx Hy. unfold query_step, orp. rewrite pchar_pct by assumption. reflexivity.
  - destruct Hd as [->| ->]; reflexivity.
Qed.

(** ** Paths *)
Definition stop (r : list Z) : Prop := match r with d :: _ => d = 63 \/ d = 35 \/ d = 0 | [] => False end.
Lemma split_path s : path_chars s -> exists a b, s = a ++ b /\ encoded pchar a /\ path_chars b /\ (b = [] \/ exists q, b = 47 :: q) /\ (length b <= length s)%nat.
Proof.
  induction 1 as [|c s Hc Hs IH|x y s Hx Hy Hs IH].
  - exists [], []. split; [reflexivity|]. split; [constructor|]. split; [constructor|]. split; [now left|lia].
  - destruct (Z.eq_dec c 47) as [->|Hn].
    + exists [], (47 :: s). split; [reflexivity|]. split; [constructor|]. split; [now constructor|]. split; [right; eauto|lia].
    + destruct IH as (a & b & -> & Ha & Hb & Hc' & HL). exists (c :: a), b. split; [reflexivity|]. split; [constructor; [tauto|assumption]|]. split; [assumption|]. split; [assumption|]. cbn [length app]. lia.
  - destruct IH as (a & b & -> & Ha & Hb & Hc' & HL). exists (37 :: x :: y :: a), b. split; [reflexivity|]. split; [now constructor|]. split; [assumption|]. split; [assumption|]. cbn [length app]. lia.
Qed.
Definition halt (r : list Z) : Prop := match r with d :: _ => d = 63 \/ d = 35 \/ d = 0 \/ d = 47 | [] => False end.
Lemma segment_ok a r : encoded pchar a -> halt r -> parse_segment (a ++ r) = Ok r.
Proof.
  intros Ha Hr. apply loop_eaten. eapply eaten_enc; [| | |exact Ha].
  - intros c q Hc. apply pchar_yes. apply pchar_b in Hc. exact Hc.
  - intros x y q Hx Hy. now apply pchar_pct.
  - destruct r as [|d r]; [contradiction|]. destruct Hr as [->|[->|[->| ->]]]; reflexivity.
Qed.
Lemma abempty_ok s r : path_chars s -> (s = [] \/ exists q, s = 47 :: q) -> stop r -> parse_path_abempty (s ++ r) = Ok r.
Proof.
  intros Hs Hh Hr. apply loop_eaten. revert Hs Hh. induction s as [s IH] using list_len_ind. intros Hs Hh.
  destruct Hh as [->|[q ->]].
  - cbn [app]. constructor. destruct r as [|d r]; [contradiction|]. destruct Hr as [->|[->| ->]]; reflexivity.
  - inversion Hs; subst. destruct (split_path q) as (a & b & -> & Ha & Hb & Hc & HL); [assumption|].
    apply (ea_step _ _ (b ++ r)).
    + unfold abempty_step. cbn [app]. rewrite (take1_yes _ 47) by reflexivity. cbn [obind]. rewrite <- app_assoc, segment_ok; [reflexivity|assumption|].
      destruct Hc as [->|[q ->]]; cbn; [|auto]. destruct r; [contradiction|]. cbn in *. tauto.
    + cbn [app length]. rewrite !app_length. lia.
    + apply IH; [cbn [length]; rewrite app_length; lia|assumption|assumption].
Qed.
Lemma seg_nz_ok a r : encoded pchar a -> a <> [] -> halt r -> parse_segment_nz (a ++ r) = Ok (true, r).
Proof.
  intros Ha Hn Hr. unfold parse_segment_nz. destruct Ha as [|c s Hc Hs|x y s Hx Hy Hs]; [contradiction| |]; cbn [app].
  - apply pchar_b in Hc. rewrite (pchar_yes true c) by exact Hc. cbn [obind]. now rewrite segment_ok.
  - rewrite pchar_pct by assumption. cbn [obind]. now rewrite segment_ok.
Qed.
Lemma seg_nz_no d r : halt (d :: r) -> parse_segment_nz (d :: r) = Ok (false, d :: r).
Proof. intros [->|[->|[->| ->]]]; reflexivity. Qed.
Lemma stop_halt r : stop r -> halt r. Proof. destruct r; cbn; tauto. Qed.

(** A path without authority, behind a scheme. *)
Lemma rootless_ok s r third : path_chars s -> (forall q, s <> 47 :: 47 :: q) -> stop r ->
  (forall a b, s = a ++ b -> encoded pchar a -> a <> [] -> (b = [] \/ exists q, b = 47 :: q) -> third (a ++ b ++ r) = Ok (true, r)) ->
  (stop r -> exists p', third r = Ok (false, p')) ->
  alt parse_path_absolute (alt third yes) (s ++ r) = Ok (true, r).
Proof.
  intros Hs Hn Hr H3 H4. destruct (split_path s Hs) as (a & b & Es & Ha & Hb & Hc & HL). destruct a as [|c a].
  - cbn [app] in Es. subst b. destruct Hc as [->|[q ->]].
    + cbn [app]. destruct (H4 Hr) as [p' E]. unfold alt. destruct r as [|d r]; [contradiction|]. unfold parse_path_absolute. cbn [rd obind].
      replace (d =? 47) with false by (cbn in Hr; lia). cbn [negb obind]. rewrite E. reflexivity.
    + unfold alt, parse_path_absolute. cbn [app rd obind Z.eqb Pos.eqb negb tl]. inversion Hb; subst.
      destruct (split_path q) as (a & b & -> & Ha' & Hb' & Hc' & HL'); [assumption|]. destruct a as [|c a].
      * cbn [app] in *. destruct Hc' as [->|[q ->]]; [|now destruct (Hn q)]. cbn [app]. destruct r as [|d r]; [contradiction|].
        rewrite seg_nz_no by (apply stop_halt; assumption). reflexivity.
      * rewrite <- app_assoc, seg_nz_ok; [|assumption|discriminate|].
        -- cbn [obind negb]. rewrite abempty_ok by assumption. reflexivity.
        -- destruct Hc' as [->|[q ->]]; cbn; [apply stop_halt; exact Hr|auto].
  - assert (Hc47 : c <> 47). { intros ->. inversion Ha as [|? ? Hp| ]; subst. apply pchar_b in Hp. discriminate. }
    unfold alt at 1. rewrite Es. cbn [app]. unfold parse_path_absolute. cbn [rd obind]. replace (c =? 47) with false by lia. cbn [negb obind].
    unfold alt. pose proof (H3 (c :: a) b Es Ha ltac:(discriminate) Hc) as E2. cbn [app] in E2. rewrite <- app_assoc, E2. reflexivity.
Qed.

(** ** Reading stays within the string *)
Definition zt (p : list Z) : Prop := exists a, p = a ++ [0].
Lemma zt_cons c p : zt (c :: p) -> zt p \/ (c = 0 /\ p = []).
Proof. intros [a H]. destruct a as [|d a]; cbn in H; injection H as -> ->; [now right|left; now exists a]. Qed.
Lemma zt_nz c p : zt (c :: p) -> c <> 0 -> zt p.
Proof. intros H Hc. apply zt_cons in H. tauto. Qed.
Lemma zt_nil : ~ zt [].
Proof. intros [[|] H]; discriminate. Qed.
Definition suffix (p q : list Z) : Prop := exists a, p = a ++ q.
Lemma suffix_refl p : suffix p p. Proof. now exists []. Qed.
Lemma suffix_cons c p q : suffix p q -> suffix (c :: p) q. Proof. intros [a ->]. now exists (c :: a). Qed.
Lemma suffix_trans p q r : suffix p q -> suffix q r -> suffix p r.
Proof. intros [a ->] [b ->]. exists (a ++ b). now rewrite app_assoc. Qed.
Lemma suffix_len p q : suffix p q -> (length q <= length p)%nat.
Proof. intros [a ->]. rewrite app_length. lia. Qed.

(** [safe]: no undefined behaviour; [safe1]: moreover each success consumes something and each failure nothing. *)
Definition safe (a : P) : Prop := forall p, zt p -> exists b p', a p = Ok (b, p') /\ (b = true -> zt p' /\ suffix p p').
Definition safe1 (a : P) : Prop := forall p, zt p -> exists b p', a p = Ok (b, p') /\ (b = true -> zt p' /\ suffix p p' /\ (length p' < length p)%nat) /\ (b = false -> p' = p).
Lemma safe1_safe a : safe1 a -> safe a.
Proof. intros H p Hp. destruct (H p Hp) as (b & p' & E & H1 & H2). exists b, p'. split; [exact E|]. intros Hb. specialize (H1 Hb). tauto. Qed.
Lemma safe_eat f : f 0 = false -> safe (eat f).
Proof.
  intros Hf p Hp. destruct p as [|c p]; [now apply zt_nil in Hp|]. unfold eat. cbn. exists (f c), p. split; [reflexivity|]. intros Hc.
  split; [|now exists [c]]. apply (zt_nz c); [assumption|]. intros ->. congruence.
Qed.
Lemma safe_take1 f : f 0 = false -> safe1 (take1 f).
Proof.
  intros Hf p Hp. destruct p as [|c p]; [now apply zt_nil in Hp|]. unfold take1. cbn [rd obind tl]. destruct (f c) eqn:E.
  - exists true, p. split; [reflexivity|]. split; [|discriminate]. intros _. split; [|split; [now exists [c]|cbn; lia]]. apply (zt_nz c); [assumption|]. intros ->. congruence.
  - exists false, (c :: p). split; [reflexivity|]. split; [discriminate|reflexivity].
Qed.
Lemma safe_andp a b : safe a -> safe b -> safe (andp a b).
Proof.
  intros Ha Hb p Hp. unfold andp. destruct (Ha p Hp) as ([] & p' & -> & H); cbn [obind]; [|exists false, p'; split; [reflexivity|discriminate]].
  destruct (H eq_refl) as [H1 H2]. destruct (Hb p' H1) as (x & q & E & H3). exists x, q. split; [exact E|]. intros Hx. specialize (H3 Hx). split; [tauto|]. eapply suffix_trans; [exact H2|tauto].
Qed.
Lemma safe_yes : safe yes.
Proof. intros p Hp. exists true, p. split; [reflexivity|]. intros _. split; [assumption|apply suffix_refl]. Qed.
Lemma safe_alt a b : safe a -> safe b -> safe (alt a b).
Proof.
  intros Ha Hb p Hp. unfold alt. destruct (Ha p Hp) as ([] & p' & -> & H); cbn [obind]; [exists true, p'; split; [reflexivity|exact H]|]. exact (Hb p Hp).
Qed.
Lemma safe_orp a b : safe1 a -> safe1 b -> safe1 (orp a b).
Proof.
  intros Ha Hb p Hp. unfold orp. destruct (Ha p Hp) as ([] & p' & -> & H1 & H2); cbn [obind]; [exists true, p'; split; [reflexivity|split; assumption]|].
  rewrite (H2 eq_refl). exact (Hb p Hp).
Qed.
Lemma safe_loop a p : safe1 a -> zt p -> exists q, loop a p = Ok q /\ zt q /\ suffix p q /\ a q = Ok (false, q).
Proof.
  intros Ha. unfold loop. assert (G : forall f p, (length p < f)%nat -> zt p -> exists q, many f a p = Ok q /\ zt q /\ suffix p q /\ a q = Ok (false, q)).
  { induction f as [|f IH]; intros q Hf Hq; [lia|]. cbn [many]. destruct (Ha q Hq) as ([] & p' & E & H1 & H2); rewrite E; cbn [obind].
    - destruct (H1 eq_refl) as (H3 & H4 & H5). destruct (IH p' ltac:(lia) H3) as (r & E2 & H6 & H7 & H8). exists r. repeat split; auto. eapply suffix_trans; eassumption.
    - rewrite (H2 eq_refl) in *. exists q. repeat split; auto using suffix_refl. }
  intros Hp. apply G; [lia|assumption].
Qed.

Ltac sb := repeat match goal with
  | |- context [if ?b then _ else _] => let E := fresh "E" in destruct b eqn:E
  end.
Lemma safe_pct : safe1 parse_pct_encoded.
Proof.
  intros p Hp. destruct p as [|c p]; [now apply zt_nil in Hp|]. destruct (Z.eq_dec c 37) as [->|Hc].
  - destruct (zt_cons _ _ Hp) as [Hp1|[? ?]]; [|discriminate]. destruct p as [|x p]; [now apply zt_nil in Hp1|].
    unfold parse_pct_encoded, at_, ando. cbn [adv rd obind omap Z.eqb Pos.eqb]. destruct (isxdigit x) eqn:Ex.
    + assert (Hp2 : zt p) by (apply (zt_nz x); [assumption|intros ->; discriminate]). destruct p as [|y p]; [now apply zt_nil in Hp2|]. cbn [adv rd obind omap].
      destruct (isxdigit y) eqn:Ey.
      * exists true, p. split; [reflexivity|]. split; [|discriminate]. intros _. split; [apply (zt_nz y); [assumption|intros ->; discriminate]|]. split; [now exists [37; x; y]|cbn; lia].
      * exists false, (37 :: x :: y :: p). split; [reflexivity|]. split; [discriminate|reflexivity].
    + exists false, (37 :: x :: p). split; [reflexivity|]. split; [discriminate|reflexivity].
  - rewrite pct_no by assumption. exists false, (c :: p). split; [reflexivity|]. split; [discriminate|reflexivity].
Qed.
Lemma safe_no : safe1 (fun p => Ok (false, p)).
Proof. intros p _. exists false, p. split; [reflexivity|]. split; [discriminate|reflexivity]. Qed.
Lemma safe_pchar k : safe1 (parse_pchar k).
Proof. unfold parse_pchar. repeat apply safe_orp; try (apply safe_take1; reflexivity); [apply safe_pct|]. destruct k; [apply safe_take1; reflexivity|apply safe_no]. Qed.
Lemma safe_query : safe1 query_step.
Proof. unfold query_step. apply safe_orp; [apply safe_pchar|]. apply safe_orp; apply safe_take1; reflexivity. Qed.
Lemma safe_then a b : safe1 a -> safe1 b -> safe1 (fun p => let* (x, p') := a p in if x then omap (fun q => (true, q)) (loop b p') else Ok (false, p')).
Proof.
  intros Ha Hb p Hp. destruct (Ha p Hp) as ([] & p' & -> & H1 & H2); cbn [obind]; [|exists false, p'; split; [reflexivity|split; assumption]].
  destruct (H1 eq_refl) as (H3 & H4 & H5). destruct (safe_loop b p' Hb H3) as (q & -> & H6 & H7 & _). cbn [omap]. exists true, q. split; [reflexivity|]. split; [|discriminate].
  intros _. split; [assumption|]. split; [eapply suffix_trans; eassumption|]. apply suffix_len in H7. lia.
Qed.
Lemma safe_seg_nz : safe1 parse_segment_nz.
Proof. apply safe_then; apply safe_pchar. Qed.
Lemma safe_seg_nc : safe1 parse_segment_nz_nc.
Proof. apply safe_then; apply safe_pchar. Qed.
Lemma safe_abstep : safe1 abempty_step.
Proof. apply safe_then; [apply safe_take1; reflexivity|apply safe_pchar]. Qed.
Lemma safe_rootless : safe parse_path_rootless.
Proof. apply safe1_safe. apply (safe_then parse_segment_nz abempty_step); [apply safe_seg_nz|apply safe_abstep]. Qed.
Lemma safe_noscheme : safe parse_path_noscheme.
Proof. apply safe1_safe. apply (safe_then parse_segment_nz_nc abempty_step); [apply safe_seg_nc|apply safe_abstep]. Qed.
Lemma safe_absolute : safe parse_path_absolute.
Proof.
  intros p Hp. destruct p as [|c p]; [now apply zt_nil in Hp|]. unfold parse_path_absolute. cbn [rd obind tl]. destruct (Z.eqb_spec c 47) as [->|Hc]; cbn [negb].
  - assert (Hp1 : zt p) by (now apply (zt_nz 47)). destruct (safe_seg_nz p Hp1) as ([] & p' & -> & H1 & H2); cbn [obind negb].
    + destruct (H1 eq_refl) as (H3 & H4 & H5). unfold parse_path_abempty. destruct (safe_loop _ p' safe_abstep H3) as (q & -> & H6 & H7 & _). cbn [omap].
      exists true, q. split; [reflexivity|]. intros _. split; [assumption|]. apply suffix_cons. eapply suffix_trans; eassumption.
    + exists true, p. split; [reflexivity|]. intros _. split; [assumption|]. now exists [47].
  - exists false, (c :: p). split; [reflexivity|discriminate].
Qed.
Lemma zt_take c p (f : Z -> bool) : f 0 = false -> f c = true -> zt (c :: p) -> zt p.
Proof. intros H1 H2 H. apply (zt_nz c); [assumption|intros ->; congruence]. Qed.
Lemma safe_octet : safe parse_dec_octet.
Proof.
  intros p Hp. destruct p as [|c p]; [now apply zt_nil in Hp|]. destruct (Z.eq_dec c 0) as [->|Hc0].
  { exists false, (0 :: p). split; [reflexivity|discriminate]. }
  assert (Hp1 : zt p) by (now apply (zt_nz c)). destruct p as [|d p]; [now apply zt_nil in Hp1|]. destruct (Z.eq_dec d 0) as [->|Hd0].
  { unfold parse_dec_octet, at_, ando, take1. cbn [adv rd obind omap]. change (53 =? 0) with false. change (range 48 52 0) with false. change (isdigit 0) with false.
    sb; cbn [obind]; try discriminate; sb; cbn [obind]; try discriminate; sb; cbn [obind tl]; try discriminate; sb; try discriminate;
      (eexists _, _; split; [reflexivity|]); intros ?; try discriminate; (split; [assumption|now exists [c]]). }
  assert (Hp2 : zt p) by (now apply (zt_nz d)). destruct p as [|e p]; [now apply zt_nil in Hp2|].
  assert (H3 : forall f, f 0 = false -> f e = true -> zt p /\ suffix (c :: d :: e :: p) p).
  { intros f H1 H2. split; [now apply (zt_take e p f)|now exists [c; d; e]]. }
  unfold parse_dec_octet, at_, ando, take1. cbn [adv rd obind omap].
  repeat (cbn [obind omap tl]; match goal with |- context [if ?b then _ else _] => let E := fresh "E" in destruct b eqn:E end); cbn [obind];
   (eexists _, _; split; [reflexivity|]); intros ?; try discriminate;
   first [eapply H3; [|eassumption]; reflexivity | split; [assumption|now exists [c; d]] | split; [assumption|now exists [c]]].
Qed.
Lemma safe_ipv4 : safe parse_ipv4address.
Proof. unfold parse_ipv4address, dot. repeat apply safe_andp; try apply safe_octet; apply safe_eat; reflexivity. Qed.
Lemma safe_h16 : safe parse_h16.
Proof. unfold parse_h16. repeat apply safe_andp; apply safe_eat; reflexivity. Qed.
Lemma safe_colon : safe colon.
Proof. apply safe_eat. reflexivity. Qed.
Lemma safe_ls32 : safe parse_ls32.
Proof. unfold parse_ls32. apply safe_alt; [apply safe_ipv4|]. repeat first [exact safe_h16|exact safe_colon|apply safe_andp]. Qed.
Lemma safe_groups n k : safe k -> safe (groups n k).
Proof. intros Hk. induction n as [|n IH]; cbn [groups]; [assumption|]. repeat first [exact safe_h16|exact safe_colon|exact IH|apply safe_andp]. Qed.
Lemma safe_colons k : safe k -> safe (colons k).
Proof. intros Hk. repeat first [exact safe_colon|exact Hk|apply safe_andp]. Qed.
Lemma safe_opt k : safe k -> safe (opt k).
Proof. intros Hk. apply safe_alt; [assumption|apply safe_yes]. Qed.
Lemma safe_ipv6 : safe parse_ipv6address.
Proof.
  unfold parse_ipv6address. repeat simple apply safe_alt;
   unfold parse_ipv6_1, parse_ipv6_2, parse_ipv6_3, parse_ipv6_4, parse_ipv6_5, parse_ipv6_6, parse_ipv6_7, parse_ipv6_8, parse_ipv6_9;
   repeat first [exact safe_ls32 | exact safe_h16 | exact safe_yes | simple apply safe_groups | simple apply safe_colons | simple apply safe_opt | simple apply safe_andp].
Qed.
Lemma safe_future : safe parse_ipvfuture.
Proof.
  unfold parse_ipvfuture. apply safe_andp; [apply safe_eat; reflexivity|]. intros p Hp. destruct p as [|c p]; [now apply zt_nil in Hp|]. cbn [rd obind].
  destruct (isxdigit c); cbn [negb]; [|exists false, (c :: p); split; [reflexivity|discriminate]].
  destruct (safe_loop (take1 isxdigit) (c :: p) (safe_take1 isxdigit eq_refl) Hp) as (q & -> & Hq & Hs & _). cbn [obind].
  match goal with |- exists b p', andp ?a ?k q = _ /\ _ => assert (Hk : safe k) end.
  { intros p2 Hp2. destruct p2 as [|d p2]; [now apply zt_nil in Hp2|]. cbn [rd obind]. destruct (fut d) eqn:Ed; cbn [negb]; [|exists false, (d :: p2); split; [reflexivity|discriminate]].
    unfold loop. cbn [many length]. rewrite take1_no by now rewrite Ed. cbn [obind omap]. exists true, (d :: p2). split; [reflexivity|]. intros _. split; [assumption|apply suffix_refl]. }
  match goal with |- exists b p', andp ?a ?k q = _ /\ _ => destruct (safe_andp a k (safe_eat _ eq_refl) Hk q Hq) as (b & p' & E & H) end.
  exists b, p'. split; [exact E|]. intros Hb. destruct (H Hb). split; [assumption|]. eapply suffix_trans; eassumption.
Qed.
Lemma safe_literal : safe parse_ip_literal.
Proof. unfold parse_ip_literal. repeat apply safe_andp; try (apply safe_eat; reflexivity). apply safe_alt; [apply safe_ipv6|apply safe_future]. Qed.
Lemma safe_regname : safe parse_reg_name.
Proof.
  intros p Hp. unfold parse_reg_name. destruct (safe_loop (orp (take1 is_unreserved) (orp (take1 is_sub_delims) parse_pct_encoded)) p) as (q & -> & H1 & H2 & _).
  - repeat apply safe_orp; try (apply safe_take1; reflexivity). apply safe_pct.
  - assumption.
  - cbn [omap]. exists true, q. split; [reflexivity|auto].
Qed.
Lemma safe_host : safe parse_host.
Proof. unfold parse_host. repeat apply safe_alt; auto using safe_literal, safe_ipv4, safe_regname. Qed.

(** The guard for userinfo: behind an encoded byte there are three more bytes before the final NUL. *)
Definition roomy (p : list Z) : Prop := forall a x y q, p = a ++ 37 :: x :: y :: q -> HEXDIG x -> HEXDIG y -> (4 <= length q)%nat.
Lemma roomy_suffix p q : roomy p -> suffix p q -> roomy q.
Proof. intros H [b ->] a x y r -> Hx Hy. apply (H (b ++ a) x y r); auto. now rewrite app_assoc. Qed.
Lemma hex_of c : isxdigit c = true -> HEXDIG c.
Proof.
  unfold isxdigit, isdigit. intros H.
  assert (E : In c (map Z.of_nat (seq 48 10) ++ map Z.of_nat (seq 65 6) ++ map Z.of_nat (seq 97 6))).
  { rewrite !in_app_iff, !in_map_iff. destruct (Z.leb_spec c 57); [left|right; destruct (Z.leb_spec c 70); [left|right]]; exists (Z.to_nat c); rewrite in_seq; lia. }
  exact E.
Qed.
Lemma user_step p : zt p -> roomy p -> exists b p', userinfo_step p = Ok (b, p') /\ (b = true -> zt p' /\ suffix p p' /\ (length p' < length p)%nat) /\ (b = false -> p' = p).
Proof.
  intros Hp Hr. unfold userinfo_step, orp. destruct (safe_take1 fut eq_refl p Hp) as ([] & p' & -> & H1 & H2); cbn [obind]; [exists true, p'; auto|].
  rewrite (H2 eq_refl). destruct p as [|c p]; [now apply zt_nil in Hp|]. destruct (Z.eq_dec c 37) as [->|Hc].
  - destruct (safe_pct (37 :: p) Hp) as ([] & p2 & E & H3 & H4); rewrite E; cbn [obind]; [|exists false, p2; auto].
    destruct (H3 eq_refl) as (Hz & [a Ea] & HL).
    assert (HQ : exists x y, p = x :: y :: p2 /\ HEXDIG x /\ HEXDIG y).
    { destruct (zt_cons _ _ Hp) as [Hp1|[? ?]]; [|discriminate]. destruct p as [|x p]; [now apply zt_nil in Hp1|]. revert E. unfold parse_pct_encoded, at_, ando. cbn [adv rd obind omap Z.eqb Pos.eqb].
      destruct (isxdigit x) eqn:Ex; [|discriminate]. assert (Hp2 : zt p) by (apply (zt_nz x); [assumption|intros ->; discriminate]). destruct p as [|y p]; [now apply zt_nil in Hp2|]. cbn [adv rd obind omap].
      destruct (isxdigit y) eqn:Ey; [|discriminate]. cbn [obind]. intros [= <-]. exists x, y. split; [reflexivity|]; split; now apply hex_of. }
    destruct HQ as (x & y & -> & Hx & Hy). specialize (Hr [] x y p2 eq_refl Hx Hy).
    destruct p2 as [|d [|e [|f p2]]]; cbn [length] in *; try lia. cbn [adv obind]. exists true, p2. split; [reflexivity|]. split; [|discriminate]. intros _.
    assert (Hz2 : zt p2).
    { destruct (zt_cons _ _ Hz) as [K|[_ K]]; [|discriminate]. destruct (zt_cons _ _ K) as [K2|[_ K2]]; [|discriminate]. destruct (zt_cons _ _ K2) as [K3|[_ ->]]; [assumption|]. cbn in Hr. lia. }
    split; [assumption|]. split; [now exists [37; x; y; d; e; f]|cbn; lia].
  - rewrite pct_no by assumption. cbn [obind]. exists false, (c :: p). split; [reflexivity|]. split; [discriminate|reflexivity].
Qed.
Lemma user_loop p : zt p -> roomy p -> exists q, loop userinfo_step p = Ok q /\ zt q /\ suffix p q.
Proof.
  unfold loop. assert (G : forall f p, (length p < f)%nat -> zt p -> roomy p -> exists q, many f userinfo_step p = Ok q /\ zt q /\ suffix p q).
  { induction f as [|f IH]; intros q Hf Hq Hr; [lia|]. cbn [many]. destruct (user_step q Hq Hr) as ([] & p' & E & H1 & H2); rewrite E; cbn [obind].
    - destruct (H1 eq_refl) as (H3 & H4 & H5). destruct (IH p' ltac:(lia) H3 (roomy_suffix _ _ Hr H4)) as (r & E2 & H6 & H7). exists r. repeat split; auto. eapply suffix_trans; eassumption.
    - rewrite (H2 eq_refl). exists q. auto using suffix_refl. }
  intros Hp Hr. apply G; auto.
Qed.
Lemma authority_safe p : zt p -> roomy p -> exists o, parse_authority p = Ok o /\ forall u h t q, o = Some (u, h, t, q) -> zt q /\ suffix p q.
Proof.
  intros Hp Hr. unfold parse_authority. destruct (user_loop p Hp Hr) as (q & -> & Hq & Hs). cbn [obind]. destruct q as [|c q]; [now apply zt_nil in Hq|]. cbn [rd obind tl].
  set (uh := if c =? 64 then (span p (c :: q), q) else ([], p)).
  assert (Hh : zt (snd uh) /\ suffix p (snd uh)).
  { unfold uh. destruct (Z.eqb_spec c 64) as [->|]; cbn [snd]; [|auto using suffix_refl]. split; [now apply (zt_nz 64)|]. eapply suffix_trans; [exact Hs|now exists [64]]. }
  destruct uh as [u h]. cbn [snd] in Hh. destruct Hh as [Hh Hs2]. destruct (safe_host h Hh) as ([] & q2 & -> & H2); cbn [obind negb]; [|eexists; split; [reflexivity|discriminate]].
  destruct (H2 eq_refl) as [H3 H4]. destruct q2 as [|d q2]; [now apply zt_nil in H3|]. cbn [rd obind tl]. destruct (Z.eqb_spec d 58) as [->|].
  - assert (Hz : zt q2) by now apply (zt_nz 58). destruct (safe_loop (take1 isdigit) q2 (safe_take1 isdigit eq_refl) Hz) as (r & -> & H5 & H6 & _). cbn [obind].
    eexists. split; [reflexivity|]. intros ? ? ? ? [= _ _ _ <-]. split; [assumption|]. eapply suffix_trans; [|exact H6]. eapply suffix_trans; [exact Hs2|]. eapply suffix_trans; [exact H4|now exists [58]].
  - eexists. split; [reflexivity|]. intros ? ? ? ? [= _ _ _ <-]. split; [assumption|]. eapply suffix_trans; eassumption.
Qed.
Lemma part_safe third p : safe third -> zt p -> roomy p -> exists o, parse_part third p = Ok o /\ forall u h t pa q, o = Some (u, h, t, pa, q) -> zt q.
Proof.
  intros Ht Hp Hr. unfold parse_part. destruct p as [|c p]; [now apply zt_nil in Hp|]. unfold at_, ando. cbn [adv rd obind omap].
  assert (G : exists o, (let* (_, q) := alt parse_path_absolute (alt third yes) (c :: p) in Ok (Some ([], [], [], span (c :: p) q, q))) = Ok o /\
     forall (u h t pa : list Z) q, o = Some (u, h, t, pa, q) -> zt q).
  { assert (HS : safe (alt third yes)) by (apply safe_alt; [assumption|apply safe_yes]).
    unfold alt at 1. destruct (safe_absolute (c :: p) Hp) as ([] & q & -> & H); cbn [obind].
    - eexists. split; [reflexivity|]. intros ? ? ? ? ? [= _ _ _ _ <-]. now destruct (H eq_refl).
    - unfold alt. destruct (Ht (c :: p) Hp) as ([] & q2 & -> & H2); cbn [obind].
      + eexists. split; [reflexivity|]. intros ? ? ? ? ? [= _ _ _ _ <-]. now destruct (H2 eq_refl).
      + eexists. split; [reflexivity|]. intros ? ? ? ? ? [= _ _ _ _ <-]. assumption. }
  destruct (Z.eqb_spec 47 c) as [<-|Hc]; [|exact G]. assert (Hp1 : zt p) by now apply (zt_nz 47). destruct p as [|d p]; [now apply zt_nil in Hp1|]. cbn [adv rd obind omap].
  destruct (Z.eqb_spec 47 d) as [<-|Hd]; [|exact G]. cbn [adv obind]. assert (Hp2 : zt p) by now apply (zt_nz 47).
  destruct (authority_safe p Hp2) as (o & -> & Ho).
  { apply (roomy_suffix _ _ Hr). now exists [47; 47]. }
  cbn [obind]. destruct o as [[[[u h] t] q]|]; [|eexists; split; [reflexivity|discriminate]].
  destruct (Ho _ _ _ _ eq_refl) as [Hq Hs]. unfold parse_path_abempty. destruct (safe_loop _ q safe_abstep Hq) as (r & -> & H3 & H4 & _). cbn [obind].
  eexists. split; [reflexivity|]. intros ? ? ? ? ? [= _ _ _ _ <-]. assumption.
Qed.
Lemma tail_safe p : zt p -> exists o, parse_tail p = Ok o.
Proof.
  intros Hp. unfold parse_tail. destruct p as [|c p]; [now apply zt_nil in Hp|]. cbn [rd obind tl].
  assert (G : forall (x : list Z) q, zt q -> exists o, (let* c := rd q in let* (f, p0) := (if c =? 35 then let* r := parse_query (tl q) in Ok (span (tl q) r, r) else Ok (@nil Z, q)) in
     let* c0 := rd p0 in Ok (if c0 =? 0 then Some (x, f) else None)) = Ok o).
  { intros x q Hq. destruct q as [|d q]; [now apply zt_nil in Hq|]. cbn [rd obind tl]. destruct (Z.eqb_spec d 35) as [->|Hd].
    - unfold parse_query. assert (Hz : zt q) by now apply (zt_nz 35). destruct (safe_loop _ q safe_query Hz) as (r & -> & H3 & _). cbn [obind]. destruct r; [now apply zt_nil in H3|]. cbn. eauto.
    - cbn. eauto. }
  destruct (Z.eqb_spec c 63) as [->|Hc].
  - unfold parse_query at 1. assert (Hz : zt p) by now apply (zt_nz 63). destruct (safe_loop _ p safe_query Hz) as (r & -> & H3 & _). cbn [obind]. apply G. assumption.
  - cbn [obind]. apply (G [] (c :: p)). assumption.
Qed.

Theorem uri_safe s : (forall a x y q, s = a ++ 37 :: x :: y :: q -> HEXDIG x -> HEXDIG y -> (3 <= length q)%nat) -> exists c, uri s = Ok c.
Proof.
  intros H. assert (Hz : zt (s ++ [0])) by now exists s.
  assert (Hr : roomy (s ++ [0])).
  { intros a x y q E Hx Hy. destruct (list_eq_dec Z.eq_dec q []) as [->|Hn].
    - change (37 :: x :: [y]) with ([37; x] ++ [y]) in E. rewrite app_assoc in E. apply app_inj_tail in E. destruct E as [_ <-]. apply hex_b in Hy. discriminate.
    - destruct (exists_last Hn) as (q' & e & ->). change (37 :: x :: y :: q' ++ [e]) with ((37 :: x :: y :: q') ++ [e]) in E. rewrite app_assoc in E.
      apply app_inj_tail in E. destruct E as [-> _]. specialize (H a x y q' eq_refl Hx Hy). rewrite app_length. cbn. lia. }
  assert (HR : exists o, parse_relative_ref (s ++ [0]) = Ok o).
  { unfold parse_relative_ref. destruct (part_safe _ _ safe_noscheme Hz Hr) as (o & -> & Ho). cbn [obind]. destruct o as [[[[[u h] t] pa] q]|]; [|eauto].
    destruct (tail_safe q (Ho _ _ _ _ _ eq_refl)) as [o ->]. cbn. eauto. }
  assert (HU : exists o, parse_uri (s ++ [0]) = Ok o).
  { unfold parse_uri, parse_scheme. destruct (safe_eat isalpha eq_refl _ Hz) as ([] & q & -> & H1); cbn [obind negb]; [|eauto]. destruct (H1 eq_refl) as [H2 H3].
    destruct (safe_loop (take1 (fun c => isalnum c || (c =? 43) || (c =? 45) || (c =? 46))) q (safe_take1 _ eq_refl) H2) as (r & -> & H4 & H5 & _). cbn [obind].
    destruct (safe_colon r H4) as ([] & p & -> & H6); cbn [obind negb]; [|eauto]. destruct (H6 eq_refl) as [H7 H8].
    destruct (part_safe _ p safe_rootless H7) as (o & -> & Ho).
    { eapply roomy_suffix; [exact Hr|]. eapply suffix_trans; [exact H3|]. eapply suffix_trans; eassumption. }
    cbn [obind]. destruct o as [[[[[u h] t] pa] q2]|]; [|eauto]. destruct (tail_safe q2 (Ho _ _ _ _ _ eq_refl)) as [o ->]. cbn. eauto. }
  unfold uri. destruct HU as [o ->]. cbn [obind]. destruct o; [eauto|]. destruct HR as [o ->]. cbn. eauto.
Qed.
