(** Multipart forms with lines that start with two dashes. *)
From Verif Require Import Common CommonLemmas UriCodec_Model UriCodec_Spec Http_Model Cgi_Model Cgi_Spec Cgi_Proof.
Local Open Scope Z_scope.

(** Each delim in X is followed by as many bytes as the boundary has, within X, and they are not the boundary. *)
Definition clear1 (bd X : list Z) : Prop := forall a b, X = a ++ delim ++ b -> (length bd <= length b)%nat /\ forall r, b <> bd ++ r.
Lemma clear_tail bd x X : clear1 bd (x ++ X) -> clear1 bd X.
Proof. intros H a b E. apply (H (x ++ a) b). now rewrite E, <- app_assoc. Qed.
Lemma clear_cr bd T : ~ In 13 bd -> clear bd T -> clear1 bd (T ++ [13]).
Proof.
  intros H13 H a b E. destruct b as [|z b _] using rev_ind.
  - exfalso. change delim with ([10; 45] ++ [45]) in E. rewrite app_nil_r, app_assoc in E. apply app_inj_tail in E as [_ E]. discriminate.
  - rewrite !app_assoc in E. apply app_inj_tail in E as [E <-]. rewrite <- app_assoc in E. destruct (H a b E) as [L N]. rewrite app_length. cbn [length].
    split; [lia|]. intros r Er. destruct r as [|y r _] using rev_ind.
    + rewrite app_nil_r in Er. apply H13. rewrite <- Er. apply in_or_app. right. now left.
    + rewrite app_assoc in Er. apply app_inj_tail in Er as [Er _]. exact (N r Er).
Qed.
Lemma scan_clear bd after : forall n s f a b cnt acc X,
  (length s <= n)%nat -> (length s < f)%nat -> 0 <= cnt -> (cnt < 2 -> a <> 10) -> (cnt < 1 -> b <> 10) ->
  clear1 bd X -> pending cnt a b ++ s = X ++ delim ++ bd ++ after ->
  scan_part f bd a b cnt acc s = let (rest, e) := boundary_end after 0 false in Ok (chop_cr (acc ++ X), rest, e).
Proof.
  induction n as [|n IH]; intros s f a b cnt acc X Hn Hf Hc Ha Hb Hno E; (destruct f as [|f]; [lia|]);
    (destruct s as [|c r]; [exfalso; apply (f_equal (@length Z)) in E; rewrite !app_length in E; unfold pending in E;
      destruct (2 <=? cnt); [|destruct (cnt =? 1)]; cbn [length delim] in E; lia|]); cbn [length] in Hn, Hf; [lia|].
  cbn [scan_part]. destruct (Z.leb_spec 2 cnt) as [H2|H2].
  - unfold pending in E. replace (2 <=? cnt) with true in E by (symmetry; apply Z.leb_le; lia). cbn [app] in E.
    destruct X as [|x X].
    + cbn [app delim] in E. injection E as -> -> -> ->. change ((10 =? 10) && (45 =? 45) && (45 =? 45)) with true. cbv iota.
      rewrite firstn_at by reflexivity. rewrite app_length. replace (length bd - (length bd + length after))%nat with 0%nat by lia.
      cbn [repeat]. rewrite app_nil_r, eqs_refl, skipn_at, app_nil_r by reflexivity. reflexivity.
    + injection E as <- E. destruct ((a =? 10) && (b =? 45) && (c =? 45)) eqn:M.
      * rewrite !andb_true_iff, !Z.eqb_eq in M. destruct M as [[-> ->] ->].
        destruct X as [|x1 X]; [injection E as E; discriminate|]. injection E as <- E. destruct X as [|x2 X]; [injection E as E; discriminate|]. injection E as <- E.
        destruct (Hno [] X eq_refl) as [L N].
        assert (EX : X = firstn (length bd) X ++ skipn (length bd) X) by (symmetry; apply firstn_skipn). set (k := firstn (length bd) X) in *. set (Y := skipn (length bd) X) in *.
        assert (Lk : length k = length bd) by (unfold k; rewrite firstn_length; lia).
        change (r = X ++ delim ++ bd ++ after) in E. rewrite EX in E. rewrite <- app_assoc in E. rewrite E. rewrite (firstn_at k), (skipn_at k) by congruence.
        replace (length bd - length (k ++ Y ++ delim ++ bd ++ after))%nat with 0%nat by (rewrite app_length; lia). cbn [repeat]. rewrite app_nil_r.
        rewrite eqs_neq by (intros K; apply (N Y); rewrite <- K; exact EX).
        assert (Lr : length r = length (k ++ Y ++ delim ++ bd ++ after)) by now rewrite E.
        rewrite (IH _ f 45 45 0 _ Y); try lia.
        -- destruct (boundary_end after 0 false) as [rest e]. rewrite EX. change (str "--") with [45; 45]. rewrite <- !app_assoc. reflexivity.
        -- rewrite app_length in Lr. lia.
        -- rewrite app_length in Lr. lia.
        -- apply (clear_tail bd (10 :: 45 :: 45 :: k)). cbn [app]. rewrite <- EX. exact Hno.
        -- reflexivity.
      * rewrite (IH r f b c (cnt + 1) (acc ++ [a]) X); try lia.
        -- now rewrite <- app_assoc.
        -- apply (clear_tail bd [a]), Hno.
        -- unfold pending. replace (2 <=? cnt + 1) with true by (symmetry; apply Z.leb_le; lia). exact E.
  - replace (a =? 10) with false by (symmetry; apply Z.eqb_neq, Ha, H2). cbn [andb].
    assert (Hcase : cnt = 0 \/ cnt = 1) by lia. destruct Hcase as [-> | ->].
    + change (0 + 1) with 1. change (2 <=? 0) with false. cbv iota.
      apply IH; try lia; assumption.
    + change (1 + 1) with 2. change (2 <=? 1) with false. cbv iota. apply IH; try lia; assumption.
Qed.
Lemma scan_text2 bd T after : ~ In 13 bd -> clear bd T ->
  scan_part (S (length (T ++ crlf ++ str "--" ++ bd ++ after))) bd 0 0 0 [] (T ++ crlf ++ str "--" ++ bd ++ after) =
  let (rest, e) := boundary_end after 0 false in Ok (T, rest, e).
Proof.
  intros Hb Hp. rewrite (scan_clear bd after _ _ _ 0 0 0 [] (T ++ [13]) (Nat.le_refl _)); try lia.
  - cbn [app]. now rewrite chop_crlf.
  - now apply clear_cr.
  - cbn [pending Z.leb Z.compare Z.eqb app]. unfold crlf, delim. rewrite <- !app_assoc. reflexivity.
Qed.
Lemma one_part2 bd p : part_clear bd p -> split_part (part_text p) = Ok (part_header p, part_body p).
Proof.
  destruct p as [n v|n f t c]; cbn [part_clear part_body].
  - intros [H _]. now apply split_field.
  - intros (H1 & H2 & H3 & _). now apply split_file.
Qed.
Lemma handled again bd p c : part_clear bd p -> (let (hd, ct) := get (part_header p) (str "Content-Type") in
  match find_sub (str "multipart/") ct with
  | Some _ => again (part_body p) (substr ct (match find_sub (str "boundary=") ct with Some i => i + 9 | None => 8 end)%nat None) c
  | None => Ok (add_part c hd (part_body p))
  end) = Ok (step c p).
Proof.
  intros H. destruct p as [n v|n fl t x]; cbn [part_clear part_body] in *.
  - change (get (part_header (Field n v)) (str "Content-Type")) with
      ([(str "Content-Disposition", cd_field n); (str "Content-Type", [] : list Z)], [] : list Z). cbv iota beta.
    change (find_sub (str "multipart/") []) with (@None nat). cbv iota. rewrite add_field by tauto. reflexivity.
  - change (get (part_header (File n fl t x)) (str "Content-Type")) with (part_header (File n fl t x), ltrim (32 :: t ++ [13])). cbv iota beta.
    rewrite find_sub_none by (apply contains_ct; tauto). rewrite add_filep by tauto. reflexivity.
Qed.
Lemma clear_part bd p : part_clear bd p -> clear bd (part_text p).
Proof. destruct p; cbn [part_clear]; tauto. Qed.
Lemma parts_all2 again bd epi : ~ In 13 bd -> forall ps f p c, Forall (part_clear bd) (p :: ps) -> (length ps < f)%nat ->
  parts again f bd (part_text p ++ crlf ++ str "--" ++ bd ++ behind bd ps epi) c = Ok (fold_left step (p :: ps) c).
Proof.
  intros Hb. induction ps as [|q ps IH]; intros f p c Hok Hf; (destruct f as [|f]; [lia|]); cbn [parts]; inversion Hok as [|? ? Hp Hps]; subst.
  all: rewrite (scan_text2 bd (part_text p) _ Hb (clear_part bd p Hp)); pose proof (handled again bd p c Hp) as HH.
  - destruct (boundary_behind bd [] epi) as (r & e & -> & ->). cbn [obind]. rewrite (one_part2 bd p Hp). cbn [obind].
    destruct (get (part_header p) (str "Content-Type")) as [hd ct]. rewrite HH. reflexivity.
  - destruct (boundary_behind bd (q :: ps) epi) as (r & e & -> & -> & ->). cbn [obind]. rewrite (one_part2 bd p Hp). cbn [obind]. cbn [length] in Hf.
    destruct (get (part_header p) (str "Content-Type")) as [hd ct]. rewrite HH. cbn [obind]. apply IH; [assumption|lia].
Qed.
Lemma multipart_all2 bd ps pre epi c : ~ In 10 bd -> ~ In 13 bd -> preamble_ok bd pre -> Forall (part_clear bd) ps ->
  parse_multipart_input (lines pre ++ multipart_text bd ps ++ epi) bd c = Ok (fold_left step ps c).
Proof.
  intros Hb Hr Hpre Hps. unfold parse_multipart_input. rewrite multipart_behind. set (s := lines pre ++ _). cbn [parse_multipart].
  destruct (skip_lines bd pre (str "--" ++ bd ++ behind bd ps epi) Hpre (S (length s))) as (f & Hf & E); [unfold s; lia|].
  fold s in E. rewrite E. destruct (skip_boundary bd ps epi f Hb) as (r & -> & Hr'); [lia|].
  destruct ps as [|p ps]; [reflexivity|]. subst r. apply parts_all2; [exact Hr|exact Hps|].
  rewrite !app_length. pose proof (behind_length bd ps epi). lia.
Qed.
Lemma clear_ok bd p : part_ok p -> part_clear bd p.
Proof.
  assert (K : forall T, ~ contains (10 :: str "--") T -> clear bd T) by (intros T H a b E; exfalso; apply H; now exists a, b).
  destruct p; cbn [part_ok part_clear]; intuition.
Qed.

(** ** The headers of files *)
Definition informed (c : cgi) (is : list (list Z * header)) : Prop := forall k, find (file_info c) k = last_info k is.
Lemma last_info_app k a b : last_info k (a ++ b) = match last_info k b with Some h => Some h | None => last_info k a end.
Proof.
  unfold last_info. rewrite filter_app, map_app, rev_app_distr. destruct (rev (map snd (filter _ b))); reflexivity.
Qed.
Lemma informed_steps ps : forall c is, informed c is -> informed (fold_left step ps c) (is ++ infos ps).
Proof.
  induction ps as [|p ps IH]; intros c is H; cbn [fold_left infos flat_map]; [now rewrite app_nil_r|]. fold (infos ps). rewrite app_assoc. apply IH.
  destruct p as [n v|n f t x]; cbn [step].
  - rewrite app_nil_r. exact H.
  - intros k. unfold add_file. cbn [file_info add_query]. rewrite find_upd, last_info_app. specialize (H k). unfold last_info at 1. cbn [filter fst snd map rev app].
    change (eq_str f k) with (eqs f k). destruct (eqs f k); cbn [map rev app snd]; [reflexivity|exact H].
Qed.
