(** Form parsing. *)
From Verif Require Import Common CommonLemmas UriCodec_Model UriCodec_Spec UriCodec_Proof Http_Model Cgi_Spec Cgi_Model.
Local Open Scope Z_scope.

Lemma eqs_iff a b : eqs a b = true <-> a = b.
Proof. unfold eqs. destruct (list_eq_dec Z.eq_dec a b); split; congruence. Qed.
Lemma eqs_refl a : eqs a a = true.
Proof. now apply eqs_iff. Qed.
Lemma eqs_neq a b : a <> b -> eqs a b = false.
Proof. intros H. destruct (eqs a b) eqn:E; [now apply eqs_iff in E|reflexivity]. Qed.

(** ** Maps *)
Lemma find_upd {A} (m : smap A) k d f k' :
  find (upd m k d f) k' = if eqs k k' then Some (f (match find m k with Some a => a | None => d end)) else find m k'.
Proof.
  induction m as [|(k1, a) m IH]; cbn [upd find].
  - reflexivity.
  - destruct (eqs k1 k) eqn:E; cbn [find].
    + apply eqs_iff in E as ->. now destruct (eqs k k').
    + rewrite IH. destruct (eqs k1 k') eqn:E1; [|reflexivity].
      apply eqs_iff in E1 as ->. destruct (eqs k k') eqn:E2; [|reflexivity].
      apply eqs_iff in E2 as ->. now rewrite eqs_refl in E.
Qed.

Definition add_all (ps : list (list Z * list Z)) (c : cgi) : cgi := fold_left (fun c p => add_query c (fst p) (snd p)) ps c.
Definition queries (c : cgi) (ps : list (list Z * list Z)) : Prop :=
  forall k, find (query c) k = last_of (values k ps) /\ find (multi_query c) k = all_of (values k ps).
Definition filed (c : cgi) (fs : list (list Z * list Z)) : Prop := forall k, find (file c) k = last_of (values k fs).

Lemma values_app k ps qs : values k (ps ++ qs) = values k ps ++ values k qs.
Proof. unfold values. now rewrite filter_app, map_app. Qed.
Lemma values_one k k' v : values k [(k', v)] = if eqs k' k then [v] else [].
Proof. unfold values. cbn [filter fst]. change (eq_str k' k) with (eqs k' k). now destruct (eqs k' k). Qed.
Lemma last_of_snoc vs v : last_of (vs ++ [v]) = Some v.
Proof. unfold last_of. now rewrite rev_app_distr. Qed.
Lemma all_of_snoc vs v : all_of (vs ++ [v]) = Some (vs ++ [v]).
Proof. now destruct vs. Qed.

Lemma queries_add c ps k v : queries c ps -> queries (add_query c k v) (ps ++ [(k, v)]).
Proof.
  intros H k'. unfold add_query. cbn [query multi_query]. rewrite !find_upd, values_app, values_one.
  destruct (eqs k k') eqn:E.
  - apply eqs_iff in E as ->. rewrite last_of_snoc, all_of_snoc. destruct (H k') as [_ ->].
    split; [reflexivity|]. now destruct (values k' ps).
  - rewrite app_nil_r. apply H.
Qed.
Lemma queries_add_all ps : forall c qs, queries c qs -> queries (add_all ps c) (qs ++ ps).
Proof.
  induction ps as [|(k, v) ps IH]; intros c qs H; cbn [add_all fold_left].
  - now rewrite app_nil_r.
  - change ((k, v) :: ps) with ([(k, v)] ++ ps). rewrite app_assoc. apply IH. cbn [fst snd]. now apply queries_add.
Qed.
Lemma queries_empty : queries empty_cgi [].
Proof. intros k. split; reflexivity. Qed.

(** ** URL-encoded *)
Lemma hexdigit_unreserved c v : hexdigit c v -> unreserved c.
Proof.
  intros H. apply unreserved_range. unfold isalnum. inversion H; subst; lia.
Qed.
Lemma not_in_lit x l : existsb (Z.eqb x) l = false -> ~ In x l.
Proof.
  intros H Hx. assert (existsb (Z.eqb x) l = true); [|congruence].
  apply existsb_exists. exists x. split; [exact Hx|apply Z.eqb_refl].
Qed.
Lemma percent_chars s e : percent_form s e -> forall c, In c e -> c <> 38 /\ c <> 61 /\ c <> 0.
Proof.
  assert (HU : forall c, unreserved c -> c <> 38 /\ c <> 61 /\ c <> 0).
  { intros c H. unfold unreserved in H. repeat split; intros ->; revert H; apply not_in_lit; reflexivity. }
  induction 1 as [|c s e Hc H IH|s e H IH|h l s e ch cl Hh Hl H IH]; intros x Hx.
  - destruct Hx.
  - destruct Hx as [->|Hx]; auto.
  - destruct Hx as [<-|Hx]; [lia|auto].
  - destruct Hx as [<-|[<-|[<-|Hx]]]; [lia|apply HU; eapply hexdigit_unreserved; eauto..|auto].
Qed.
Lemma strchr_at c a b : ~ In c a -> ~ In 0 a -> strchr c (a ++ c :: b) = Some (a, b).
Proof.
  induction a as [|x a IH]; intros H0 H1; cbn [app strchr].
  - now rewrite Z.eqb_refl.
  - replace (x =? c) with false by (symmetry; apply Z.eqb_neq; intros ->; apply H0; now left).
    replace (x =? 0) with false by (symmetry; apply Z.eqb_neq; intros ->; apply H1; now left).
    rewrite IH; [reflexivity|intros ?; apply H0; now right|intros ?; apply H1; now right].
Qed.
Lemma strchr_none c a : ~ In c a -> strchr c a = None.
Proof.
  induction a as [|x a IH]; intros H0; cbn [strchr]; [reflexivity|].
  replace (x =? c) with false by (symmetry; apply Z.eqb_neq; intros ->; apply H0; now left).
  destruct (x =? 0); [reflexivity|]. rewrite IH; [reflexivity|intros ?; apply H0; now right].
Qed.

Lemma parse_item k v ek ev f t c :
  percent_form k ek -> percent_form v ev ->
  parse_loop (S f) (ek ++ 61 :: ev ++ 38 :: t) c = parse_loop f t (add_query c k v) /\
  parse_loop (S f) (ek ++ 61 :: ev) c = parse_loop f [] (add_query c k v).
Proof.
  intros Hk Hv. pose proof (percent_chars _ _ Hk) as Ck. pose proof (percent_chars _ _ Hv) as Cv.
  assert (Hhead : forall l, exists a r, ek ++ 61 :: l = a :: r /\ a <> 0).
  { intros l. destruct ek as [|a r]; [exists 61, l; split; [reflexivity|lia]|]. exists a, (r ++ 61 :: l).
    split; [reflexivity|]. now apply Ck; left. }
  assert (Hi : ~ In 38 (ek ++ 61 :: ev)).
  { intros [H|[H|H]]%in_app_or; [now apply Ck in H|lia|now apply Cv in H]. }
  assert (H0 : ~ In 0 (ek ++ 61 :: ev)).
  { intros [H|[H|H]]%in_app_or; [now apply Ck in H|lia|now apply Cv in H]. }
  assert (He : strchr 61 (ek ++ 61 :: ev) = Some (ek, ev)).
  { apply strchr_at; intros H; now apply Ck in H. }
  split; cbn [parse_loop].
  - destruct (Hhead (ev ++ 38 :: t)) as (a & r & E & Ha). rewrite E. rewrite (proj2 (Z.eqb_neq a 0)) by exact Ha. rewrite <- E.
    replace (ek ++ 61 :: ev ++ 38 :: t) with ((ek ++ 61 :: ev) ++ 38 :: t) by now rewrite <- app_assoc.
    rewrite strchr_at by assumption. rewrite He, (decode_percent_form _ _ Hk), (decode_percent_form _ _ Hv). reflexivity.
  - destruct (Hhead ev) as (a & r & E & Ha). rewrite E. rewrite (proj2 (Z.eqb_neq a 0)) by exact Ha. rewrite <- E.
    rewrite strchr_none by assumption. rewrite He, (decode_percent_form _ _ Hk), (decode_percent_form _ _ Hv). reflexivity.
Qed.
Lemma parse_form ps t : form_text ps t -> forall f c, (length t < f)%nat -> parse_loop f t c = Ok (add_all ps c).
Proof.
  induction 1 as [|k v ek ev Hk Hv|k v ek ev p ps t Hk Hv Ht IH]; intros f c Hf.
  - destruct f; [lia|reflexivity].
  - destruct f as [|f]; [lia|]. rewrite (proj2 (parse_item k v ek ev f [] c Hk Hv)).
    rewrite app_length in Hf; cbn [length] in Hf. destruct f; [lia|reflexivity].
  - destruct f as [|f]; [lia|]. rewrite (proj1 (parse_item k v ek ev f t c Hk Hv)).
    rewrite app_length in Hf; cbn [length] in Hf. rewrite app_length in Hf; cbn [length] in Hf. now rewrite IH by lia.
Qed.

(** ** Searching *)
Lemma prefix_iff x s : prefix x s = true <-> exists r, s = x ++ r.
Proof.
  revert s. induction x as [|a x IH]; intros s; cbn [prefix].
  - split; [intros _; now exists s|reflexivity].
  - destruct s as [|b s].
    + split; [discriminate|intros [r H]; discriminate].
    + rewrite andb_true_iff, IH, Z.eqb_eq. split.
      * intros [-> [r ->]]. now exists r.
      * intros [r [= -> ->]]. split; [reflexivity|now exists r].
Qed.
Lemma find_sub_none x s : ~ contains x s -> find_sub x s = None.
Proof.
  induction s as [|c s IH]; intros H; cbn [find_sub].
  - destruct (prefix x []) eqn:E; [|reflexivity]. apply prefix_iff in E as [r E]. exfalso. apply H. exists [], r. exact E.
  - destruct (prefix x (c :: s)) eqn:E.
    + apply prefix_iff in E as [r E]. exfalso. apply H. exists [], r. exact E.
    + rewrite IH; [reflexivity|]. intros (a & b & ->). apply H. now exists (c :: a), b.
Qed.
Lemma find_char c a b : ~ In c a -> find_sub [c] (a ++ c :: b) = Some (length a).
Proof.
  induction a as [|x a IH]; intros H; cbn [app find_sub prefix length].
  - now rewrite Z.eqb_refl.
  - replace (c =? x) with false by (symmetry; apply Z.eqb_neq; intros ->; apply H; now left).
    cbn [andb]. rewrite IH; [reflexivity|intros ?; apply H; now right].
Qed.
Lemma find_char_none c a : ~ In c a -> find_sub [c] a = None.
Proof.
  intros H. apply find_sub_none. intros (x & y & ->). apply H, in_or_app. right. now left.
Qed.
Lemma find_from_at c s i a b : skipn i s = a ++ c :: b -> ~ In c a -> find_from c s i = Some (i + length a)%nat.
Proof. intros E H. unfold find_from. rewrite E, find_char by assumption. reflexivity. Qed.
Lemma find_from_none c s i : ~ In c (skipn i s) -> find_from c s i = None.
Proof. intros H. unfold find_from. now rewrite find_char_none. Qed.
Lemma skipn_at {A} (a b : list A) n : n = length a -> skipn n (a ++ b) = b.
Proof. intros ->. rewrite skipn_app, skipn_all, Nat.sub_diag. reflexivity. Qed.
Lemma firstn_at {A} (a b : list A) n : n = length a -> firstn n (a ++ b) = a.
Proof. intros ->. rewrite firstn_app, firstn_all, Nat.sub_diag. cbn [firstn]. apply app_nil_r. Qed.

(** A quoted attribute. *)
Lemma extract_attr_quoted key k n r :
  ~ In 61 key -> map tolower (trim key) = k -> ~ In 34 n -> extract_attr (key ++ 61 :: quoted n ++ r) = (k, n).
Proof.
  intros Hk Ek Hn. unfold extract_attr.
  rewrite (find_from_at 61 _ 0 key (quoted n ++ r)) by (reflexivity || assumption). cbn [Nat.add].
  unfold substr at 1. cbn [skipn]. rewrite firstn_at by reflexivity. rewrite Ek.
  rewrite (find_from_at 34 _ (S (length key)) [] (n ++ 34 :: r)).
  2:{ change (key ++ 61 :: quoted n ++ r) with (key ++ [61] ++ (34 :: n ++ [34]) ++ r).
      rewrite app_assoc, skipn_at by (rewrite app_length; cbn [length]; lia).
      cbn [app]. now rewrite <- app_assoc. }
  2:{ intros []. }
  cbn [length]. rewrite Nat.add_0_r.
  assert (E : skipn (S (S (length key))) (key ++ 61 :: quoted n ++ r) = n ++ 34 :: r).
  { replace (key ++ 61 :: quoted n ++ r) with ((key ++ [61; 34]) ++ n ++ 34 :: r).
    - apply skipn_at. rewrite app_length. cbn [length]. lia.
    - unfold quoted. rewrite <- app_assoc. cbn [app]. rewrite <- app_assoc. reflexivity. }
  rewrite (find_from_at 34 _ _ n r E Hn). unfold substr. rewrite E. f_equal. apply firstn_at. lia.
Qed.

Lemma extract_field n : plain n ->
  extract_header (str "form-data; name=" ++ quoted n ++ [13]) = (str "form-data", [(str "name", n)]).
Proof.
  intros (Hq & Hs & _ & _). unfold extract_header.
  set (s := str "form-data; name=" ++ quoted n ++ [13]).
  assert (Ef : substr s 0 (Some 9%nat) = str "form-data") by reflexivity.
  assert (E0 : find_from 59 s 0 = Some 9%nat).
  { apply (find_from_at 59 s 0 (str "form-data") (str " name=" ++ quoted n ++ [13])); [reflexivity|].
    apply not_in_lit. reflexivity. }
  rewrite E0, Ef. f_equal.
  assert (El : exists m, length s = S (S m)) by (eexists; reflexivity). destruct El as [m ->]. cbn [extract_attrs].
  assert (E1 : skipn 10 s = str " name" ++ 61 :: quoted n ++ [13]) by reflexivity.
  rewrite find_from_none.
  2:{ rewrite E1. unfold quoted. intros H. apply in_app_or in H as [H|H]; [revert H; apply not_in_lit; reflexivity|].
      cbn [app In] in H. destruct H as [H|[H|H]]; [lia..|]. rewrite <- app_assoc in H. apply in_app_or in H as [H|H]; [now apply Hs|].
      cbn [app In] in H. intuition lia. }
  unfold substr. rewrite E1, (extract_attr_quoted _ (str "name")) by (try assumption; try reflexivity; apply not_in_lit; reflexivity).
  reflexivity.
Qed.
Lemma extract_file n f : plain n -> plain f ->
  extract_header (str "form-data; name=" ++ quoted n ++ str "; filename=" ++ quoted f ++ [13]) =
  (str "form-data", [(str "name", n); (str "filename", f)]).
Proof.
  intros (Hq & Hs & _ & _) (Gq & Gs & _ & _). unfold extract_header.
  set (s := str "form-data; name=" ++ quoted n ++ str "; filename=" ++ quoted f ++ [13]).
  assert (Ef : substr s 0 (Some 9%nat) = str "form-data") by reflexivity.
  assert (E0 : find_from 59 s 0 = Some 9%nat).
  { apply (find_from_at 59 s 0 (str "form-data") (str " name=" ++ quoted n ++ str "; filename=" ++ quoted f ++ [13])); [reflexivity|].
    apply not_in_lit. reflexivity. }
  rewrite E0, Ef. f_equal.
  assert (El : exists m, length s = S (S (S m))) by (eexists; reflexivity). destruct El as [m ->]. cbn [extract_attrs].
  assert (E1 : skipn 10 s = str " name" ++ 61 :: quoted n ++ str "; filename=" ++ quoted f ++ [13]) by reflexivity.
  assert (E1' : skipn 10 s = (str " name=" ++ quoted n) ++ 59 :: str " filename=" ++ quoted f ++ [13]).
  { rewrite E1, <- app_assoc. reflexivity. }
  rewrite (find_from_at 59 s 10 (str " name=" ++ quoted n) (str " filename=" ++ quoted f ++ [13]) E1').
  2:{ intros H. apply in_app_or in H as [H|H]; [revert H; apply not_in_lit; reflexivity|].
      unfold quoted in H. destruct H as [H|H]; [lia|]. apply in_app_or in H as [H|H]; [now apply Hs|]. cbn in H. intuition lia. }
  set (p := (10 + length (str " name=" ++ quoted n))%nat).
  unfold substr at 1. rewrite E1', firstn_app.
  replace (firstn p (str " name=" ++ quoted n)) with (str " name" ++ 61 :: quoted n).
  2:{ symmetry. rewrite firstn_all2; [reflexivity|]. unfold p. lia. }
  rewrite <- app_assoc. change ((61 :: quoted n) ++ ?x) with (61 :: quoted n ++ x).
  rewrite (extract_attr_quoted _ (str "name")) by (try assumption; try reflexivity; apply not_in_lit; reflexivity).
  cbn [find app].
  assert (E2 : skipn (S p) s = str " filename" ++ 61 :: quoted f ++ [13]).
  { replace s with ((str "form-data; name=" ++ quoted n ++ [59]) ++ str " filename" ++ 61 :: quoted f ++ [13]).
    - apply skipn_at. unfold p. rewrite !app_length.
      change (length (str "form-data; name=")) with 16%nat. change (length (str " name=")) with 6%nat. cbn [length]. lia.
    - unfold s. rewrite <- !app_assoc. reflexivity. }
  rewrite find_from_none.
  2:{ rewrite E2. unfold quoted. intros H. apply in_app_or in H as [H|H]; [revert H; apply not_in_lit; reflexivity|].
      cbn [app In] in H. destruct H as [H|[H|H]]; [lia..|]. rewrite <- app_assoc in H. apply in_app_or in H as [H|H]; [now apply Gs|].
      cbn [app In] in H. intuition lia. }
  unfold substr. rewrite E2, (extract_attr_quoted _ (str "filename")) by (try assumption; try reflexivity; apply not_in_lit; reflexivity).
  destruct m; reflexivity.
Qed.

(** ** One part *)
Lemma take_line_at l r : ~ In 10 l -> take_line (l ++ 10 :: r) = Some (l, r).
Proof.
  induction l as [|a l IH]; intros H; cbn [app take_line]; [reflexivity|].
  replace (a =? 10) with false by (symmetry; apply Z.eqb_neq; intros ->; apply H; now left).
  rewrite IH; [reflexivity|intros ?; apply H; now right].
Qed.
Lemma getline_line l r : ~ In 10 l -> istream_getline (Good (l ++ 10 :: r)) = Ok (Some l, Good r).
Proof. intros H. cbn [istream_getline]. now rewrite take_line_at. Qed.

Lemma plain_no10 n : plain n -> ~ In 10 n.
Proof. now intros (_ & _ & H & _). Qed.
Lemma no10_app a b : ~ In 10 a -> ~ In 10 b -> ~ In 10 (a ++ b).
Proof. intros Ha Hb [H|H]%in_app_or; auto. Qed.
Lemma no10_quoted n : ~ In 10 n -> ~ In 10 (quoted n).
Proof. intros H. unfold quoted. intros [E|[E|[E|[]]]%in_app_or]; [lia|auto|lia]. Qed.

Definition cd_field n : list Z := str "form-data; name=" ++ quoted n ++ [13].
Definition cd_file n f : list Z := str "form-data; name=" ++ quoted n ++ str "; filename=" ++ quoted f ++ [13].
Definition part_header (p : part) : header :=
  match p with
  | Field n v => [(str "Content-Disposition", cd_field n)]
  | File n f t c => [(str "Content-Disposition", cd_file n f); (str "Content-Type", ltrim (32 :: t ++ [13]))]
  end.
Definition part_body (p : part) : list Z := match p with Field _ v => v | File _ _ _ c => c end.

Lemma split_line_cd r : split_line [] (str "Content-Disposition:" ++ r) = (str "Content-Disposition", r).
Proof. reflexivity. Qed.
Lemma split_line_ct r : split_line [] (str "Content-Type:" ++ r) = (str "Content-Type", r).
Proof. reflexivity. Qed.
Lemma getline_blank r : istream_getline (Good (13 :: 10 :: r)) = Ok (Some [13], Good r).
Proof. reflexivity. Qed.

Lemma split_field n v : plain n -> split_part (part_text (Field n v)) = Ok (part_header (Field n v), v).
Proof.
  intros Hn. unfold split_part, read_header. set (L := length _). 
  assert (E : part_text (Field n v) = (str "Content-Disposition:" ++ 32 :: cd_field n) ++ 10 :: 13 :: 10 :: v).
  { unfold part_text, cd_field, crlf.
    change (str "Content-Disposition: form-data; name=") with (str "Content-Disposition:" ++ [32] ++ str "form-data; name=").
    repeat (rewrite <- ?app_assoc; cbn [app]). reflexivity. }
  rewrite E. rewrite getline_line.
  2:{ apply no10_app; [apply not_in_lit; reflexivity|]. intros [H|H]; [lia|]. revert H. unfold cd_field.
      apply no10_app; [apply not_in_lit; reflexivity|]. apply no10_app; [apply no10_quoted, plain_no10, Hn|].
      apply not_in_lit; reflexivity. }
  cbn [obind]. change (str "Content-Disposition:" ++ 32 :: cd_field n) with (67 :: str "ontent-Disposition:" ++ 32 :: cd_field n) at 1.
  cbv iota. change (67 :: str "ontent-Disposition:" ++ 32 :: cd_field n) with (str "Content-Disposition:" ++ 32 :: cd_field n).
  cbn [read_fields]. rewrite split_line_cd. cbn [rest_of_value]. rewrite getline_blank. cbn [obind]. rewrite eqs_refl. cbn [obind].
  reflexivity.
Qed.
Lemma split_file n f t c : plain n -> plain f -> ~ In 10 t ->
  split_part (part_text (File n f t c)) = Ok (part_header (File n f t c), c).
Proof.
  intros Hn Hf Ht. unfold split_part, read_header.
  assert (E : part_text (File n f t c) =
    (str "Content-Disposition:" ++ 32 :: cd_file n f) ++ 10 :: (str "Content-Type:" ++ 32 :: t ++ [13]) ++ 10 :: 13 :: 10 :: c).
  { unfold part_text, cd_file, crlf.
    change (str "Content-Disposition: form-data; name=") with (str "Content-Disposition:" ++ [32] ++ str "form-data; name=").
    change (str "Content-Type: ") with (str "Content-Type:" ++ [32]).
    repeat (rewrite <- ?app_assoc; cbn [app]). reflexivity. }
  rewrite E.
  assert (El : exists m, length ((str "Content-Disposition:" ++ 32 :: cd_file n f) ++ 10 :: (str "Content-Type:" ++ 32 :: t ++ [13]) ++ 10 :: 13 :: 10 :: c) = S m) by (eexists; reflexivity).
  destruct El as [m ->].
  rewrite getline_line.
  2:{ apply no10_app; [apply not_in_lit; reflexivity|]. intros [H|H]; [lia|]. revert H. unfold cd_file.
      apply no10_app; [apply not_in_lit; reflexivity|]. apply no10_app; [apply no10_quoted, plain_no10, Hn|].
      apply no10_app; [apply not_in_lit; reflexivity|]. apply no10_app; [apply no10_quoted, plain_no10, Hf|].
      apply not_in_lit; reflexivity. }
  cbn [obind]. change (str "Content-Disposition:" ++ 32 :: cd_file n f) with (67 :: str "ontent-Disposition:" ++ 32 :: cd_file n f) at 1.
  cbv iota. change (67 :: str "ontent-Disposition:" ++ 32 :: cd_file n f) with (str "Content-Disposition:" ++ 32 :: cd_file n f).
  cbn [read_fields]. rewrite split_line_cd. cbn [rest_of_value]. rewrite getline_line.
  2:{ apply no10_app; [apply not_in_lit; reflexivity|]. intros [H|[H|[H|[]]]%in_app_or]; [lia|auto|lia]. }
  cbn [obind]. change (str "Content-Type:" ++ 32 :: t ++ [13]) with (67 :: str "ontent-Type:" ++ 32 :: t ++ [13]) at 1.
  cbv iota. rewrite eqs_neq by (cbn; discriminate). change (isspace 67) with false. cbv iota. cbn [obind].
  change (67 :: str "ontent-Type:" ++ 32 :: t ++ [13]) with (str "Content-Type:" ++ 32 :: t ++ [13]).
  rewrite split_line_ct. rewrite getline_blank. cbn [obind]. rewrite eqs_refl. cbn [obind].
  reflexivity.
Qed.

(** What is done with a part. *)
Definition step (c : cgi) (p : part) : cgi :=
  match p with
  | Field n v => add_query c n v
  | File n f t x => add_file (add_query c n f) f x (part_header p)
  end.
Lemma cgi_eta {A} (x y : A) (b : bool) : b = true -> (if b then x else y) = x.
Proof. now intros ->. Qed.
Lemma add_field c n v : plain n ->
  add_part c [(str "Content-Disposition", cd_field n); (str "Content-Type", [])] v = add_query c n v.
Proof.
  intros Hn. unfold add_part.
  change (get [(str "Content-Disposition", cd_field n); (str "Content-Type", [])] (str "Content-Disposition"))
    with ([(str "Content-Disposition", cd_field n); (str "Content-Type", [] : list Z)], cd_field n).
  cbv iota beta. unfold cd_field. rewrite extract_field by assumption. cbn [find]. rewrite !eqs_refl.
  rewrite eqs_neq by discriminate. reflexivity.
Qed.
Lemma add_filep c n f t x : plain n -> plain f ->
  add_part c (part_header (File n f t x)) x = step c (File n f t x).
Proof.
  intros Hn Hf. unfold add_part.
  change (get (part_header (File n f t x)) (str "Content-Disposition")) with (part_header (File n f t x), cd_file n f).
  cbv iota beta. unfold cd_file. rewrite extract_file by assumption. cbn [find]. rewrite !eqs_refl.
  rewrite !eqs_neq by discriminate. reflexivity.
Qed.
Lemma ltrim_suffix s : exists a, s = a ++ ltrim s.
Proof.
  induction s as [|c s [a IH]]; [now exists []|]. cbn [ltrim]. destruct (isspace c); [|now exists []].
  exists (c :: a). cbn [app]. now rewrite <- IH.
Qed.
Lemma app_tail_split {A} (a b l r : list A) : a ++ b = l ++ r -> (exists x, a = l ++ x /\ r = x ++ b) \/ (exists x, l = a ++ x /\ b = x ++ r).
Proof.
  revert l. induction a as [|x a IH]; intros l E.
  - right. exists l. auto.
  - destruct l as [|y l].
    + left. exists (x :: a). auto.
    + injection E as -> E. destruct (IH l E) as [(z & -> & ->)|(z & -> & ->)]; [left|right]; exists z; auto.
Qed.
Lemma contains_ct t : ~ contains (str "multipart/") t -> ~ contains (str "multipart/") (ltrim (32 :: t ++ [13])).
Proof.
  intros H (a & b & E). destruct (ltrim_suffix (32 :: t ++ [13])) as [p Hp]. rewrite E in Hp.
  change (32 :: t ++ [13]) with ((32 :: t) ++ [13]) in Hp.
  assert (Hc : contains (str "multipart/") (32 :: t)).
  { destruct b as [|b0 b] using rev_ind.
    - exfalso. rewrite app_nil_r in Hp.
      change (str "multipart/") with (str "multipart" ++ [47]) in Hp. rewrite !app_assoc in Hp. apply app_inj_tail in Hp as [_ Hp]. lia.
    - rewrite !app_assoc in Hp. apply app_inj_tail in Hp as [-> _]. exists (p ++ a), b. now rewrite <- !app_assoc. }
  destruct Hc as (u & w & Hc). destruct u as [|u0 u]; [discriminate|]. injection Hc as <- ->. apply H. now exists u, w.
Qed.

(** ** Finding the boundaries *)
Definition delim : list Z := [10; 45; 45].
Lemma no_delim_tail T : ~ contains delim T -> ~ contains delim (T ++ [13; 10; 45]).
Proof.
  intros H (a & b & E). rewrite app_assoc in E. symmetry in E. apply app_tail_split in E as [(x & E & E')|(x & E & E')].
  - assert (Hx : forall y z, a ++ delim = (T ++ y) ++ [z] -> z = 45).
    { intros y z E0. change delim with ([10; 45] ++ [45]) in E0. rewrite app_assoc in E0. apply app_inj_tail in E0. intuition. }
    destruct x as [|x1 x]; [apply H; exists a, []; now rewrite app_nil_r in *; rewrite E|]. injection E' as <- E'.
    destruct x as [|x2 x]; [now specialize (Hx [] 13); rewrite app_nil_r in Hx; specialize (Hx E)|]. injection E' as <- E'.
    destruct x as [|x3 x]; [specialize (Hx [13] 10); rewrite <- app_assoc in Hx; now specialize (Hx E)|]. injection E' as <- E'.
    destruct x; [|discriminate].
    change delim with ([10; 45] ++ [45]) in E. change [13; 10; 45] with ([13; 10] ++ [45]) in E. rewrite !app_assoc in E.
    apply app_inj_tail in E as [E _]. change [10; 45] with ([10] ++ [45]) in E. change [13; 10] with ([13] ++ [10]) in E.
    rewrite !app_assoc in E. apply app_inj_tail in E as [_ E]. lia.
  - apply H. exists a, x. now rewrite app_assoc.
Qed.

Definition pending (cnt a b : Z) : list Z := if 2 <=? cnt then [a; b] else if cnt =? 1 then [b] else [].
Lemma scan_to bd after : forall s f a b cnt acc X,
  (length s < f)%nat -> 0 <= cnt -> (cnt < 2 -> a = 0) -> (cnt < 1 -> b = 0) ->
  ~ contains delim (X ++ [10; 45]) -> pending cnt a b ++ s = X ++ delim ++ bd ++ after ->
  scan_part f bd a b cnt acc s = let (rest, e) := boundary_end after 0 false in Ok (chop_cr (acc ++ X), rest, e).
Proof.
  induction s as [|c r IH]; intros f a b cnt acc X Hf Hc Ha Hb Hno E; (destruct f as [|f]; [lia|]).
  - exfalso. apply (f_equal (@length Z)) in E. rewrite !app_length in E. unfold pending in E.
    destruct (2 <=? cnt); [|destruct (cnt =? 1)]; cbn [length delim] in E; lia.
  - cbn [length] in Hf. cbn [scan_part]. destruct (Z.leb_spec 2 cnt) as [H2|H2].
    + unfold pending in E. replace (2 <=? cnt) with true in E by (symmetry; apply Z.leb_le; lia). cbn [app] in E.
      destruct X as [|x X].
      * cbn [app delim] in E. injection E as -> -> -> ->. change ((10 =? 10) && (45 =? 45) && (45 =? 45)) with true. cbv iota.
        rewrite firstn_at by reflexivity. rewrite app_length. replace (length bd - (length bd + length after))%nat with 0%nat by lia.
        cbn [repeat]. rewrite app_nil_r, eqs_refl, skipn_at, app_nil_r by reflexivity. reflexivity.
      * injection E as <- E.
        replace ((a =? 10) && (b =? 45) && (c =? 45)) with false.
        2:{ symmetry. apply not_true_iff_false. intros H. rewrite !andb_true_iff, !Z.eqb_eq in H. destruct H as [[-> ->] ->].
            apply Hno. destruct X as [|x1 X]; [injection E as E; discriminate|]. injection E as <- E.
            destruct X as [|x2 X]; [now exists [], [45]|]. injection E as <- E. exists [], (X ++ [10; 45]). reflexivity. }
        rewrite (IH f b c (cnt + 1) (acc ++ [a]) X); try lia.
        -- now rewrite <- app_assoc.
        -- intros (u & w & Hu). apply Hno. exists (a :: u), w. cbn [app]. now rewrite Hu.
        -- unfold pending. replace (2 <=? cnt + 1) with true by (symmetry; apply Z.leb_le; lia). exact E.
    + rewrite (Ha H2). change (0 =? 10) with false. cbn [andb].
      assert (Hcase : cnt = 0 \/ cnt = 1) by lia. destruct Hcase as [-> | ->].
      * rewrite (Hb eq_refl). change (0 + 1) with 1. change (2 <=? 0) with false. cbv iota.
        apply IH; try lia; assumption.
      * change (1 + 1) with 2. change (2 <=? 1) with false. cbv iota. apply IH; try lia; assumption.
Qed.

Lemma boundary_more r : boundary_end (crlf ++ r) 0 false = (r, false).
Proof. reflexivity. Qed.
Lemma boundary_last r : boundary_end (str "--" ++ crlf ++ r) 0 false = (r, true).
Proof. reflexivity. Qed.
Lemma chop_crlf T : chop_cr (T ++ [13]) = T.
Proof. unfold chop_cr. rewrite rev_app_distr. cbn [rev app]. change (13 =? 13) with true. cbv iota. apply rev_involutive. Qed.

(** The text behind a boundary. *)
Fixpoint behind (bd : list Z) (ps : list part) (epi : list Z) : list Z :=
  match ps with
  | [] => str "--" ++ crlf ++ epi
  | p :: ps' => crlf ++ part_text p ++ crlf ++ str "--" ++ bd ++ behind bd ps' epi
  end.
Lemma multipart_behind bd ps epi : multipart_text bd ps ++ epi = str "--" ++ bd ++ behind bd ps epi.
Proof.
  unfold multipart_text. induction ps as [|p ps IH]; cbn [flat_map behind].
  - rewrite <- !app_assoc. reflexivity.
  - rewrite <- !app_assoc in *. now rewrite IH.
Qed.
Lemma boundary_behind bd ps epi : exists r e, boundary_end (behind bd ps epi) 0 false = (r, e) /\
  match ps with [] => e = true | p :: ps' => e = false /\ r = part_text p ++ crlf ++ str "--" ++ bd ++ behind bd ps' epi end.
Proof.
  destruct ps as [|p ps]; cbn [behind].
  - exists epi, true. now rewrite boundary_last.
  - eexists _, false. rewrite boundary_more. auto.
Qed.

Lemma one_part p : part_ok p -> split_part (part_text p) = Ok (part_header p, part_body p).
Proof.
  destruct p as [n v|n f t c]; cbn [part_ok part_body].
  - intros [H _]. now apply split_field.
  - intros (H1 & H2 & H3 & _). now apply split_file.
Qed.
Lemma part_no_delim p : part_ok p -> ~ contains delim (part_text p).
Proof. destruct p; cbn [part_ok]; intuition. Qed.

Lemma scan_text p bd after : part_ok p ->
  scan_part (S (length (part_text p ++ crlf ++ str "--" ++ bd ++ after))) bd 0 0 0 [] (part_text p ++ crlf ++ str "--" ++ bd ++ after) =
  let (rest, e) := boundary_end after 0 false in Ok (part_text p, rest, e).
Proof.
  intros Hp. rewrite (scan_to bd after _ _ 0 0 0 [] (part_text p ++ [13])); try lia; try (intros; reflexivity).
  - cbn [app]. now rewrite chop_crlf.
  - rewrite <- app_assoc. now apply no_delim_tail, part_no_delim.
  - cbn [pending Z.leb Z.compare Z.eqb app]. unfold crlf, delim. rewrite <- !app_assoc. reflexivity.
Qed.
Lemma parts_all again bd epi : forall ps f p c, Forall part_ok (p :: ps) -> (length ps < f)%nat ->
  parts again f bd (part_text p ++ crlf ++ str "--" ++ bd ++ behind bd ps epi) c = Ok (fold_left step (p :: ps) c).
Proof.
  induction ps as [|q ps IH]; intros f p c Hok Hf; (destruct f as [|f]; [lia|]); cbn [parts]; inversion Hok as [|? ? Hp Hps]; subst.
  all: rewrite scan_text by assumption.
  - destruct (boundary_behind bd [] epi) as (r & e & -> & ->). cbn [obind]. rewrite (one_part p Hp). cbn [obind].
    destruct p as [n v|n fl t x]; cbn [part_ok part_body] in *.
    + change (get (part_header (Field n v)) (str "Content-Type")) with
        ([(str "Content-Disposition", cd_field n); (str "Content-Type", [] : list Z)], [] : list Z). cbv iota beta.
      change (find_sub (str "multipart/") []) with (@None nat). cbv iota. cbn [obind].
      rewrite add_field by tauto. reflexivity.
    + change (get (part_header (File n fl t x)) (str "Content-Type")) with
        (part_header (File n fl t x), ltrim (32 :: t ++ [13])). cbv iota beta.
      rewrite find_sub_none by (apply contains_ct; tauto). cbn [obind].
      rewrite add_filep by tauto. reflexivity.
  - destruct (boundary_behind bd (q :: ps) epi) as (r & e & -> & -> & ->). cbn [obind]. rewrite (one_part p Hp). cbn [obind].
    cbn [length] in Hf.
    destruct p as [n v|n fl t x]; cbn [part_ok part_body] in *.
    + change (get (part_header (Field n v)) (str "Content-Type")) with
        ([(str "Content-Disposition", cd_field n); (str "Content-Type", [] : list Z)], [] : list Z). cbv iota beta.
      change (find_sub (str "multipart/") []) with (@None nat). cbv iota. cbn [obind].
      rewrite add_field by tauto. apply IH; [assumption|lia].
    + change (get (part_header (File n fl t x)) (str "Content-Type")) with
        (part_header (File n fl t x), ltrim (32 :: t ++ [13])). cbv iota beta.
      rewrite find_sub_none by (apply contains_ct; tauto). cbn [obind].
      rewrite add_filep by tauto. apply IH; [assumption|lia].
Qed.

Lemma firstn_prefix {A} n (x s : list A) : firstn n s = x -> exists r, s = x ++ r.
Proof. intros <-. exists (skipn n s). symmetry. apply firstn_skipn. Qed.
Lemma skip_lines bd pre s : preamble_ok bd pre -> forall f, (length (lines pre ++ s) < f)%nat ->
  exists f', (length s < f')%nat /\ skip_preamble f bd (lines pre ++ s) = skip_preamble f' bd s.
Proof.
  induction 1 as [|l pre [Hl Hb] Hpre IH]; intros f Hf; cbn [lines flat_map app] in *; [now exists f|].
  fold (lines pre) in *. rewrite <- !app_assoc in *. cbn [app] in *. rewrite app_length in Hf. cbn [length] in Hf.
  destruct f as [|f]; [lia|]. destruct (IH f) as (f' & Hf' & E); [lia|]. exists f'. split; [exact Hf'|]. rewrite <- E.
  cbn [skip_preamble]. rewrite take_line_at by assumption.
  rewrite eqs_neq.
  - destruct l; reflexivity.
  - intros H. apply firstn_prefix in H as [r H]. apply (Hb r). now rewrite <- app_assoc in H.
Qed.
Lemma skip_boundary bd ps epi f : ~ In 10 bd -> (0 < f)%nat ->
  exists r, skip_preamble f bd (str "--" ++ bd ++ behind bd ps epi) = Some (r, match ps with [] => true | _ => false end) /\
  match ps with [] => True | p :: ps' => r = part_text p ++ crlf ++ str "--" ++ bd ++ behind bd ps' epi end.
Proof.
  intros Hb Hf. destruct f as [|f]; [lia|]. cbn [skip_preamble].
  assert (H2 : ~ In 10 (str "--" ++ bd)) by (apply no10_app; [apply not_in_lit; reflexivity|exact Hb]).
  destruct ps as [|p ps]; cbn [behind].
  - exists epi. split; [|exact I].
    replace (str "--" ++ bd ++ str "--" ++ crlf ++ epi) with ((str "--" ++ bd ++ str "--" ++ [13]) ++ 10 :: epi)
      by (unfold crlf; rewrite <- !app_assoc; reflexivity).
    rewrite take_line_at.
    2:{ rewrite app_assoc. apply no10_app; [exact H2|apply not_in_lit; reflexivity]. }
    rewrite app_assoc, firstn_at by (rewrite app_length; cbn [length]; change (length (str "--")) with 2%nat; lia).
    rewrite eqs_refl. rewrite app_assoc, firstn_at by (rewrite !app_length; change (length (str "--")) with 2%nat; lia).
    rewrite <- app_assoc, eqs_refl. reflexivity.
  - eexists. split; [|reflexivity].
    replace (str "--" ++ bd ++ crlf ++ part_text p ++ crlf ++ str "--" ++ bd ++ behind bd ps epi) with
      ((str "--" ++ bd ++ [13]) ++ 10 :: (part_text p ++ crlf ++ str "--" ++ bd ++ behind bd ps epi))
      by (unfold crlf; rewrite <- !app_assoc; reflexivity).
    rewrite take_line_at.
    2:{ rewrite app_assoc. apply no10_app; [exact H2|apply not_in_lit; reflexivity]. }
    rewrite app_assoc, firstn_at by (rewrite app_length; cbn [length]; change (length (str "--")) with 2%nat; lia).
    rewrite eqs_refl. rewrite firstn_all2 by (rewrite !app_length; cbn [length]; change (length (str "--")) with 2%nat; lia).
    rewrite eqs_neq; [reflexivity|]. rewrite <- app_assoc. intros E. apply app_inv_head, app_inv_head in E. discriminate.
Qed.

Lemma behind_length bd ps epi : (length ps <= length (behind bd ps epi))%nat.
Proof. induction ps as [|p ps IH]; cbn [behind]; [cbn; lia|]. rewrite !app_length. cbn [length crlf]. lia. Qed.

Lemma multipart_all bd ps pre epi c : ~ In 10 bd -> preamble_ok bd pre -> Forall part_ok ps ->
  parse_multipart_input (lines pre ++ multipart_text bd ps ++ epi) bd c = Ok (fold_left step ps c).
Proof.
  intros Hb Hpre Hps. unfold parse_multipart_input. rewrite multipart_behind. set (s := lines pre ++ _). cbn [parse_multipart].
  destruct (skip_lines bd pre (str "--" ++ bd ++ behind bd ps epi) Hpre (S (length s))) as (f & Hf & E); [unfold s; lia|].
  fold s in E. rewrite E. destruct (skip_boundary bd ps epi f Hb) as (r & -> & Hr); [lia|].
  destruct ps as [|p ps]; [reflexivity|]. subst r. apply parts_all; [exact Hps|].
  rewrite !app_length. pose proof (behind_length bd ps epi). lia.
Qed.

(** ** What the maps hold afterwards *)
Lemma filed_add c fs f x hd : filed c fs -> filed (add_file c f x hd) (fs ++ [(f, x)]).
Proof.
  intros H k. unfold add_file. cbn [file]. rewrite find_upd, values_app, values_one.
  destruct (eqs f k); [now rewrite last_of_snoc|]. rewrite app_nil_r. apply H.
Qed.
Lemma steps_all ps : forall c qs fs, queries c qs -> filed c fs ->
  queries (fold_left step ps c) (qs ++ pairs ps) /\ filed (fold_left step ps c) (fs ++ files ps).
Proof.
  induction ps as [|p ps IH]; intros c qs fs Hq Hf; cbn [fold_left pairs map files flat_map].
  - rewrite !app_nil_r. auto.
  - fold (pairs ps) (files ps). destruct p as [n v|n f t x]; cbn [step app].
    + change ((n, v) :: pairs ps) with ([(n, v)] ++ pairs ps). rewrite app_assoc. apply IH; [now apply queries_add|exact Hf].
    + change ((n, f) :: pairs ps) with ([(n, f)] ++ pairs ps). change ((f, x) :: files ps) with ([(f, x)] ++ files ps).
      rewrite !app_assoc. apply IH; [now apply (queries_add c qs n f)|]. now apply filed_add.
Qed.

(** ** Every text is parsed or refused *)
Lemma parse_loop_total : forall f s c, (length s < f)%nat -> exists c', parse_loop f s c = Ok c'.
Proof.
  assert (Hs : forall c s x y, strchr c s = Some (x, y) -> (length y < length s)%nat).
  { intros c. induction s as [|a s IH]; intros x y; cbn [strchr]; [discriminate|].
    destruct (a =? c); [intros [= <- <-]; cbn [length]; lia|]. destruct (a =? 0); [discriminate|].
    destruct (strchr c s) as [[x' y']|] eqn:E; [|discriminate]. intros [= <- <-]. specialize (IH _ _ eq_refl). cbn [length]. lia. }
  induction f as [|f IH]; intros s c Hf; [lia|]. cbn [parse_loop].
  destruct s as [|a s]; [eauto|]. destruct (a =? 0); [eauto|].
  destruct (strchr 38 (a :: s)) as [[x y]|] eqn:E.
  - apply Hs in E. apply IH. lia.
  - apply IH. cbn [length] in *. lia.
Qed.

(** Bytes other than blanks. *)
Definition weight (s : list Z) : nat := length (filter (fun c => negb (c =? 32)) s).
Lemma weight_app a b : weight (a ++ b) = (weight a + weight b)%nat.
Proof. unfold weight. now rewrite filter_app, app_length. Qed.
Lemma weight_cons a b : weight (a :: b) = (weight [a] + weight b)%nat.
Proof. apply (weight_app [a] b). Qed.
Lemma weight_blanks n : weight (repeat 32 n) = 0%nat.
Proof. induction n as [|n IH]; [reflexivity|]. cbn [repeat]. now rewrite weight_cons, IH. Qed.
Lemma weight_length s : (weight s <= length s)%nat.
Proof. unfold weight. induction s as [|c s IH]; cbn [filter length]; [lia|]. destruct (negb (c =? 32)); cbn [length]; lia. Qed.

Lemma boundary_end_le s : forall cnt e r e', boundary_end s cnt e = (r, e') -> (length r <= length s)%nat /\ (weight r <= weight s)%nat.
Proof.
  induction s as [|a s IH]; intros cnt e r e'; cbn [boundary_end].
  - intros [= <- <-]. cbn [length]. lia.
  - rewrite (weight_cons a s). cbn [length]. destruct (a =? 10); [intros [= <- <-]; lia|].
    destruct (a =? 45); [destruct (0 <=? cnt)|]; intros H; apply IH in H; lia.
Qed.
Lemma chop_cr_le s : (weight (chop_cr s) <= weight s)%nat.
Proof.
  unfold chop_cr. destruct (rev s) as [|c r] eqn:E; [lia|]. destruct (c =? 13); [|lia].
  apply (f_equal (@rev Z)) in E. rewrite rev_involutive in E. subst s. cbn [rev]. rewrite weight_app. lia.
Qed.
Lemma scan_total bd : forall f s a b cnt acc, (length s < f)%nat -> 0 <= cnt -> (cnt < 2 -> a <> 10) -> (cnt < 1 -> b <> 10) ->
  exists text rest e, scan_part f bd a b cnt acc s = Ok (text, rest, e) /\
  (weight text + weight rest <= weight acc + weight (pending cnt a b) + weight s)%nat /\
  (length rest <= length s - 1)%nat /\ (s = [] -> text = acc).
Proof.
  induction f as [|f IH]; intros s a b cnt acc Hf Hc Ha Hb; [lia|]. cbn [scan_part].
  destruct s as [|c r]; [eexists _, _, _; split; [reflexivity|]; change (weight []) with 0%nat; split; [lia|]; split; [cbn [length]; lia|reflexivity]|].
  cbn [length] in *. destruct ((a =? 10) && (b =? 45) && (c =? 45)) eqn:E.
  - rewrite !andb_true_iff, !Z.eqb_eq in E. destruct E as [[-> ->] ->].
    assert (H2 : 2 <= cnt) by (destruct (Z_lt_le_dec cnt 2) as [H|H]; [now specialize (Ha H)|lia]).
    replace (pending cnt 10 45) with [10; 45] by (unfold pending; now rewrite (proj2 (Z.leb_le 2 cnt) H2)).
    assert (Hw : (weight (skipn (length bd) r) + weight (firstn (length bd) r) = weight r)%nat).
    { rewrite <- (firstn_skipn (length bd) r) at 3. rewrite weight_app. lia. }
    assert (Hl : (length (skipn (length bd) r) <= length r)%nat) by (rewrite skipn_length; lia).
    destruct (eqs _ bd).
    + destruct (boundary_end (skipn (length bd) r) 0 false) as [rest e] eqn:Eb. apply boundary_end_le in Eb as [Hb1 Hb2].
      eexists _, _, _. split; [reflexivity|]. pose proof (chop_cr_le acc). rewrite (weight_cons 45 r).
      split; [lia|]. split; [lia|discriminate].
    + destruct (IH (skipn (length bd) r) 45 45 0 (acc ++ [10] ++ str "--" ++ firstn (length bd) r ++ repeat 32 (length bd - length r)))
        as (text & rest & e & -> & H1 & H3 & _); [lia..|].
      eexists _, _, _. split; [reflexivity|]. rewrite !weight_app, weight_blanks in H1. rewrite (weight_cons 45 r).
      change (weight (pending 0 45 45)) with 0%nat in H1. change (weight [10]) with 1%nat in H1.
      change (weight (str "--")) with 2%nat in H1. change (weight [10; 45]) with 2%nat. change (weight [45]) with 1%nat.
      split; [lia|]. split; [lia|discriminate].
  - destruct (IH r b c (cnt + 1) (if 2 <=? cnt then acc ++ [a] else acc)) as (text & rest & e & -> & H1 & H3 & _); try lia.
    eexists _, _, _. split; [reflexivity|]. rewrite (weight_cons c r). split; [|split; [lia|discriminate]].
    unfold pending in *. destruct (Z.leb_spec 2 cnt) as [H|H].
    + replace (2 <=? cnt + 1) with true in H1 by (symmetry; apply Z.leb_le; lia).
      rewrite weight_app, (weight_cons b [c]) in H1. rewrite (weight_cons a [b]). lia.
    + assert (Hcase : cnt = 0 \/ cnt = 1) by lia. destruct Hcase as [-> | ->].
      * change (2 <=? 0 + 1) with false in H1. change (0 + 1 =? 1) with true in H1. change (0 =? 1) with false. cbv iota in *.
        change (weight []) with 0%nat. lia.
      * change (2 <=? 1 + 1) with true in H1. change (1 =? 1) with true. cbv iota in *. rewrite (weight_cons b [c]) in H1. lia.
Qed.

Definition left_of (x : istr) : list Z := match x with Good s => s | AtEnd _ => [] end.
Lemma take_line_weight s l r : take_line s = Some (l, r) -> (length r < length s)%nat /\ (weight r < weight s)%nat.
Proof.
  revert l r. induction s as [|a s IH]; intros l r; cbn [take_line]; [discriminate|].
  destruct (Z.eqb_spec a 10) as [->|_].
  - intros [= <- <-]. rewrite (weight_cons 10 s). cbn [length]. change (weight [10]) with 1%nat. lia.
  - destruct (take_line s) as [[l' r']|] eqn:E; [|discriminate]. intros [= <- <-]. specialize (IH _ _ eq_refl).
    rewrite (weight_cons a s). cbn [length]. lia.
Qed.
Lemma getline_total x : exists r x', istream_getline x = Ok (r, x') /\
  match r with
  | Some _ => (length (left_of x') < length (left_of x))%nat /\ (weight (left_of x') < weight (left_of x))%nat
  | None => left_of x' = []
  end.
Proof.
  destruct x as [s|b]; cbn [istream_getline]; [|now eexists None, _].
  destruct (take_line s) as [[l r]|] eqn:E; [|now eexists None, _].
  eexists (Some l), _. split; [reflexivity|]. now apply take_line_weight in E.
Qed.
Lemma rest_total : forall f val x, (length (left_of x) < f)%nat ->
  exists v n x', rest_of_value istream_getline f val x = Ok (v, n, x') /\ (weight (left_of x') <= weight (left_of x))%nat /\
  match n with None => True | Some _ => (length (left_of x') < length (left_of x))%nat end.
Proof.
  induction f as [|f IH]; intros val x Hf; [lia|]. cbn [rest_of_value].
  destruct (getline_total x) as (r & x' & -> & H). cbn [obind].
  destruct r as [[|c l]|].
  - eexists _, _, _. split; [reflexivity|]. split; [lia|exact I].
  - destruct (eqs (c :: l) [13]); [eexists _, _, _; split; [reflexivity|]; split; [lia|exact I]|].
    destruct (isspace c).
    + destruct (IH (lws val (c :: l)) x') as (v & n & x'' & -> & H1 & H2); [lia|].
      eexists _, _, _. split; [reflexivity|]. split; [lia|]. destruct n; [lia|exact I].
    + eexists _, _, _. split; [reflexivity|]. split; lia.
  - eexists _, _, _. split; [reflexivity|]. rewrite H. change (weight []) with 0%nat. split; [lia|exact I].
Qed.
Lemma fields_total : forall f line h x, (length (left_of x) < f)%nat ->
  exists h' x', read_fields istream_getline f line h x = Ok (h', x') /\ (weight (left_of x') <= weight (left_of x))%nat.
Proof.
  induction f as [|f IH]; intros line h x Hf; [lia|]. cbn [read_fields].
  destruct (split_line [] line) as [key val]. destruct (rest_total (S f) val x Hf) as (v & n & x' & -> & H1 & H2). cbn [obind].
  destruct n as [line'|].
  - destruct (IH line' (set h key (ltrim v)) x') as (h' & x'' & -> & H3); [lia|]. eexists _, _. split; [reflexivity|]. lia.
  - eexists _, _. split; [reflexivity|]. lia.
Qed.
Lemma split_total s : split_part s = Throw \/ exists hd body, split_part s = Ok (hd, body) /\ (weight body < weight s)%nat.
Proof.
  unfold split_part, read_header. destruct (getline_total (Good s)) as (r & x & -> & H). cbn [obind left_of] in *.
  destruct r as [l|]; [|now left]. destruct H as [H1 H2].
  assert (Hx : exists hd x', (match l with [] => Ok ([], x) | _ => read_fields istream_getline (S (length s)) l [] x end) = Ok (hd, x')
                /\ (weight (left_of x') <= weight (left_of x))%nat).
  { destruct l as [|c l]; [eexists _, _; split; [reflexivity|lia]|]. apply fields_total. lia. }
  destruct Hx as (hd & x' & Hx & H3).
  replace (match l with [] => Ok ([], x) | _ :: _ => read_fields istream_getline (S (length s)) l [] x end) with (Ok (hd, x')) by now destruct l.
  cbn [obind]. destruct x' as [b|[|]]; cbn [left_of] in *.
  - right. eexists _, _. split; [reflexivity|]. lia.
  - right. eexists _, _. split; [reflexivity|]. lia.
  - now left.
Qed.

Definition answered {A} (o : outcome A) : Prop := (exists a, o = Ok a) \/ o = Throw.
Lemma parts_total again bd w : (forall b bd' c, (weight b < w)%nat -> answered (again b bd' c)) ->
  forall f s c, (length s < f)%nat -> (weight s <= w)%nat -> answered (parts again f bd s c).
Proof.
  intros Hag. induction f as [|f IH]; intros s c Hf Hw; [lia|]. cbn [parts].
  destruct (scan_total bd (S (length s)) s 0 0 0 []) as (text & rest & e & -> & H1 & H2 & H3); [lia..|]. cbn [obind].
  change (weight []) with 0%nat in H1. change (weight (pending 0 0 0)) with 0%nat in H1.
  destruct s as [|a s].
  - rewrite H3 by reflexivity. right. reflexivity.
  - destruct (split_total text) as [->|(hd & body & -> & Hb)]; [now right|]. cbn [obind].
    destruct (get hd (str "Content-Type")) as [hd' ct].
    match goal with |- answered (obind ?o _) => assert (Ho : answered o) end.
    { destruct (find_sub (str "multipart/") ct); [apply Hag; lia|left; eauto]. }
    destruct Ho as [[c' ->]| ->]; cbn [obind]; [|now right].
    destruct e; [left; eauto|]. apply IH; cbn [length] in *; lia.
Qed.
Lemma skip_le bd : forall f s r e, skip_preamble f bd s = Some (r, e) -> (weight r <= weight s)%nat.
Proof.
  induction f as [|f IH]; intros s r e; cbn [skip_preamble]; [discriminate|]. destruct s as [|a s]; [discriminate|].
  destruct (take_line (a :: s)) as [[l rest]|] eqn:E.
  - apply take_line_weight in E as [_ E]. destruct (eqs _ _); [intros [= <- _]; lia|]. intros H. apply IH in H. lia.
  - destruct (eqs _ _); [intros [= <- _]; unfold weight; cbn; lia|]. intros H. apply IH in H. change (weight []) with 0%nat in H. lia.
Qed.
Lemma multipart_total : forall d s bd c, (weight s < d)%nat -> answered (parse_multipart d s bd c).
Proof.
  induction d as [|d IH]; intros s bd c Hd; [lia|]. cbn [parse_multipart].
  destruct (skip_preamble (S (length s)) bd s) as [[rest [|]]|] eqn:E; [left; eauto| |].
  - apply skip_le in E. apply (parts_total _ bd (weight rest)); [|lia..]. intros. apply IH. lia.
  - apply (parts_total _ bd 0%nat); [lia|cbn; lia..].
Qed.
