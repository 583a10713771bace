(** Searching. *)
From Verif Require Import Common Aho_Spec Aho_Model Aho_Sort Aho_Build Aho_Link.
From Coq Require Import Sorting.Sorted.
Local Open Scope Z_scope.

Section search.
Context (W : list entry) (lab : Z -> option (list Z)).
Hypothesis HN : forall e, In e W -> nul_free (fst e).
Hypothesis HP : forall p k, In (p, k) W -> 0 <= k.
Hypothesis HF : forall p q k, In (p, k) W -> In (q, k) W -> p = q.
Context (a : arr).
Hypothesis Fin : finished W lab a.
Let Tr : trie W a lab := proj1 Fin.
Notation T := (T W).
Notation longest := Aho_Link.longest.

Definition least (w : list Z) (k : Z) : Prop := In (w, k) W /\ forall k', In (w, k') W -> k <= k'.

Lemma fall_ok c : 0 <= c < 256 -> forall fuel p pos, lab pos = Some p -> (length p < fuel)%nat ->
  exists r s, fall fuel a c pos = Ok r /\ lab r = Some s /\
    (longest (fun u => T (u ++ [c])) p s \/ (s = [] /\ forall u, suffix u p -> ~ T (u ++ [c]))).
Proof.
  intros Hc. induction fuel as [|fuel IH]; intros p pos Lp F; [lia|]. cbn [fall]. destruct (t_pos _ _ _ Tr pos p Lp) as [Rp _].
  pose proof (t_go _ _ _ Tr pos p c Lp Hc) as Go. destruct (Z.leb_spec pos 0) as [L|L].
  - assert (pos = 0) by lia. subst pos. assert (p = []) by (rewrite (t_root _ _ _ Tr) in Lp; now injection Lp). subst p. exists 0, []. split; [reflexivity|]. split; [exact Lp|].
    destruct (Z.eq_dec (check (cell a (base (cell a 0) + c))) 0) as [E|N].
    + left. split; [apply suffix_refl|]. split; [now apply Go|]. intros u ->%suffix_of_nil _. reflexivity.
    + right. split; [reflexivity|]. intros u ->%suffix_of_nil. tauto.
  - rewrite get_ok by exact Rp. cbn [obind]. rewrite get_ok by now apply (t_base _ _ _ Tr pos p). cbn [obind].
    destruct (Z.eqb_spec (check (cell a (base (cell a pos) + c))) pos) as [E|N].
    + exists pos, p. split; [reflexivity|]. split; [exact Lp|]. left. split; [apply suffix_refl|]. split; [now apply Go|]. intros u Hu _. now apply suffix_length.
    + assert (NT : ~ T (p ++ [c])) by tauto. destruct (proj2 Fin pos p Lp) as [Fp _]. destruct p as [|d p].
      { rewrite (t_inj _ _ _ Tr pos 0 [] Lp (t_root _ _ _ Tr)) in L. lia. }
      cbn [fail_ok] in Fp. destruct Fp as (t & Lt & S1 & S2 & S3). pose proof (suffix_length _ _ S1) as Sl. cbn [length] in F.
      destruct (IH t _ Lt) as (r & s & E & Ls & R); [lia|]. exists r, s. split; [exact E|]. split; [exact Ls|].
      assert (Su : forall u, suffix u (d :: p) -> T (u ++ [c]) -> suffix u t).
      { intros u Hu Hu2. apply suffix_cons in Hu. destruct Hu as [->|Hu]; [contradiction|]. apply (suffix_both p); [exact Hu|exact S1|]. apply S3; [exact Hu|]. now apply T_prefix in Hu2. }
      destruct R as [(R1 & R2 & R3)|(R1 & R2)]; [left|right].
      * split; [apply (suffix_trans _ t); [exact R1|]; apply suffix_cons; now right|]. split; [exact R2|]. intros u Hu Hu2. apply R3; [now apply Su|exact Hu2].
      * split; [exact R1|]. intros u Hu Hu2. exact (R2 u (Su u Hu Hu2) Hu2).
Qed.

Lemma report_ok e : forall fuel p cur, lab cur = Some p -> (length p < fuel)%nat ->
  exists l, report fuel a cur e = Ok l /\ NoDup l /\ forall k e', In (k, e') l <-> e' = e /\ exists w, w <> [] /\ suffix w p /\ least w k.
Proof.
  induction fuel as [|fuel IH]; intros p cur Lp F; [lia|]. cbn [report]. destruct (t_pos _ _ _ Tr cur p Lp) as [Rp _].
  destruct (Z.eqb_spec cur 0) as [->|N].
  - assert (p = []) by (rewrite (t_root _ _ _ Tr) in Lp; now injection Lp). subst p. exists []. split; [reflexivity|]. split; [constructor|]. intros k e'. split; [intros []|].
    intros (_ & w & Nw & ->%suffix_of_nil & _). congruence.
  - rewrite get_ok by exact Rp. cbn [obind]. destruct (proj2 Fin cur p Lp) as [Fp Op]. destruct p as [|d p].
    { exfalso. apply N. exact (t_inj _ _ _ Tr cur 0 [] Lp (t_root _ _ _ Tr)). }
    cbn [fail_ok] in Fp. destruct Fp as (t & Lt & S1 & S2 & S3). pose proof (suffix_length _ _ S1) as Sl. cbn [length] in F.
    destruct (IH t _ Lt) as (l & E & ND & HL); [lia|]. rewrite E. cbn [obind]. eexists. split; [reflexivity|].
    assert (Su : forall w k, least w k -> (suffix w (d :: p) <-> w = d :: p \/ suffix w t)).
    { intros w k Hk. rewrite suffix_cons. split; (intros [->|H]; [now left|right]).
      - apply (suffix_both p); [exact H|exact S1|]. apply S3; [exact H|]. destruct Hk as [Hk _]. now apply T_word in Hk.
      - now apply (suffix_trans _ t). }
    destruct Op as [(O1 & O2)|(O1 & O2)].
    + replace (0 <=? output (cell a cur)) with true by (specialize (HP _ _ O1); lia). split.
      * constructor; [|exact ND]. rewrite HL. intros (_ & w & _ & Hw & (Hk & _)). rewrite (HF _ _ _ Hk O1) in Hw. apply suffix_length in Hw. cbn [length] in Hw. lia.
      * intros k e'. cbn [In]. rewrite HL. split.
        -- intros [H|(-> & w & Nw & Hw & Hk)].
           ++ injection H as <- <-. split; [reflexivity|]. exists (d :: p). split; [discriminate|]. split; [apply suffix_refl|]. now split.
           ++ split; [reflexivity|]. exists w. split; [exact Nw|]. split; [|exact Hk]. apply (Su w k Hk). now right.
        -- intros (-> & w & Nw & Hw & Hk). apply (Su w k Hk) in Hw. destruct Hw as [->|Hw].
           ++ left. f_equal. destruct Hk as [K1 K2]. specialize (K2 _ O1). specialize (O2 _ K1). lia.
           ++ right. split; [reflexivity|]. now exists w.
    + replace (0 <=? output (cell a cur)) with false by lia. split; [exact ND|]. intros k e'. rewrite HL. split.
      * intros (-> & w & Nw & Hw & Hk). split; [reflexivity|]. exists w. split; [exact Nw|]. split; [|exact Hk]. apply (Su w k Hk). now right.
      * intros (-> & w & Nw & Hw & Hk). split; [reflexivity|]. exists w. split; [exact Nw|]. split; [|exact Hk]. apply (Su w k Hk) in Hw. destruct Hw as [->|Hw]; [|exact Hw]. destruct Hk as [Hk _]. now apply O1 in Hk.
Qed.

Definition hits (t r : list Z) (k e : Z) : Prop :=
  exists w n, w <> [] /\ least w k /\ (1 <= n <= length r)%nat /\ e = Z.of_nat (length t + n) /\ suffix w (t ++ firstn n r).
Lemma hits_cons t c r k e : hits t (c :: r) k e <-> (e = Z.of_nat (length t) + 1 /\ exists w, w <> [] /\ suffix w (t ++ [c]) /\ least w k) \/ hits (t ++ [c]) r k e.
Proof.
  split.
  - intros (w & n & Nw & Hk & Hn & -> & Hs). destruct n as [|[|n]]; [lia| |].
    + left. split; [lia|]. now exists w.
    + right. exists w, (S n). split; [exact Nw|]. split; [exact Hk|]. cbn [length] in *. split; [lia|]. rewrite app_length. cbn [length]. split; [lia|]. rewrite <- app_assoc. exact Hs.
  - intros [(-> & w & Nw & Hs & Hk)|(w & n & Nw & Hk & Hn & -> & Hs)].
    + exists w, 1%nat. cbn [length]. repeat split; auto; try lia. exact (proj1 Hk). exact (proj2 Hk).
    + exists w, (S n). rewrite app_length in *. cbn [length] in *. split; [exact Nw|]. split; [exact Hk|]. split; [lia|]. split; [lia|]. rewrite <- app_assoc in Hs. exact Hs.
Qed.

Lemma search_from_ok : forall r t s pos, lab pos = Some s -> longest T t s -> bytes r ->
  exists res, search_from a pos (Z.of_nat (length t)) r = Ok res /\ NoDup res /\ forall k e, In (k, e) res <-> hits t r k e.
Proof.
  induction r as [|c r IH]; intros t s pos Ls Lo Hb.
  - exists []. split; [reflexivity|]. split; [constructor|]. intros k e. split; [intros []|]. intros (w & n & _ & _ & Hn & _). cbn in Hn. lia.
  - inversion Hb as [|? ? Hc Hr]; subst. destruct Lo as (Lo1 & Lo2 & Lo3). cbn [search_from].
    pose proof (depth_bound W lab a Tr s Lo2) as Db.
    destruct (fall_ok c Hc (S (Z.to_nat (size a))) s pos Ls) as (pos1 & s1 & -> & L1 & R); [lia|]. cbn [obind].
    rewrite get_ok by now apply (t_pos _ _ _ Tr pos1 s1). cbn [obind]. rewrite get_ok by now apply (t_base _ _ _ Tr pos1 s1). cbn [obind].
    pose proof (t_go _ _ _ Tr pos1 s1 c L1 Hc) as Go.
    assert (Su : forall u, suffix u t -> T (u ++ [c]) -> suffix u s).
    { intros u Hu Hu2. apply (suffix_both t); [exact Hu|exact Lo1|]. apply Lo3; [exact Hu|]. now apply T_prefix in Hu2. }
    replace (Z.of_nat (length t) + 1) with (Z.of_nat (length (t ++ [c]))) by (rewrite app_length; cbn [length]; lia).
    destruct R as [(R1 & R2 & R3)|(-> & R)].
    + replace (check (cell a (base (cell a pos1) + c)) =? pos1) with true by (symmetry; apply Z.eqb_eq; tauto). cbn [negb].
      set (y := base (cell a pos1) + c). pose proof (t_next _ _ _ Tr pos1 s1 c L1 Hc R2) as Ly. fold y in Ly.
      assert (LY : longest T (t ++ [c]) (s1 ++ [c])).
      { split; [apply suffix_snoc; right; exists s1; split; [reflexivity|]; now apply (suffix_trans _ s)|]. split; [exact R2|].
        intros u Hu Tu. apply suffix_snoc in Hu. destruct Hu as [->|(v & -> & Hv)]; [cbn; lia|]. rewrite !app_length. cbn. specialize (R3 v (Su v Hv Tu) Tu). lia. }
      destruct (IH (t ++ [c]) (s1 ++ [c]) y Ly LY Hr) as (rest & Er & NDr & Hrest).
      assert (WS : forall w k, least w k -> (suffix w (t ++ [c]) <-> suffix w (s1 ++ [c]))).
      { intros w k Hk. split.
        - intros Hw. apply (suffix_both (t ++ [c])); [exact Hw|apply LY|]. apply LY; [exact Hw|]. destruct Hk as [Hk _]. now apply T_word in Hk.
        - intros Hw. apply (suffix_trans _ (s1 ++ [c])); [exact Hw|apply LY]. }
      assert (OUT : exists out, (if negb (output (cell a y) =? -1) then report (S (Z.to_nat (size a))) a y (Z.of_nat (length (t ++ [c]))) else Ok []) = Ok out /\ NoDup out /\
        forall k e, In (k, e) out <-> e = Z.of_nat (length (t ++ [c])) /\ exists w, w <> [] /\ suffix w (s1 ++ [c]) /\ least w k).
      { destruct (Z.eqb_spec (output (cell a y)) (-1)) as [E|N]; cbn [negb].
        - exists []. split; [reflexivity|]. split; [constructor|]. intros k e. split; [intros []|]. intros (_ & w & _ & Hw & (Hk & _)). destruct (proj2 Fin y _ Ly) as [_ [(O1 & _)|(_ & [(O1 & _)|(_ & O1)])]].
          + rewrite E in O1. apply HP in O1. lia.
          + lia.
          + exact (O1 w k Hw Hk).
        - apply report_ok; [exact Ly|]. pose proof (depth_bound W lab a Tr _ R2). lia. }
      destruct OUT as (out & -> & NDo & Hout). cbn [obind]. rewrite Er. cbn [obind]. exists (out ++ rest). split; [reflexivity|]. split.
      * apply NoDup_app_intro; [exact NDo|exact NDr|]. intros (k & e) H1 H2. apply Hout in H1. apply Hrest in H2. destruct H1 as (-> & _). destruct H2 as (w & n & _ & _ & Hn & He & _). lia.
      * intros k e. rewrite in_app_iff, Hout, Hrest, hits_cons. apply or_iff_compat_r. rewrite app_length. cbn [length]. split; intros (-> & w & Nw & Hw & Hk); (split; [lia|]); exists w; (split; [exact Nw|]); (split; [|exact Hk]); now apply (WS w k Hk).
    + assert (NT : ~ T ([] ++ [c])) by (apply R, suffix_nil). replace (check (cell a (base (cell a pos1) + c)) =? pos1) with false by (symmetry; apply Z.eqb_neq; tauto). cbn [negb].
      assert (LY : longest T (t ++ [c]) []).
      { split; [apply suffix_nil|]. split; [now apply (T_prefix W [] s)|]. intros u Hu Tu. apply suffix_snoc in Hu. destruct Hu as [->|(v & -> & Hv)]; [reflexivity|]. exfalso. exact (R v (Su v Hv Tu) Tu). }
      destruct (IH (t ++ [c]) [] pos1 L1 LY Hr) as (rest & Er & NDr & Hrest). exists rest. split; [exact Er|]. split; [exact NDr|].
      intros k e. rewrite Hrest, hits_cons. split; [now right|]. intros [(_ & w & Nw & Hw & (Hk & _))|H]; [|exact H]. exfalso. apply Nw. apply T_word in Hk. destruct LY as (_ & _ & LY). specialize (LY w Hw Hk). destruct w; [reflexivity|cbn in LY; lia].
Qed.
End search.

Lemma construct_ok dict : dict <> [] -> Forall nul_free dict -> exists a lab, construct dict = Ok (Some a) /\ finished (sort_pairs (number 0 dict)) lab a.
Proof.
  intros NE HD. unfold construct. set (W := sort_pairs (number 0 dict)).
  assert (NW : W <> []). { intros E. pose proof (Permutation.Permutation_length (sort_perm (number 0 dict))) as L. fold W in L. rewrite E, number_length in L. destruct dict; [congruence|discriminate]. }
  assert (HW : StronglySorted le W) by apply sort_sorted.
  assert (HN : forall e, In e W -> nul_free (fst e)). { intros [w k] H. apply sorted_in in H. destruct H as [_ H]. apply nth_error_In in H. rewrite Forall_forall in HD. now apply HD. }
  assert (HP : forall p k, In (p, k) W -> 0 <= k) by (intros p k H; apply sorted_in in H; exact (proj1 H)).
  assert (Mu : (mu W [{| i_pos := 0; i_dep := 0; i_ix := 0; i_n := length W |}] < S (S (total_len W)))%nat).
  { cbn [mu fold_right i_dep i_ix i_n]. unfold seg. cbn [skipn]. rewrite firstn_all.
    assert (G : forall l, wsum 0 l = total_len l). { induction l as [|e l IH]; [reflexivity|]. cbn [wsum total_len fold_right]. unfold wsum, total_len in *. lia. }
    rewrite G. lia. }
  destruct (build_ok W HW HN _ _ _ _ _ (init_ok W NW) Mu) as (a & bef & lab & E & B). change (resize {| size := 0; cell := fun _ => new_node |} 257) with init_arr.
  destruct W as [|e0 W'] eqn:EW; [congruence|]. rewrite <- EW in *. rewrite E. cbn [obind].
  pose proof (built_trie W HN a bef lab B NW) as Tr.
  destruct (link_ok W lab HN HP (S (Z.to_nat (size a))) a (size a - 1) [] [0] 0) as (a' & E' & Fi).
  - constructor.
    + exact Tr.
    + constructor; [intros []|constructor].
    + intros x [<-|[]]. exists []. split; [apply (t_root _ _ _ Tr)|]. cbn [fail_ok]. apply (b_fail _ _ _ _ _ B).
    + now left.
    + intros x p c Hx Hc HT. cbn [app In]. split; [|intros []]. intros [H|[]]. pose proof (t_next _ _ _ Tr x p c Hx Hc HT) as L. rewrite <- H, (t_root _ _ _ Tr) in L. injection L as L. now apply app_cons_not_nil in L.
    + constructor; constructor.
    + intros x [<-|[]]. unfold depth. rewrite (t_root _ _ _ Tr). cbn. lia.
    + cbn [app length]. lia.
  - intros x p Hx. split; [intros []|]. intros _. now apply (b_done _ _ _ _ _ B x p Hx).
  - destruct (t_pos _ _ _ Tr 0 [] (t_root _ _ _ Tr)). cbn [length]. lia.
  - exists a', lab. rewrite E'. split; [reflexivity|exact Fi].
Qed.

Lemma hits_occurs W r k e : hits W [] r k e <-> exists w, w <> [] /\ least W w k /\ occurs r w e.
Proof.
  split.
  - intros (w & n & Nw & Hk & Hn & -> & (q & Hs)). exists w. split; [exact Nw|]. split; [exact Hk|]. cbn [app length] in *. exists q, (skipn n r). split.
    + rewrite app_assoc, <- Hs. now rewrite firstn_skipn.
    + rewrite <- app_length, <- Hs, firstn_length. lia.
  - intros (w & Nw & Hk & (u & v & -> & ->)). exists w, (length u + length w)%nat. split; [exact Nw|]. split; [exact Hk|]. rewrite !app_length. split; [destruct w; [congruence|cbn [length]; lia]|]. split; [reflexivity|].
    exists u. cbn [app]. rewrite app_assoc, firstn_app, app_length, Nat.sub_diag. cbn [firstn]. rewrite app_nil_r. rewrite <- app_length. apply firstn_all.
Qed.

Lemma search_ok dict text : Forall nul_free dict -> bytes text ->
  exists res, search dict text = Ok res /\ NoDup res /\ forall k e, In (k, e) res <-> exists w, w <> [] /\ id_of dict w k /\ occurs text w e.
Proof.
  intros HD Hb. destruct dict as [|w0 dict0] eqn:ED.
  - exists []. split; [reflexivity|]. split; [constructor|]. intros k e. split; [intros []|]. intros (w & _ & ((_ & H) & _) & _). now destruct (Z.to_nat k).
  - rewrite <- ED in *. assert (NE : dict <> []) by (rewrite ED; discriminate). destruct (construct_ok dict NE HD) as (a & lab & E & Fi).
    unfold search. rewrite E. cbn [obind]. set (W := sort_pairs (number 0 dict)) in *.
    assert (HN : forall e, In e W -> nul_free (fst e)). { intros [w k] H. apply sorted_in in H. destruct H as [_ H]. apply nth_error_In in H. rewrite Forall_forall in HD. now apply HD. }
    assert (HP : forall p k, In (p, k) W -> 0 <= k) by (intros p k H; apply sorted_in in H; exact (proj1 H)).
    assert (HF : forall p q k, In (p, k) W -> In (q, k) W -> p = q). { intros p q k H1 H2. apply sorted_in in H1, H2. destruct H1 as [_ H1], H2 as [_ H2]. congruence. }
    destruct (search_from_ok W lab HP HF a Fi text [] [] 0) as (res & E' & ND & HR).
    + apply (t_root _ _ _ (proj1 Fi)).
    + split; [apply suffix_refl|]. split; [|intros u ->%suffix_of_nil _; reflexivity]. now apply (t_pos _ _ _ (proj1 Fi) 0 []), (t_root _ _ _ (proj1 Fi)).
    + exact Hb.
    + exists res. split; [exact E'|]. split; [exact ND|]. intros k e. rewrite HR, hits_occurs. split; intros (w & Nw & (K1 & K2) & Ho); exists w; (split; [exact Nw|]); (split; [|exact Ho]); (split; [now apply sorted_in|]); intros k' H; apply K2; now apply sorted_in.
Qed.

Lemma to_int_small e : 0 <= e < 2 ^ 31 -> to_int e = e.
Proof. intros H. unfold to_int. rewrite Z.mod_small; lia. Qed.
Lemma to_int_large e : 2 ^ 31 <= e < 2 ^ 32 -> to_int e = e - 2 ^ 32.
Proof. intros H. unfold to_int. replace (e + 2 ^ 31) with (e - 2 ^ 31 + 1 * 2 ^ 32) by lia. rewrite Z.mod_add by lia. rewrite Z.mod_small; lia. Qed.
Lemma occurs_within text w e : occurs text w e -> 0 <= e <= Z.of_nat (length text).
Proof. intros (a & b & -> & ->). rewrite !app_length. lia. Qed.

Lemma search_int_ok dict text : Forall nul_free dict -> bytes text -> Z.of_nat (length text) < 2 ^ 31 ->
  exists res, search_int dict text = Ok res /\ NoDup res /\ forall k e, In (k, e) res <-> exists w, w <> [] /\ id_of dict w k /\ occurs text w e.
Proof.
  intros HD Hb L. destruct (search_ok dict text HD Hb) as (res & E & N & H). exists res. split; [|split; [exact N|exact H]].
  unfold search_int. rewrite E. cbn [obind]. f_equal. rewrite <- (map_id res) at 2. apply map_ext_in. intros [k e] Hin. cbn [fst snd].
  apply H in Hin as (w & _ & _ & Ho). apply occurs_within in Ho. rewrite to_int_small by lia. reflexivity.
Qed.

Lemma search_int_long dict text k w e : Forall nul_free dict -> bytes text -> w <> [] -> id_of dict w k -> occurs text w e -> 2 ^ 31 <= e < 2 ^ 32 ->
  exists res, search_int dict text = Ok res /\ ~ In (k, e) res /\ In (k, e - 2 ^ 32) res.
Proof.
  intros HD Hb Hw Hk Ho He. destruct (search_ok dict text HD Hb) as (res & E & _ & H). unfold search_int. rewrite E. cbn [obind].
  eexists. split; [reflexivity|]. split.
  - intros Hin. apply in_map_iff in Hin as ([k' e'] & Ep & _). cbn [fst snd] in Ep.
    assert (Ee : to_int e' = e) by congruence. assert (B : to_int e' < 2 ^ 31); [|lia].
    unfold to_int. pose proof (Z.mod_pos_bound (e' + 2 ^ 31) (2 ^ 32)). lia.
  - apply in_map_iff. exists (k, e). cbn [fst snd]. rewrite to_int_large by exact He. split; [reflexivity|]. apply H. now exists w.
Qed.
