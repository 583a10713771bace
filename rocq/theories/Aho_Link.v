(** The failure links. *)
From Verif Require Import Common Aho_Spec Aho_Model Aho_Sort Aho_Build.
From Coq Require Import Sorting.Sorted.
Local Open Scope Z_scope.

Definition suffix (s p : list Z) : Prop := exists q, p = q ++ s.
Lemma suffix_refl p : suffix p p.
Proof. now exists []. Qed.
Lemma suffix_nil p : suffix [] p.
Proof. exists p. now rewrite app_nil_r. Qed.
Lemma suffix_trans a b c : suffix a b -> suffix b c -> suffix a c.
Proof. intros (u & ->) (v & ->). exists (v ++ u). now rewrite app_assoc. Qed.
Lemma suffix_length a b : suffix a b -> (length a <= length b)%nat.
Proof. intros (u & ->). rewrite app_length. lia. Qed.
Lemma suffix_cons s c p : suffix s (c :: p) <-> s = c :: p \/ suffix s p.
Proof.
  split.
  - intros ([|d q] & E); [left; now symmetry|right]. injection E as -> ->. now exists q.
  - intros [->|(q & ->)]; [apply suffix_refl|]. now exists (c :: q).
Qed.
Lemma suffix_of_nil s : suffix s [] -> s = [].
Proof. intros (q & E). symmetry in E. now apply app_eq_nil in E. Qed.
Lemma suffix_snoc s p c : suffix s (p ++ [c]) <-> s = [] \/ exists u, s = u ++ [c] /\ suffix u p.
Proof.
  split.
  - intros (q & E). induction s as [|d u _] using rev_ind; [now left|right]. rewrite app_assoc in E. apply app_inj_tail in E. destruct E as [-> ->]. exists u. split; [reflexivity|now exists q].
  - intros [->|(u & -> & (q & ->))]; [apply suffix_nil|]. exists q. now rewrite app_assoc.
Qed.
Lemma suffix_both : forall p s t, suffix s p -> suffix t p -> (length s <= length t)%nat -> suffix s t.
Proof.
  induction p as [|c p IH]; intros s t Hs Ht L.
  - apply suffix_of_nil in Hs, Ht. subst. apply suffix_refl.
  - apply suffix_cons in Ht. destruct Ht as [->|Ht]; [exact Hs|]. apply suffix_cons in Hs. destruct Hs as [->|Hs]; [apply suffix_length in Ht; cbn in L; lia|]. now apply IH.
Qed.
Definition longest (Q : list Z -> Prop) (p s : list Z) : Prop := suffix s p /\ Q s /\ forall u, suffix u p -> Q u -> (length u <= length s)%nat.

Lemma nodup_range : forall (l : list Z) n, NoDup l -> (forall x, In x l -> 0 <= x < n) -> Z.of_nat (length l) <= Z.max 0 n.
Proof.
  intros l n Hn Hr. assert (G : incl l (map Z.of_nat (seq 0 (Z.to_nat n)))).
  { intros x Hx. apply in_map_iff. exists (Z.to_nat x). specialize (Hr x Hx). split; [lia|]. apply in_seq. lia. }
  apply NoDup_incl_length in G; [|exact Hn]. rewrite map_length, seq_length in G. lia.
Qed.

Section link.
Context (W : list entry) (lab : Z -> option (list Z)).
Hypothesis HN : forall e, In e W -> nul_free (fst e).
Notation T := (T W).
Notation trie := (trie W).

Definition same_shape (a a' : arr) : Prop := size a' = size a /\ forall x, base (cell a' x) = base (cell a x) /\ check (cell a' x) = check (cell a x).
Lemma trie_shape a a' : trie a lab -> same_shape a a' -> trie a' lab.
Proof.
  intros H (S & C). destruct H as [h1 h2 h3 h4 h5 h6 h7 h8]. constructor.
  - exact h1.
  - now rewrite (proj2 (C 0)).
  - intros x p. rewrite S. apply h3.
  - exact h4.
  - exact h5.
  - intros x p c. rewrite S, (proj1 (C x)). apply h6.
  - intros x p c. rewrite (proj1 (C x)), (proj2 (C _)). apply h7.
  - intros x p c. rewrite (proj1 (C x)). apply h8.
Qed.

Lemma depth_bound a : trie a lab -> forall p, T p -> Z.of_nat (length p) < size a.
Proof.
  intros H p HT. assert (G : forall p, T p -> exists l, NoDup l /\ length l = S (length p) /\ forall x, In x l -> exists q, lab x = Some q /\ (length q <= length p)%nat).
  { clear p HT. intros p. induction p as [|c p IH] using rev_ind; intros HT.
    - exists [0]. split; [constructor; [intros []|constructor]|]. split; [reflexivity|]. intros x [<-|[]]. exists []. split; [apply (t_root _ _ _ H)|cbn; lia].
    - destruct (IH (T_prefix W _ _ HT)) as (l & L1 & L2 & L3). destruct (t_all _ _ _ H _ HT) as (x & Hx). exists (x :: l). split; [|split].
      + constructor; [|exact L1]. intros C. destruct (L3 x C) as (q & Hq & Lq). rewrite Hx in Hq. injection Hq as <-. rewrite app_length in Lq. cbn in Lq. lia.
      + cbn [length]. rewrite L2, app_length. cbn. lia.
      + intros y [<-|Hy]; [exists (p ++ [c]); split; [exact Hx|lia]|]. destruct (L3 y Hy) as (q & Hq & Lq). exists q. split; [exact Hq|]. rewrite app_length. lia. }
  destruct (G p HT) as (l & L1 & L2 & L3). pose proof (nodup_range l (size a) L1) as N. rewrite L2 in N.
  assert (R : forall x, In x l -> 0 <= x < size a) by (intros x Hx; destruct (L3 x Hx) as (q & Hq & _); now apply (t_pos _ _ _ H) in Hq).
  specialize (N R). destruct (t_pos _ _ _ H 0 [] (t_root _ _ _ H)) as [R0 _]. lia.
Qed.

Definition fail_ok (a : arr) (x : Z) (p : list Z) : Prop :=
  match p with [] => fail (cell a x) = -1 | _ :: r => exists s, lab (fail (cell a x)) = Some s /\ longest T r s end.

Lemma T_char s i : T (s ++ [i]) -> 1 <= i < 256.
Proof. intros H. apply (T_nul_free W HN) in H. apply nul_free_app in H. destruct H as [_ H]. now inversion H. Qed.

Lemma chase_ok a i : trie a lab -> 0 <= i < 256 -> forall fuel s m, lab m = Some s -> (forall x p, lab x = Some p -> (length p <= length s)%nat -> fail_ok a x p) ->
  (length s + 2 <= fuel)%nat ->
  exists r, chase fuel a i m = Ok r /\
    ((r < 0 /\ forall u, suffix u s -> ~ T (u ++ [i])) \/ (0 <= r /\ exists u, lab r = Some u /\ longest (fun u => T (u ++ [i])) s u)).
Proof.
  intros H Hi. induction fuel as [|fuel IH]; intros s m Hm Hf F; [lia|]. cbn [chase].
  destruct (t_pos _ _ _ H m s Hm) as [Rm _]. replace (m <? 0) with false by lia. rewrite get_ok by exact Rm. cbn [obind].
  rewrite get_ok by now apply (t_base _ _ _ H m s). cbn [obind]. pose proof (t_go _ _ _ H m s i Hm Hi) as G. destruct (Z.eqb_spec (check (cell a (base (cell a m) + i))) m) as [E|N].
  - exists m. split; [reflexivity|]. right. split; [lia|]. exists s. split; [exact Hm|]. split; [apply suffix_refl|]. split; [now apply G|]. intros u Hu _. now apply suffix_length.
  - assert (NT : ~ T (s ++ [i])) by tauto. pose proof (Hf m s Hm (le_n _)) as Fm. destruct s as [|c s].
    + cbn [fail_ok] in Fm. rewrite Fm. destruct fuel as [|fuel]; [cbn in F; lia|]. cbn [chase]. replace (-1 <? 0) with true by reflexivity. exists (-1). split; [reflexivity|]. left. split; [lia|].
      intros u ->%suffix_of_nil. exact NT.
    + cbn [fail_ok] in Fm. destruct Fm as (t & Ht & Ls & LT & Lm). pose proof (suffix_length _ _ Ls) as Lt.
      destruct (IH t (fail (cell a m)) Ht) as (r & E & R).
      { intros x p Hx Lx. apply (Hf x p Hx). cbn [length]. lia. } { cbn [length] in F. lia. }
      exists r. split; [exact E|].
      assert (Su : forall u, suffix u (c :: s) -> T (u ++ [i]) -> suffix u t).
      { intros u Hu HT. apply suffix_cons in Hu. destruct Hu as [->|Hu]; [contradiction|]. apply (suffix_both s); [exact Hu|exact Ls|]. apply Lm; [exact Hu|]. now apply T_prefix in HT. }
      destruct R as [(R1 & R2)|(R1 & u & R2 & R3 & R4 & R5)]; [left|right]; (split; [exact R1|]).
      * intros u Hu HT. exact (R2 u (Su u Hu HT) HT).
      * exists u. split; [exact R2|]. split; [|split; [exact R4|]].
        -- apply (suffix_trans _ t); [exact R3|]. apply suffix_cons. now right.
        -- intros v Hv HT. apply R5; [now apply Su|exact HT].
Qed.

Definition depth (x : Z) : nat := match lab x with Some p => length p | None => 0%nat end.
Definition out_fin (p : list Z) (o : Z) : Prop :=
  (In (p, o) W /\ forall k, In (p, k) W -> o <= k) \/
  ((forall k, ~ In (p, k) W) /\ ((o = -2 /\ exists s k, suffix s p /\ In (s, k) W) \/ (o = -1 /\ forall s k, suffix s p -> ~ In (s, k) W))).

Record linv (a : arr) (room : Z) (D q : list Z) (E : Z -> Z -> Prop) (d : nat) : Prop := {
  l_trie : trie a lab;
  l_nodup : NoDup (D ++ q);
  l_lab : forall x, In x (D ++ q) -> exists p, lab x = Some p /\ fail_ok a x p;
  l_root : In 0 (D ++ q);
  l_par : forall x p c, lab x = Some p -> 0 <= c < 256 -> T (p ++ [c]) -> (In (base (cell a x) + c) (D ++ q) <-> E x c);
  l_sort : StronglySorted (fun x y => (depth x <= depth y)%nat) q;
  l_rng : forall x, In x q -> (d <= depth x <= S d)%nat;
  l_room : room = size a - Z.of_nat (length (D ++ q))
}.
Definition full (d : nat) (l : list Z) : Prop := forall x p, lab x = Some p -> (length p <= d)%nat -> In x l.

(** One child *)
Lemma sorted_snoc {A} (R : A -> A -> Prop) l y : StronglySorted R l -> (forall x, In x l -> R x y) -> StronglySorted R (l ++ [y]).
Proof.
  induction 1 as [|x l _ IH H]; intros Hy; cbn [app].
  - constructor; constructor.
  - constructor; [apply IH; intros z Hz; apply Hy; now right|]. apply Forall_app. split; [exact H|]. constructor; [apply Hy; now left|constructor].
Qed.
Definition E_upto (D : list Z) (pos i x c : Z) : Prop := In x D /\ (x = pos -> c < i).

Lemma children_ok pos p D : lab pos = Some p -> In pos D -> forall k a room q, (k <= 256)%nat ->
  linv a room D q (E_upto D pos (256 - Z.of_nat k)) (length p) -> full (length p) (D ++ q) ->
  exists a' room' q', link_children k a pos room q = Ok (a', room', q') /\ linv a' room' D q' (fun x _ => In x D) (length p) /\
    size a' = size a /\ forall x, output (cell a' x) = output (cell a x).
Proof.
  intros Lp Ip. induction k as [|k IH]; intros a room q Hk I F.
  - exists a, room, q. split; [reflexivity|]. split; [|split; reflexivity]. destruct I as [i1 i2 i3 i4 i5 i6 i7 i8]. constructor; try assumption.
    intros x px c Hx Hc HT. rewrite (i5 x px c Hx Hc HT). unfold E_upto. split; [tauto|]. intros G. split; [exact G|]. cbn. lia.
  - cbn [link_children]. set (i := 255 - Z.of_nat k). replace (256 - Z.of_nat (S k)) with i in I by (subst i; lia).
    assert (Hi : 0 <= i < 256) by (subst i; lia). assert (Ei : 256 - Z.of_nat k = i + 1) by (subst i; lia). rewrite Ei in IH. clearbody i.
    pose proof (l_trie _ _ _ _ _ _ I) as Tr. destruct (t_pos _ _ _ Tr pos p Lp) as [Rp Tp].
    rewrite get_ok by exact Rp. cbn [obind]. rewrite get_ok by now apply (t_base _ _ _ Tr pos p). cbn [obind].
    pose proof (t_go _ _ _ Tr pos p i Lp Hi) as Go. destruct (Z.eqb_spec (check (cell a (base (cell a pos) + i))) pos) as [E|N]; cbn [negb].
    + assert (HT : T (p ++ [i])) by tauto. clear Go.
      set (y := base (cell a pos) + i) in *. pose proof (t_next _ _ _ Tr pos p i Lp Hi HT) as Ly. fold y in Ly.
      assert (Ny : ~ In y (D ++ q)). { intros C. apply (l_par _ _ _ _ _ _ I pos p i Lp Hi HT) in C. destruct C as [_ C]. specialize (C eq_refl). lia. }
      destruct (t_pos _ _ _ Tr y _ Ly) as [Ry _].
      assert (FO : forall x px, lab x = Some px -> (length px <= length p)%nat -> fail_ok a x px).
      { intros x px Hx L. destruct (l_lab _ _ _ _ _ _ I x (F x px Hx L)) as (p2 & H2 & Hf). rewrite Hx in H2. now injection H2 as <-. }
      assert (CH : exists r t u, chase (S (Z.to_nat (size a))) a i (fail (cell a pos)) = Ok r /\
        (if 0 <=? r then let* mn := get a r in Ok (base mn + i) else Ok 0) = Ok t /\ lab t = Some u /\ longest T (tl (p ++ [i])) u).
      { pose proof (FO pos p Lp (le_n _)) as Fp. destruct p as [|c p'].
        - cbn [fail_ok] in Fp. rewrite Fp. exists (-1), 0, []. split; [cbn [chase]; reflexivity|]. split; [reflexivity|]. split; [apply (t_root _ _ _ Tr)|]. cbn [app tl]. split; [apply suffix_refl|]. split; [now apply (T_prefix W [] [i])|].
          intros u ->%suffix_of_nil _. reflexivity.
        - cbn [fail_ok] in Fp. destruct Fp as (s & Ls & S1 & S2 & S3). pose proof (suffix_length _ _ S1) as Sl.
          assert (Db := depth_bound a Tr s S2).
          destruct (chase_ok a i Tr Hi (S (Z.to_nat (size a))) s _ Ls) as (r & Er & R).
          { intros x px Hx L. apply (FO x px Hx). cbn [length]. lia. } { lia. }
          assert (Su : forall u, suffix u p' -> T (u ++ [i]) -> suffix u s).
          { intros u Hu Hu2. apply (suffix_both p'); [exact Hu|exact S1|]. apply S3; [exact Hu|]. now apply T_prefix in Hu2. }
          exists r. destruct R as [(R1 & R2)|(R1 & u & R2 & R3 & R4 & R5)].
          + exists 0, []. split; [exact Er|]. replace (0 <=? r) with false by lia. split; [reflexivity|]. split; [apply (t_root _ _ _ Tr)|]. cbn [app tl]. split; [apply suffix_nil|]. split; [apply (T_prefix W [] s S2)|].
            intros u Hu Tu. apply suffix_snoc in Hu. destruct Hu as [->|(v & -> & Hv)]; [reflexivity|]. exfalso. exact (R2 v (Su v Hv Tu) Tu).
          + exists (base (cell a r) + i), (u ++ [i]). split; [exact Er|]. replace (0 <=? r) with true by lia. rewrite get_ok by now apply (t_pos _ _ _ Tr r u). split; [reflexivity|].
            split; [now apply (t_next _ _ _ Tr)|]. cbn [app tl]. split; [apply suffix_snoc; right; exists u; split; [reflexivity|]; now apply (suffix_trans _ s)|]. split; [exact R4|].
            intros v Hv Tv. apply suffix_snoc in Hv. destruct Hv as [->|(v' & -> & Hv)]; [cbn; lia|]. rewrite !app_length. cbn. specialize (R5 v' (Su v' Hv Tv) Tv). lia. }
      destruct CH as (r & t & u & -> & CH & Lt & Lo). cbn [obind]. rewrite CH. cbn [obind]. rewrite modify_ok by exact Ry. cbn [obind].
      set (a1 := {| size := size a; cell := fun j => if j =? y then set_fail t (cell a y) else cell a j |}).
      assert (SS : same_shape a a1). { split; [reflexivity|]. intros x. cbn [a1 cell]. destruct (Z.eqb_spec x y) as [->|]; split; reflexivity. }
      assert (Tr1 : trie a1 lab) by (now apply (trie_shape a)).
      assert (ND : NoDup (D ++ q ++ [y])). { rewrite app_assoc. apply NoDup_app_intro; [apply (l_nodup _ _ _ _ _ _ I)|constructor; [intros []|constructor]|]. intros x Hx [<-|[]]. contradiction. }
      assert (Rm : 0 < room).
      { pose proof (nodup_range _ (size a) ND) as R. rewrite (l_room _ _ _ _ _ _ I). rewrite !app_length in *. cbn [length] in R. assert (R' : forall x, In x (D ++ q ++ [y]) -> 0 <= x < size a).
        { intros x Hx. rewrite app_assoc in Hx. apply in_app_iff in Hx. destruct Hx as [Hx|[<-|[]]]; [|exact Ry]. destruct (l_lab _ _ _ _ _ _ I x Hx) as (px & Hpx & _). now apply (t_pos _ _ _ Tr) in Hpx. }
        specialize (R R'). lia. }
      replace (room <=? 0) with false by lia.
      destruct (IH a1 (room - 1) (q ++ [y])) as (a' & room' & q' & G1 & G2 & G0 & G3).
      * lia.
      * constructor.
        -- exact Tr1.
        -- exact ND.
        -- intros x Hx. rewrite app_assoc in Hx. apply in_app_iff in Hx. destruct Hx as [Hx|[<-|[]]].
           ++ destruct (l_lab _ _ _ _ _ _ I x Hx) as (px & Hpx & Hf). exists px. split; [exact Hpx|]. unfold fail_ok in *. cbn [a1 cell]. destruct (Z.eqb_spec x y) as [->|]; [contradiction|exact Hf].
           ++ exists (p ++ [i]). split; [exact Ly|]. unfold fail_ok. cbn [a1 cell]. rewrite Z.eqb_refl. cbn [set_fail fail]. destruct p as [|c p']; cbn [app] in *; exists u; now split.
        -- rewrite app_assoc. apply in_app_iff. left. apply (l_root _ _ _ _ _ _ I).
        -- intros x px c Hx Hc HTx. rewrite (proj1 (proj2 SS x)). rewrite app_assoc, in_app_iff, (l_par _ _ _ _ _ _ I x px c Hx Hc HTx).
           pose proof (t_next _ _ _ Tr x px c Hx Hc HTx) as Lc. unfold E_upto. split.
           ++ intros [(H1 & H2)|[H|[]]]; [split; [exact H1|]; intros H; specialize (H2 H); lia|]. rewrite <- H, Ly in Lc. injection Lc as Lc. apply app_inj_tail in Lc. destruct Lc as [<- <-].
              rewrite (t_inj _ _ _ Tr x pos p Hx Lp). split; [exact Ip|]. intros _. lia.
           ++ intros (H1 & H2). destruct (Z.eq_dec x pos) as [->|Nx]; [|left; split; [exact H1|intros; contradiction]]. specialize (H2 eq_refl). destruct (Z.eq_dec c i) as [->|Nc]; [right; now left|left; split; [exact H1|intros _; lia]].
        -- apply sorted_snoc; [apply (l_sort _ _ _ _ _ _ I)|]. intros x Hx. apply (l_rng _ _ _ _ _ _ I) in Hx. unfold depth at 2. rewrite Ly, app_length. cbn. lia.
        -- intros x Hx. apply in_app_iff in Hx. destruct Hx as [Hx|[<-|[]]]; [now apply (l_rng _ _ _ _ _ _ I)|]. unfold depth. rewrite Ly, app_length. cbn. lia.
        -- cbn [a1 size]. rewrite (l_room _ _ _ _ _ _ I), !app_length. cbn [length]. lia.
      * intros x px Hx L. rewrite app_assoc. apply in_app_iff. left. now apply (F x px).
      * exists a', room', q'. split; [exact G1|]. split; [exact G2|]. split; [exact G0|]. intros x. rewrite G3. cbn [a1 cell]. destruct (Z.eqb_spec x y) as [->|]; reflexivity.
    + assert (NT : ~ T (p ++ [i])) by tauto. apply IH; [lia| |exact F]. destruct I as [i1 i2 i3 i4 i5 i6 i7 i8]. constructor; try assumption.
      intros x px c Hx Hc HT. rewrite (i5 x px c Hx Hc HT). unfold E_upto. split; intros (H1 & H2); (split; [exact H1|]); intros H; specialize (H2 H); [lia|].
      subst x. assert (px = p) by congruence. subst px. assert (c <> i) by (intros ->; contradiction). lia.
Qed.

Definition outs (a : arr) (D : list Z) : Prop := forall x p, lab x = Some p -> (In x D -> out_fin p (output (cell a x))) /\ (~ In x D -> out_ok W p (output (cell a x))).

Hypothesis HP : forall p k, In (p, k) W -> 0 <= k.
Lemma out_step a pos p D : trie a lab -> lab pos = Some p -> p <> [] -> fail_ok a pos p -> outs a D -> ~ In pos D -> (forall x q, lab x = Some q -> (length q < length p)%nat -> In x D) ->
  exists fn, get a (fail (cell a pos)) = Ok fn /\ out_fin p (if negb (output fn =? -1) && (output (cell a pos) =? -1) then -2 else output (cell a pos)).
Proof.
  intros Tr Lp Np Fp O Nd Sm. destruct p as [|c p]; [congruence|]. cbn [fail_ok] in Fp. destruct Fp as (s & Ls & S1 & S2 & S3).
  exists (cell a (fail (cell a pos))). split; [apply get_ok; now apply (t_pos _ _ _ Tr _ s)|].
  pose proof (suffix_length _ _ S1) as Sl. assert (Is : In (fail (cell a pos)) D) by (apply (Sm _ s Ls); cbn [length]; lia).
  pose proof (proj1 (O _ _ Ls) Is) as Os. pose proof (proj2 (O _ _ Lp) Nd) as Op.
  destruct Op as [(P1 & P2)|(P1 & ->)].
  - replace (output (cell a pos) =? -1) with false by (specialize (HP _ _ P1); lia). rewrite andb_false_r. left. now split.
  - right. split; [exact P1|]. rewrite Z.eqb_refl, andb_true_r. destruct Os as [(Q1 & _)|(_ & [(-> & t & k & Q1 & Q2)|(-> & Q)])].
    + replace (output (cell a (fail (cell a pos))) =? -1) with false by (specialize (HP _ _ Q1); lia). cbn [negb]. left. split; [reflexivity|].
      exists s, (output (cell a (fail (cell a pos)))). split; [|exact Q1]. apply suffix_cons. now right.
    + cbn. left. split; [reflexivity|]. exists t, k. split; [|exact Q2]. apply suffix_cons. right. now apply (suffix_trans _ s).
    + cbn. right. split; [reflexivity|]. intros u k Hu C. apply suffix_cons in Hu. destruct Hu as [->|Hu]; [now apply P1 in C|].
      apply (Q u k); [|exact C]. apply (suffix_both p); [exact Hu|exact S1|]. apply S3; [exact Hu|]. now apply T_word in C.
Qed.

Lemma head_below a room D pos q E p d : linv a room D (pos :: q) E d -> (forall x c, E x c <-> In x D) -> lab pos = Some p ->
  (forall x px, lab x = Some px -> (length px < length p)%nat -> In x D) /\ full (length p) (D ++ pos :: q).
Proof.
  intros I HE Lp. assert (Hd : forall x px, lab x = Some px -> In x (pos :: q) -> (length p <= length px)%nat).
  { intros x px Hx Hi. pose proof (l_sort _ _ _ _ _ _ I) as S. inversion S as [|? ? _ F]; subst. destruct Hi as [<-|Hi]; [assert (px = p) by congruence; subst; lia|].
    rewrite Forall_forall in F. specialize (F x Hi). unfold depth in F. now rewrite Lp, Hx in F. }
  assert (G : forall px x, lab x = Some px -> (length px < length p)%nat -> In x D).
  { intros px. induction px as [|c px IH] using rev_ind; intros x Hx L.
    - assert (x = 0) by (apply (t_inj _ _ _ (l_trie _ _ _ _ _ _ I) x 0 []); [exact Hx|apply (t_root _ _ _ (l_trie _ _ _ _ _ _ I))]). subst x.
      pose proof (l_root _ _ _ _ _ _ I) as R. apply in_app_iff in R. destruct R as [R|R]; [exact R|]. specialize (Hd 0 [] Hx R). lia.
    - pose proof (t_pos _ _ _ (l_trie _ _ _ _ _ _ I) x _ Hx) as [_ HT]. destruct (t_all _ _ _ (l_trie _ _ _ _ _ _ I) px (T_prefix W _ _ HT)) as (z & Hz).
      rewrite app_length in L. cbn in L. assert (Iz : In z D) by (apply IH; [exact Hz|lia]).
      pose proof (T_char _ _ HT) as Hc. assert (Hc' : 0 <= c < 256) by lia. pose proof (t_next _ _ _ (l_trie _ _ _ _ _ _ I) z px c Hz Hc' HT) as Lz.
      rewrite (t_inj _ _ _ (l_trie _ _ _ _ _ _ I) _ _ _ Hx Lz). apply HE with (c := c) in Iz. apply (l_par _ _ _ _ _ _ I z px c Hz Hc' HT) in Iz. apply in_app_iff in Iz. destruct Iz as [Iz|Iz]; [exact Iz|].
      specialize (Hd _ _ Lz Iz). rewrite app_length in Hd. cbn in Hd. lia. }
  split; [intros x px; apply G|]. intros x px Hx L. induction px as [|c px _] using rev_ind.
  - rewrite (t_inj _ _ _ (l_trie _ _ _ _ _ _ I) x 0 [] Hx (t_root _ _ _ (l_trie _ _ _ _ _ _ I))). apply (l_root _ _ _ _ _ _ I).
  - pose proof (t_pos _ _ _ (l_trie _ _ _ _ _ _ I) x _ Hx) as [_ HT]. destruct (t_all _ _ _ (l_trie _ _ _ _ _ _ I) px (T_prefix W _ _ HT)) as (z & Hz).
    rewrite app_length in L. cbn in L. assert (Iz : In z D) by (apply (G px); [exact Hz|lia]).
    pose proof (T_char _ _ HT) as Hc. assert (Hc' : 0 <= c < 256) by lia. pose proof (t_next _ _ _ (l_trie _ _ _ _ _ _ I) z px c Hz Hc' HT) as Lz.
    rewrite (t_inj _ _ _ (l_trie _ _ _ _ _ _ I) _ _ _ Hx Lz). apply HE with (c := c) in Iz. now apply (l_par _ _ _ _ _ _ I z px c Hz Hc' HT).
Qed.

Definition finished (a : arr) : Prop := trie a lab /\ forall x p, lab x = Some p -> fail_ok a x p /\ out_fin p (output (cell a x)).

Lemma link_ok : forall fuel a room D q d, linv a room D q (fun x _ => In x D) d -> outs a D ->
  (size a < Z.of_nat fuel + Z.of_nat (length D)) -> exists a', link fuel a room q = Ok a' /\ finished a'.
Proof.
  induction fuel as [|fuel IH]; intros a room D q d I O F.
  - exfalso. pose proof (nodup_range (D ++ q) (size a) (l_nodup _ _ _ _ _ _ I)) as R. rewrite app_length in R.
    assert (R' : forall x, In x (D ++ q) -> 0 <= x < size a). { intros x Hx. destruct (l_lab _ _ _ _ _ _ I x Hx) as (px & Hpx & _). now apply (t_pos _ _ _ (l_trie _ _ _ _ _ _ I)) in Hpx. }
    specialize (R R'). pose proof (R' 0 (l_root _ _ _ _ _ _ I)). lia.
  - cbn [link]. pose proof (l_trie _ _ _ _ _ _ I) as Tr. destruct q as [|pos q].
    + exists a. split; [reflexivity|]. split; [exact Tr|].
      assert (All : forall px x, lab x = Some px -> In x D).
      { intros px. induction px as [|c px IHp] using rev_ind; intros x Hx.
        - rewrite (t_inj _ _ _ Tr x 0 [] Hx (t_root _ _ _ Tr)). pose proof (l_root _ _ _ _ _ _ I) as R. now rewrite app_nil_r in R.
        - pose proof (t_pos _ _ _ Tr x _ Hx) as [_ HT]. destruct (t_all _ _ _ Tr px (T_prefix W _ _ HT)) as (z & Hz). pose proof (T_char _ _ HT) as Hc. assert (Hc' : 0 <= c < 256) by lia.
          pose proof (t_next _ _ _ Tr z px c Hz Hc' HT) as Lz. rewrite (t_inj _ _ _ Tr _ _ _ Hx Lz). pose proof (IHp z Hz) as Iz.
          apply (l_par _ _ _ _ _ _ I z px c Hz Hc' HT) in Iz. now rewrite app_nil_r in Iz. }
      intros x p Hx. pose proof (All p x Hx) as Ix. split; [|now apply (O x p Hx)].
      destruct (l_lab _ _ _ _ _ _ I x) as (p2 & H2 & Hf); [now rewrite app_nil_r|]. rewrite Hx in H2. now injection H2 as <-.
    + destruct (l_lab _ _ _ _ _ _ I pos) as (p & Lp & Fp); [apply in_elt|]. destruct (t_pos _ _ _ Tr pos p Lp) as [Rp Tp].
      destruct (head_below _ _ _ _ _ _ p d I (fun x c => iff_refl _) Lp) as [Sm Fu].
      assert (Nd : ~ In pos D). { intros C. pose proof (l_nodup _ _ _ _ _ _ I) as N. apply NoDup_remove_2 in N. apply N. apply in_app_iff. now left. }
      rewrite get_ok by exact Rp. cbn [obind].
      assert (ST : exists a1 o, (if 0 <? pos then let* fn := get a (fail (cell a pos)) in if negb (output fn =? -1) && (output (cell a pos) =? -1) then modify a pos (set_output (-2)) else Ok a else Ok a) = Ok a1 /\
        same_shape a a1 /\ (forall x, fail (cell a1 x) = fail (cell a x)) /\ (forall x, output (cell a1 x) = if x =? pos then o else output (cell a x)) /\ out_fin p o).
      { destruct (Z.ltb_spec 0 pos) as [P|P].
        - assert (Np : p <> []). { intros ->. rewrite (t_inj _ _ _ Tr pos 0 [] Lp (t_root _ _ _ Tr)) in P. lia. }
          destruct (out_step a pos p D Tr Lp Np Fp O Nd Sm) as (fn & -> & Of). cbn [obind]. destruct (negb (output fn =? -1) && (output (cell a pos) =? -1)).
          + rewrite modify_ok by exact Rp. eexists. exists (-2). split; [reflexivity|]. split; [split; [reflexivity|]; intros x; cbn [cell]; destruct (Z.eqb_spec x pos) as [->|]; split; reflexivity|].
            split; [intros x; cbn [cell]; destruct (Z.eqb_spec x pos) as [->|]; reflexivity|]. split; [intros x; cbn [cell]; destruct (x =? pos); reflexivity|exact Of].
          + exists a, (output (cell a pos)). split; [reflexivity|]. split; [split; [reflexivity|]; intros x; now split|]. split; [reflexivity|]. split; [intros x; destruct (Z.eqb_spec x pos) as [->|]; reflexivity|exact Of].
        - assert (Z0 : pos = 0) by lia. assert (p = []) by (rewrite Z0, (t_root _ _ _ Tr) in Lp; now injection Lp). subst p.
          exists a, (output (cell a pos)). split; [reflexivity|]. split; [split; [reflexivity|]; intros x; now split|]. split; [reflexivity|]. split; [intros x; destruct (Z.eqb_spec x pos) as [->|]; reflexivity|].
          destruct (proj2 (O pos [] Lp) Nd) as [Q|(Q & ->)]; [now left|right]. split; [exact Q|]. right. split; [reflexivity|]. intros s k ->%suffix_of_nil. apply Q. }
      destruct ST as (a1 & o & -> & SS & Sf & So & Oo). cbn [obind].
      assert (RE : forall l, D ++ pos :: l = (D ++ [pos]) ++ l) by (intros; now rewrite <- app_assoc).
      assert (Ip : In pos (D ++ [pos])) by (apply in_app_iff; right; now left).
      assert (FO : forall x px, fail_ok a1 x px <-> fail_ok a x px) by (intros x px; unfold fail_ok; rewrite Sf; reflexivity).
      destruct (children_ok pos p (D ++ [pos]) Lp Ip 256 a1 room q) as (a2 & room2 & q2 & -> & I2 & Sz & O2).
      { lia. }
      { pose proof I as [i1 i2 i3 i4 i5 i6 i7 i8]. rewrite (RE q) in i2, i3, i4, i5, i8. constructor.
        - now apply (trie_shape a).
        - exact i2.
        - intros x Hx. destruct (i3 x Hx) as (px & H1 & H2). exists px. split; [exact H1|now apply FO].
        - exact i4.
        - intros x px c Hx Hc HT. rewrite (proj1 (proj2 SS x)), (i5 x px c Hx Hc HT). unfold E_upto. rewrite in_app_iff. cbn [In]. split.
          + intros H. split; [now left|]. intros ->. contradiction.
          + intros ([H|[<-|[]]] & H2); [exact H|]. specialize (H2 eq_refl). lia.
        - now inversion i6.
        - intros x Hx. inversion i6 as [|? ? _ Fq]; subst. rewrite Forall_forall in Fq. specialize (Fq x Hx). unfold depth at 1 in Fq. rewrite Lp in Fq. pose proof (i7 x (or_intror Hx)). pose proof (i7 pos (or_introl eq_refl)) as D7. unfold depth in D7 at 1. unfold depth in D7. rewrite Lp in D7. lia.
        - rewrite i8. now rewrite (proj1 SS). }
      { now rewrite <- RE. }
      cbn [obind]. apply (IH a2 room2 (D ++ [pos]) q2 (length p)); [exact I2| |].
      * intros x px Hx. rewrite O2, So, in_app_iff. cbn [In]. destruct (Z.eqb_spec x pos) as [->|N].
        -- assert (px = p) by congruence. subst px. split; [intros _; exact Oo|]. intros C. exfalso. apply C. right. now left.
        -- split; [intros [H|[H|[]]]; [now apply (O x px Hx)|congruence]|]. intros H. apply (O x px Hx). tauto.
      * rewrite Sz, (proj1 SS), app_length. cbn [length]. lia.
Qed.
End link.
