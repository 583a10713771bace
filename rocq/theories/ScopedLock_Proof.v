From Verif Require Import Common ScopedLock_Model ScopedLock_Spec.
Local Open Scope Z_scope.
Lemma nested_app a b : nested a -> nested b -> nested (a ++ b).
Proof.
  intros Ha Hb. induction Ha; cbn [app]; [exact Hb| | | | |].
  - now constructor.
  - rewrite <- app_assoc. cbn [app]. now constructor.
  - now constructor.
  - rewrite <- app_assoc. cbn [app]. now constructor.
  - rewrite <- app_assoc. cbn [app]. now constructor.
Qed.
Definition delta (i : Z) (e : ev) : Z := held i [e].
Lemma held_cons i e t : held i (e :: t) = delta i e + held i t.
Proof. destruct e as [j|j []|j|j|n]; cbn [held delta]; unfold delta; cbn [held]; lia. Qed.
Lemma held_app i a b : held i (a ++ b) = held i a + held i b.
Proof. induction a as [|e a IH]; [reflexivity|]. cbn [app]. rewrite !held_cons. lia. Qed.
Lemma nested_held i t : nested t -> held i t = 0.
Proof.
  induction 1 as [|n r _ IH|j t r Nt IHt Nr IHr|j x r Hx Nr IH|j t r Nt IHt Nr IHr|j x t r Hx Nt IHt Nr IHr]; cbn [held].
  4, 6: destruct x; [congruence|..].
  all: rewrite ?held_app; cbn [held]; try destruct (i =? j); lia.
Qed.
(** Counting from c on: never below 0; at each step of the program at least 1. *)
Fixpoint okc (i c : Z) (t : list ev) : Prop := match t with [] => 0 <= c | e :: r => 0 <= c /\ okc i (c + delta i e) r end.
Fixpoint gc (i c : Z) (t : list ev) : Prop :=
  match t with [] => True | e :: r => match e with EAct _ => 1 <= c | _ => True end /\ gc i (c + delta i e) r end.
Lemma okc_app i t1 t2 : forall c, okc i c t1 -> okc i (c + held i t1) t2 -> okc i c (t1 ++ t2).
Proof.
  induction t1 as [|e t1 IH]; intros c; cbn [app okc].
  - intros _. cbn [held]. now replace (c + 0) with c by lia.
  - intros [H1 H2]. rewrite held_cons. intros H3. split; [exact H1|]. apply IH; [exact H2|]. now replace (c + delta i e + held i t1) with (c + (delta i e + held i t1)) by lia.
Qed.
Lemma gc_app i t1 t2 : forall c, gc i c t1 -> gc i (c + held i t1) t2 -> gc i c (t1 ++ t2).
Proof.
  induction t1 as [|e t1 IH]; intros c; cbn [app gc].
  - intros _. cbn [held]. now replace (c + 0) with c by lia.
  - intros [H1 H2]. rewrite held_cons. intros H3. split; [exact H1|]. apply IH; [exact H2|]. now replace (c + delta i e + held i t1) with (c + (delta i e + held i t1)) by lia.
Qed.
Lemma okc_mono i t : forall c d, c <= d -> okc i c t -> okc i d t.
Proof. induction t as [|e t IH]; intros c d Hcd; cbn [okc]; [lia|]. intros [H1 H2]. split; [lia|]. apply (IH (c + delta i e)); [lia|exact H2]. Qed.
Lemma gc_mono i t : forall c d, c <= d -> gc i c t -> gc i d t.
Proof. induction t as [|e t IH]; intros c d Hcd; cbn [gc]; [trivial|]. intros [H1 H2]. split; [destruct e; lia|]. apply (IH (c + delta i e)); [lia|exact H2]. Qed.
Lemma okc_gc i t : forall c, okc i c t -> gc i (c + 1) t.
Proof.
  induction t as [|e t IH]; intros c; cbn [okc gc]; [trivial|]. intros [H1 H2]. split; [destruct e; lia|].
  replace (c + 1 + delta i e) with (c + delta i e + 1) by lia. now apply IH.
Qed.
Lemma okc_held i t : forall c, okc i c t -> 0 <= c + held i t.
Proof. induction t as [|e t IH]; intros c; cbn [okc]; [cbn [held]; lia|]. intros [_ H]. apply IH in H. rewrite held_cons. lia. Qed.
Lemma gc_spec i a : forall c n b, gc i c (a ++ EAct n :: b) -> 1 <= c + held i a.
Proof.
  induction a as [|e a IH]; intros c n b; cbn [app gc]; [cbn [held]; lia|]. intros [_ H]. apply IH in H. rewrite held_cons. lia.
Qed.
(** Closing a block *)
Definition closed (i : Z) (k : flow) (t : list ev) : Prop := okc i 0 t /\ (k <> Dead -> held i t = 0).
Lemma delta_yes i j : 0 <= delta i (ELock j Yes) <= 1.
Proof. unfold delta. cbn [held]. destruct (i =? j); lia. Qed.
Lemma delta_unlock i j : delta i (EUnlock j) = - delta i (ELock j Yes).
Proof. unfold delta. cbn [held]. destruct (i =? j); lia. Qed.
Lemma delta_new i j : delta i (ENew j) = 0. Proof. reflexivity. Qed.
Lemma delta_delete i j : delta i (EDelete j) = 0. Proof. reflexivity. Qed.
Lemma delta_no i j r : r <> Yes -> delta i (ELock j r) = 0. Proof. destruct r; [congruence|reflexivity..]. Qed.
Lemma delta_act i n : delta i (EAct n) = 0. Proof. reflexivity. Qed.
Ltac count := rewrite ?delta_unlock, ?delta_new, ?delta_delete, ?delta_act, ?delta_no by discriminate.
Section Env.
Variable lock : list ev -> Z -> lres.
Variable ut : list ev -> Z -> bool.
Lemma run_nested p : forall h h' k, run lock ut p h = (h', k) -> k <> Dead -> exists t, h' = h ++ t /\ nested t.
Proof.
  induction p as [n| | |a IHa b IHb|a IHa b IHb|w b IHb e IHe]; intros h h' k; cbn [run].
  - intros E _. injection E as <- <-. exists [EAct n]. split; [reflexivity|repeat constructor].
  - intros E _. injection E as <- <-. exists []. split; [now rewrite app_nil_r|constructor].
  - intros E _. injection E as <- <-. exists []. split; [now rewrite app_nil_r|constructor].
  - destruct (run lock ut a h) as [h1 k1] eqn:Ea. intros E Hk.
    assert (D : k1 <> Dead) by (intros ->; injection E as _ <-; congruence).
    destruct (IHa _ _ _ Ea D) as (t1 & -> & N1). destruct k1; [|injection E as <- <-; now exists t1..].
    destruct (IHb _ _ _ E Hk) as (t2 & -> & N2). exists (t1 ++ t2). split; [apply eq_sym, app_assoc|now apply nested_app].
  - destruct (run lock ut a h) as [h1 k1] eqn:Ea. intros E Hk.
    assert (D : k1 <> Dead) by (intros ->; injection E as _ <-; congruence).
    destruct (IHa _ _ _ Ea D) as (t1 & -> & N1). destruct k1; [injection E as <- <-; now exists t1| |injection E as <- <-; now exists t1..].
    destruct (IHb _ _ _ E Hk) as (t2 & -> & N2). exists (t1 ++ t2). split; [apply eq_sym, app_assoc|now apply nested_app].
  - destruct w as [i|[i|]]; cbn [make].
    + destruct (lock h i) eqn:L; cbn [bool_test need_unlock].
      * destruct (run lock ut b _) as [h1 k1] eqn:Eb. intros E Hk.
        assert (D : k1 <> Dead) by (intros ->; injection E as _ <-; congruence).
        destruct (IHb _ _ _ Eb D) as (t1 & -> & N1).
        assert (E' : leave ut (Scoped (Some i) None true) k1 ((h ++ [ELock i Yes]) ++ t1) = (h', k)) by (destruct k1; try exact E; congruence).
        cbn [leave need_unlock l] in E'. destruct (ut _ i); injection E' as <- <-; [congruence|]. cbn [drop_lp lp].
        exists (ELock i Yes :: t1 ++ [EUnlock i]). split; [now rewrite <- !app_assoc|]. constructor; [exact N1|constructor].
      * destruct (run lock ut e _) as [h1 k1] eqn:Eb. intros E Hk.
        assert (D : k1 <> Dead) by (intros ->; injection E as _ <-; congruence).
        destruct (IHe _ _ _ Eb D) as (t1 & -> & N1).
        assert (E' : leave ut (Scoped (Some i) None false) k1 ((h ++ [ELock i No]) ++ t1) = (h', k)) by (destruct k1; try exact E; congruence).
        cbn [leave need_unlock drop_lp lp] in E'. injection E' as <- <-.
        exists (ELock i No :: t1). split; [now rewrite <- !app_assoc|]. constructor; [discriminate|exact N1].
      * intros E Hk. injection E as <- <-. exists [ELock i Thrown]. split; [reflexivity|]. constructor; [discriminate|constructor].
    + destruct (lock (h ++ [ENew i]) i) eqn:L; cbn [bool_test need_unlock].
      * destruct (run lock ut b _) as [h1 k1] eqn:Eb. intros E Hk.
        assert (D : k1 <> Dead) by (intros ->; injection E as _ <-; congruence).
        destruct (IHb _ _ _ Eb D) as (t1 & -> & N1).
        assert (E' : leave ut (Scoped None (Some i) true) k1 (((h ++ [ENew i]) ++ [ELock i Yes]) ++ t1) = (h', k)) by (destruct k1; try exact E; congruence).
        cbn [leave need_unlock l lp] in E'. destruct (ut _ i); injection E' as <- <-; [congruence|]. cbn [drop_lp lp].
        exists (ENew i :: ELock i Yes :: t1 ++ [EUnlock i; EDelete i]). split; [now rewrite <- !app_assoc|]. constructor; [exact N1|constructor].
      * destruct (run lock ut e _) as [h1 k1] eqn:Eb. intros E Hk.
        assert (D : k1 <> Dead) by (intros ->; injection E as _ <-; congruence).
        destruct (IHe _ _ _ Eb D) as (t1 & -> & N1).
        assert (E' : leave ut (Scoped None (Some i) false) k1 (((h ++ [ENew i]) ++ [ELock i No]) ++ t1) = (h', k)) by (destruct k1; try exact E; congruence).
        cbn [leave need_unlock drop_lp lp] in E'. injection E' as <- <-.
        exists (ENew i :: ELock i No :: t1 ++ [EDelete i]). split; [now rewrite <- !app_assoc|]. constructor; [discriminate|exact N1|constructor].
      * intros E Hk. injection E as <- <-. exists (ENew i :: ELock i Thrown :: [] ++ [EDelete i]). split; [now rewrite <- !app_assoc|]. constructor; [discriminate|constructor..].
    + intros E Hk. injection E as <- <-. congruence.
Qed.
(** Whatever happens, what happened stays. *)
Lemma leave_grows s k h h' k' : leave ut s k h = (h', k') -> exists t, h' = h ++ t /\ acts t = [].
Proof.
  unfold leave, drop_lp. destruct s as [[i|] [j|] []]; cbn [need_unlock l lp]; try destruct (ut h _); intros E; injection E as <- <-;
    (eexists; split; [rewrite <- ?app_assoc; try reflexivity; symmetry; apply app_nil_r|reflexivity]).
Qed.
Lemma run_closed i p : forall h h' k, run lock ut p h = (h', k) -> exists t, h' = h ++ t /\ closed i k t /\ (guarded i p -> gc i 0 t).
Proof.
  induction p as [n| | |a IHa b IHb|a IHa b IHb|w b IHb e IHe]; intros h h' k; cbn [run guarded].
  - intros E. injection E as <- <-. exists [EAct n]. split; [reflexivity|]. split; [|contradiction]. split; [cbn [okc]; count; lia|reflexivity].
  - intros E. injection E as <- <-. exists []. split; [now rewrite app_nil_r|]. split; [|cbn; trivial]. split; [cbn; lia|reflexivity].
  - intros E. injection E as <- <-. exists []. split; [now rewrite app_nil_r|]. split; [|cbn; trivial]. split; [cbn; lia|reflexivity].
  - destruct (run lock ut a h) as [h1 k1] eqn:Ea. intros E. destruct (IHa _ _ _ Ea) as (t1 & -> & [O1 C1] & G1).
    destruct k1; [|injection E as <- <-; exists t1; split; [reflexivity|]; split; [now split|tauto]..].
    destruct (IHb _ _ _ E) as (t2 & -> & [O2 C2] & G2). specialize (C1 ltac:(discriminate)).
    exists (t1 ++ t2). split; [apply eq_sym, app_assoc|]. split; [split|].
    + apply okc_app; [exact O1|]. now rewrite C1.
    + intros Hk. rewrite held_app, C1, (C2 Hk). reflexivity.
    + intros [Ga Gb]. apply gc_app; [auto|]. rewrite C1. auto.
  - destruct (run lock ut a h) as [h1 k1] eqn:Ea. intros E. destruct (IHa _ _ _ Ea) as (t1 & -> & [O1 C1] & G1).
    destruct k1; try (injection E as <- <-; exists t1; split; [reflexivity|]; split; [now split|tauto]).
    destruct (IHb _ _ _ E) as (t2 & -> & [O2 C2] & G2). specialize (C1 ltac:(discriminate)).
    exists (t1 ++ t2). split; [apply eq_sym, app_assoc|]. split; [split|].
    + apply okc_app; [exact O1|]. now rewrite C1.
    + intros Hk. rewrite held_app, C1, (C2 Hk). reflexivity.
    + intros [Ga Gb]. apply gc_app; [auto|]. rewrite C1. auto.
  - (* the events before the block, the object, and the body *)
    assert (Block : forall j pre r s body, (forall h h' k, run lock ut body h = (h', k) -> exists t, h' = h ++ t /\ closed i k t /\ (guarded i body -> gc i 0 t)) ->
      (pre = [] \/ pre = [ENew j]) -> need_unlock s = (match r with Yes => true | _ => false end) ->
      match l s with Some x => Some x | None => lp s end = Some j -> (pre = [] -> lp s = None) ->
      match run lock ut body ((h ++ pre) ++ [ELock j r]) with (h, Dead) => (h, Dead) | (h, k) => leave ut s k h end = (h', k) ->
      exists t, h' = h ++ t /\ closed i k t /\ ((j = i /\ r = Yes) \/ guarded i body -> gc i 0 t)).
    { intros j pre r s body IH Hpre Hn Hj Hlp E. destruct (run lock ut body _) as [h1 k1] eqn:Eb. destruct (IH _ _ _ Eb) as (t1 & -> & [O1 C1] & G1). clear IH Eb.
      assert (P : held i pre = 0 /\ okc i 0 pre /\ gc i 0 pre) by (destruct Hpre as [-> | ->]; cbn; repeat split; try lia). destruct P as (P0 & P1 & P2).
      assert (D : 0 <= delta i (ELock j r) <= 1) by (destruct r; [apply delta_yes|rewrite delta_no by discriminate; lia..]).
      assert (G : (j = i /\ r = Yes) \/ guarded i body -> gc i (delta i (ELock j r)) t1).
      { intros [[-> ->]|Gb]; [|apply (gc_mono i t1 0); [lia|auto]]. replace (delta i (ELock i Yes)) with (0 + 1); [now apply okc_gc|]. unfold delta. cbn [held]. rewrite Z.eqb_refl. reflexivity. }
      assert (Tail : exists t2, h' = (((h ++ pre) ++ [ELock j r]) ++ t1) ++ t2 /\ acts t2 = [] /\ (k <> Dead -> k1 <> Dead /\ held i t2 = - delta i (ELock j r)) /\
        (t2 <> [] -> k1 <> Dead /\ okc i (delta i (ELock j r)) t2)).
      { destruct k1; [| | |exists []; injection E as <- <-; rewrite app_nil_r; repeat split; try reflexivity; congruence].
        all: unfold leave in E; rewrite Hn, Hj in E; unfold drop_lp in E;
          (destruct r; [destruct (ut _ j); injection E as <- <-|injection E as <- <-..]).
        all: destruct (lp s) as [y|]; rewrite <- ?app_assoc; cbn [app];
          eexists; (split; [rewrite <- ?app_assoc; cbn [app]; try reflexivity; rewrite ?app_nil_r; reflexivity|]); (split; [reflexivity|]);
          (split; [intros; split; [discriminate|rewrite ?held_cons, ?held_app; cbn [held]; count; rewrite ?held_cons; cbn [held]; count; try lia; congruence]|]);
          (intros; split; [discriminate|]); cbn [okc]; count; try lia. }
      destruct Tail as (t2 & -> & A2 & T2 & T3). exists (pre ++ ELock j r :: t1 ++ t2). split; [now rewrite <- !app_assoc|].
      split; [split|].
      - apply okc_app; [exact P1|]. rewrite P0. cbn [okc]. split; [lia|]. apply okc_app; [apply (okc_mono i t1 0); [lia|exact O1]|].
        destruct t2 as [|z t2]; [cbn [okc]; apply (okc_held i t1) in O1; lia|]. destruct T3 as [T3 T4]; [discriminate|]. rewrite (C1 T3). now rewrite Z.add_0_r.
      - intros Hk. destruct (T2 Hk) as [K1 K2]. rewrite held_app, held_cons, held_app, P0, (C1 K1), K2. lia.
      - intros Hg. apply gc_app; [exact P2|]. rewrite P0. cbn [gc]. split; [trivial|]. apply gc_app; [now apply G|].
        clear - A2. generalize (0 + 0 + delta i (ELock j r) + held i t1). induction t2 as [|z t2 IH]; intros c; cbn [gc]; [trivial|]. destruct z; try discriminate; (split; [trivial|exact (IH A2 _)]). }
    intros E. destruct w as [j|[j|]]; cbn [make subject] in *.
    + destruct (lock h j) eqn:L; cbn [bool_test need_unlock] in E.
      * destruct (Block j [] Yes (Scoped (Some j) None true) b IHb) as (t & Et & Ct & Gt); auto; [rewrite app_nil_r; exact E|].
        exists t. split; [exact Et|]. split; [exact Ct|]. intros [[Hw|Hb] He]; apply Gt; [left; split; congruence|now right].
      * destruct (Block j [] No (Scoped (Some j) None false) e IHe) as (t & Et & Ct & Gt); auto; [rewrite app_nil_r; exact E|].
        exists t. split; [exact Et|]. split; [exact Ct|]. intros [_ He]; apply Gt. now right.
      * injection E as <- <-. exists [ELock j Thrown]. split; [reflexivity|]. split; [split|]; cbn [okc gc]; count; cbn; intuition lia.
    + destruct (lock (h ++ [ENew j]) j) eqn:L; cbn [bool_test need_unlock] in E.
      * destruct (Block j [ENew j] Yes (Scoped None (Some j) true) b IHb) as (t & Et & Ct & Gt); auto; [discriminate|].
        exists t. split; [exact Et|]. split; [exact Ct|]. intros [[Hw|Hb] He]; apply Gt; [left; split; congruence|now right].
      * destruct (Block j [ENew j] No (Scoped None (Some j) false) e IHe) as (t & Et & Ct & Gt); auto; [discriminate|].
        exists t. split; [exact Et|]. split; [exact Ct|]. intros [_ He]; apply Gt. now right.
      * injection E as <- <-. exists [ENew j; ELock j Thrown; EDelete j]. split; [now rewrite <- !app_assoc|]. split; [split|]; cbn [okc gc]; count; cbn; intuition lia.
    + injection E as <- <-. exists []. split; [now rewrite app_nil_r|]. cbn. split; [split; cbn; [lia|reflexivity]|trivial].
Qed.
End Env.
(** All locks had, nothing raised: every step is done. *)
Lemma acts_app a b : acts (a ++ b) = acts a ++ acts b.
Proof. unfold acts. apply flat_map_app. Qed.
Lemma run_steps lock p : (forall h i, lock h i = Yes) -> straight p ->
  forall h, exists h', run lock (fun _ _ => false) p h = (h', Go) /\ acts h' = acts h ++ steps p.
Proof.
  intros L. induction p as [n| | |a IHa b IHb|a IHa b IHb|w b IHb e IHe]; cbn [straight]; intros S h; cbn [run steps]; try contradiction.
  - eexists. split; [reflexivity|]. now rewrite acts_app.
  - destruct S as [Sa Sb]. destruct (IHa Sa h) as (h1 & -> & A1). destruct (IHb Sb h1) as (h2 & -> & A2). exists h2. split; [reflexivity|]. now rewrite A2, A1, app_assoc.
  - destruct (IHa S h) as (h1 & -> & A1). now exists h1.
  - destruct S as [Sw Sb]. destruct w as [i|[i|]]; cbn [make]; rewrite ?L; cbn [bool_test need_unlock subject] in *; [| |congruence].
    + destruct (IHb Sb (h ++ [ELock i Yes])) as (h1 & -> & A1). eexists. split; [reflexivity|]. cbn [drop_lp lp]. rewrite acts_app, A1, acts_app. cbn [acts flat_map app]. now rewrite !app_nil_r.
    + destruct (IHb Sb ((h ++ [ENew i]) ++ [ELock i Yes])) as (h1 & -> & A1). eexists. split; [reflexivity|]. cbn [drop_lp lp]. rewrite !acts_app, A1, !acts_app. cbn [acts flat_map app]. now rewrite !app_nil_r.
Qed.
Lemma run_alive lock p : no_null p -> forall h, snd (run lock (fun _ _ => false) p h) <> Dead.
Proof.
  induction p as [n| | |a IHa b IHb|a IHa b IHb|w b IHb e IHe]; cbn [no_null]; intros N h; cbn [run]; try (cbn; discriminate).
  - destruct N as [Na Nb]. specialize (IHa Na h). destruct (run _ _ a h) as [h1 []]; try exact IHa. apply (IHb Nb).
  - destruct N as [Na Nb]. specialize (IHa Na h). destruct (run _ _ a h) as [h1 []]; try exact IHa. apply (IHb Nb).
  - destruct N as (Nw & Nb & Ne). destruct w as [i|[i|]]; cbn [make subject] in *; [| |congruence].
    all: destruct (lock _ i); cbn [bool_test need_unlock]; try (cbn; discriminate).
    all: match goal with |- context [run _ _ ?q ?x] => assert (K : snd (run lock (fun _ _ => false) q x) <> Dead) by (first [apply (IHb Nb) | apply (IHe Ne)]) end.
    all: destruct (run _ _ _ _) as [h1 []]; cbn in *; congruence.
Qed.
