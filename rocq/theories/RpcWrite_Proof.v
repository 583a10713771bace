(** What arrives is a prefix of the answers, and only the last answer can be missing something. *)
From Verif Require Import Common CommonLemmas Socket_Spec Socket_Model Socket_Proof RpcWrite_Spec RpcWrite_Model.
Local Open Scope Z_scope.

Section P.
Context (rc sc : nat -> Z) (always : bool) (whole : protocol).
(** [w]: all that was put so far; [b]: what had been sent before. *)
Record inv (w b : list Z) (s : bool * st) : Prop := {
  i_ok : okst (snd s);
  i_good : fst s = true -> w = koutf (snd s) ++ wbf (snd s);
  i_bad : fst s = false -> wbf (snd s) = [] /\ exists t, w = koutf (snd s) ++ t;
  i_more : exists t, koutf (snd s) = b ++ t }.
Definition input (x : st) : list Z := rbf x ++ kinf x.

Lemma do_op_ok o w b s : inv w b s -> exists s', do_op sc always o s = Ok s' /\ inv (w ++ text o) b s' /\ input (snd s') = input (snd s) /\
  (o = Push -> wbf (snd s') = []) /\
  (live rc sc -> fst s = true -> connf (snd s) = true -> fst s' = true /\ connf (snd s') = true).
Proof.
  destruct s as [g x]. intros [Ok_ G B (t0 & M)]. cbn [fst snd] in *. destruct o as [d|]; cbn [do_op put push text].
  - destruct g.
    + destruct (write_spec rc sc d x Ok_) as (n & x' & E & Ki & Rb & Ok' & Hn & (out & lost & S1 & S2 & S3 & S4 & S5) & Sh & Lv). rewrite E. cbn [obind].
      eexists. split; [reflexivity|]. specialize (G eq_refl). split; [|split; [|split; [discriminate|]]]; cbn [fst snd].
      * constructor; cbn [fst snd]; [exact Ok'| | |].
        -- intros Q. apply Z.eqb_eq in Q. rewrite (S5 Q) in S2. rewrite G, <- app_assoc, S2, S1. cbn [app]. now rewrite app_assoc.
        -- intros Q. apply Z.eqb_neq in Q. destruct (Sh ltac:(lia)) as (_ & W & _). split; [exact W|]. exists lost. rewrite G, <- app_assoc, S2, S1, W, app_nil_r. now rewrite app_assoc.
        -- exists (t0 ++ out). now rewrite S1, M, app_assoc.
      * unfold input. now rewrite Ki, Rb.
      * intros L _ C. specialize (Lv L C). split; [|exact Lv]. apply Z.eqb_eq. destruct (Z.eq_dec n (Z.of_nat (length d))) as [Q|Q]; [exact Q|]. destruct (Sh ltac:(lia)) as (F & _). congruence.
    + exists (false, x). split; [reflexivity|]. split; [|split; [reflexivity|split; [discriminate|intros _ Q; discriminate Q]]]. constructor; cbn [fst snd]; [exact Ok_|discriminate| |now exists t0].
      intros _. destruct (B eq_refl) as (W & t & ->). split; [exact W|]. exists (t ++ d). now rewrite app_assoc.
  - rewrite app_nil_r. destruct (g || always) eqn:E0.
    + destruct (flush_spec rc sc x (ok_open _ Ok_)) as (n & x' & E & Ki & Rb & W & Op & C & C1 & C2 & Lv). rewrite E. cbn [obind].
      eexists. split; [reflexivity|]. split; [|split; [|split; [intros _; exact W|]]]; cbn [fst snd].
      * constructor; cbn [fst snd].
        -- destruct Ok_ as [_ Hw Hr Hk]. constructor; [exact Op|rewrite W; apply buf_pos|now rewrite Rb|now rewrite Ki].
        -- intros Q. apply andb_true_iff in Q as [-> Q]. rewrite (G eq_refl), W, app_nil_r. destruct C as [[_ ->]|[H _]]; [reflexivity|lia].
        -- intros Q. split; [exact W|]. destruct g.
           ++ rewrite (G eq_refl). destruct C as [[-> _]|(H & -> & _)]; [discriminate Q|]. exists (skipn (Z.to_nat n) (wbf x)). rewrite <- app_assoc. now rewrite firstn_skipn.
           ++ destruct (B eq_refl) as (W0 & t & ->). exists t. f_equal. destruct C as [[_ ->]|(H & -> & _)]; rewrite W0; [now rewrite app_nil_r|]. rewrite firstn_nil. now rewrite app_nil_r.
        -- destruct C as [[_ ->]|(H & -> & _)]; rewrite M; rewrite <- app_assoc; eexists; reflexivity.
      * unfold input. now rewrite Ki, Rb.
      * intros L -> Cn. specialize (Lv L Cn). split; [|exact Lv]. cbn [andb]. destruct C as [[-> _]|(_ & _ & F)]; [reflexivity|congruence].
    + apply orb_false_iff in E0 as [-> _]. exists (false, x). split; [reflexivity|]. split; [|split; [reflexivity|split; [intros _; now apply B|intros _ Q; discriminate Q]]].
      constructor; cbn [fst snd]; [exact Ok_|discriminate|exact B|now exists t0].
Qed.
Lemma reply_ok ops : forall w b s, inv w b s -> exists s', reply sc always ops s = Ok s' /\ inv (w ++ answer ops) b s' /\ input (snd s') = input (snd s) /\
  ((exists o, ops = o ++ [Push]) -> wbf (snd s') = []) /\
  (live rc sc -> fst s = true -> connf (snd s) = true -> fst s' = true /\ connf (snd s') = true).
Proof.
  induction ops as [|o ops IH]; intros w b s I.
  - exists s. split; [reflexivity|]. cbn [answer flat_map]. rewrite app_nil_r. split; [exact I|]. split; [reflexivity|]. split; [|auto]. intros [[|? ?] E]; discriminate E.
  - cbn [reply]. destruct (do_op_ok o w b s I) as (s1 & E & I1 & P1 & W1 & L1). rewrite E. cbn [obind].
    destruct (IH _ _ _ I1) as (s2 & E2 & I2 & P2 & W2 & L2). exists s2. split; [exact E2|]. unfold answer in *. cbn [flat_map]. rewrite app_assoc. split; [exact I2|].
    split; [congruence|]. split.
    + intros [[|o' q] Q]; cbn [app] in Q.
      * assert (o = Push /\ ops = []) as [-> ->] by (split; congruence). cbn [reply] in E2. assert (s1 = s2) by congruence. subst s2. now apply W1.
      * apply W2. exists q. congruence.
    + intros L G C. destruct (L1 L G C) as [A B]. now apply L2.
Qed.

Lemma getc_conn x c x' : okst x -> getc rc x = (c, x') -> c <> -1 -> connf x' = connf x.
Proof.
  intros H E N. unfold getc in E. destruct (rbf x) as [|a r].
  - destruct (recv rc buf_size x) as [[[|a d]|z] y] eqn:R.
    + congruence.
    + apply recv_spec with (sc := sc) in R; [|exact (ok_open _ H)]. destruct R as (_ & _ & _ & _ & _ & _ & F & _). assert (x' = set_rb y d) by congruence. subst x'. cbn. now rewrite F.
    + congruence.
  - assert (x' = set_rb x r) by congruence. subst x'. reflexivity.
Qed.
(** Reading a request *)
Lemma get_ok f : forall got x, (length (input x) < f)%nat -> okst x ->
  exists r x', get rc whole f got x = Ok (r, x') /\ okst x' /\ koutf x' = koutf x /\ wbf x' = wbf x /\
  (exists d, input x = d ++ input x' /\ match r with Some (e, stop) => fst e = got ++ d /\ whole (fst e) = Some (snd e, stop) /\ connf x' = connf x | None => True end).
Proof.
  induction f as [|f IH]; intros got x Hf H; [lia|]. cbn [get]. destruct (whole got) as [[ops stop]|] eqn:E.
  - eexists _, x. split; [reflexivity|]. split; [exact H|]. split; [reflexivity|]. split; [reflexivity|]. exists []. cbn [fst snd app]. rewrite app_nil_r. auto.
  - destruct (getc_spec rc sc x H) as (c & x1 & d & Eg & S & K & W & H1 & D & _). rewrite Eg. destruct (Z.eqb_spec c (-1)) as [->|N].
    + eexists None, x1. split; [reflexivity|]. split; [exact H1|]. split; [exact K|]. split; [exact W|]. exists d. auto.
    + destruct D as [[-> _]|(_ & Q & _)]; [|contradiction]. destruct (IH (got ++ [c]) x1) as (r & x2 & E2 & H2 & K2 & W2 & d2 & S2 & R2).
      * unfold input in *. rewrite S in Hf. cbn [app length] in Hf. lia.
      * exact H1.
      * exists r, x2. split; [exact E2|]. split; [exact H2|]. split; [congruence|]. split; [congruence|]. exists (c :: d2). split.
        -- unfold input in *. rewrite S, S2. reflexivity.
        -- destruct r as [[e stop]|]; [|exact I]. destruct R2 as (-> & Q & C). split; [now rewrite <- app_assoc|]. split; [exact Q|]. rewrite C. exact (getc_conn _ _ _ H Eg N).
Qed.

Lemma wanted_snoc log e : wanted (log ++ [e]) = wanted log ++ answer (snd e).
Proof. unfold wanted. rewrite flat_map_app. cbn [flat_map]. now rewrite app_nil_r. Qed.
Lemma snoc_inj {A} (l m : list A) a b : l ++ [a] = m ++ [b] -> l = m.
Proof. intros E. now apply app_inj_tail in E. Qed.
Definition done (log : list event) (x : st) : Prop :=
  wbf x = [] /\ prefix (koutf x) (wanted log) /\ forall a e, log = a ++ [e] -> prefix (wanted a) (koutf x).
Lemma serve_ok (Hs : sound whole) f : forall log s, (length (input (snd s)) < f)%nat -> okst (snd s) -> done log (snd s) ->
  (fst s = true -> koutf (snd s) = wanted log) ->
  exists more g x, serve rc sc always whole f log s = Ok (log ++ more, g, x) /\ done (log ++ more) x /\
    (exists rest, input (snd s) = flat_map fst more ++ rest) /\ Forall (fun e => exists stop, whole (fst e) = Some (snd e, stop)) more /\
    (live rc sc -> fst s = true -> connf (snd s) = true -> koutf x = wanted (log ++ more)) /\
    (fst s = false -> more = [] /\ x = snd s) /\
    (forall a e b, more = a ++ e :: b -> whole (fst e) = Some (snd e, true) -> b = []).
Proof.
  induction f as [|f IH]; intros log [g x] Hf H D G; [lia|]. cbn [serve fst snd] in *. destruct g; cbn [negb].
  - specialize (G eq_refl). destruct D as (W & D1 & D2).
    destruct (get_ok (S (S (length (rbf x) + length (kinf x)))) [] x) as (r & x1 & E & H1 & K1 & W1 & d & S & R).
    { unfold input. rewrite app_length. lia. } { exact H. }
    rewrite E. cbn [obind]. destruct r as [[e stop]|].
    + destruct R as (Rf & Rw & Rc). cbn [app] in Rf.
      assert (I : inv (wanted log) (wanted log) (true, x1)).
      { constructor; cbn [fst snd]; [exact H1| |discriminate|]; [|exists []]; rewrite ?W1, ?W, ?app_nil_r; congruence. }
      destruct (reply_ok (snd e) _ _ _ I) as (s2 & E2 & I2 & P2 & W2 & L2). rewrite E2. cbn [obind]. cbn [fst snd] in P2, L2.
      assert (W3 : wbf (snd s2) = []). { apply W2. destruct Hs as [_ Hs]. exact (Hs _ _ _ Rw). }
      assert (D3 : done (log ++ [e]) (snd s2)).
      { split; [exact W3|]. split.
        - rewrite wanted_snoc. destruct (fst s2) eqn:Q.
          + exists []. rewrite (i_good _ _ _ I2 Q), W3. now rewrite !app_nil_r.
          + destruct (i_bad _ _ _ I2 Q) as (_ & t & T). now exists t.
        - intros a e' Q. apply snoc_inj in Q as <-. exact (i_more _ _ _ I2). }
      assert (G3 : fst s2 = true -> koutf (snd s2) = wanted (log ++ [e])).
      { intros Q. rewrite wanted_snoc, (i_good _ _ _ I2 Q), W3. now rewrite app_nil_r. }
      destruct stop.
      * exists [e], (fst s2), (snd s2). split; [reflexivity|]. split; [exact D3|]. split; [|split; [|split; [|split]]].
        -- exists (input x1). cbn [flat_map]. rewrite app_nil_r. rewrite S, Rf. reflexivity.
        -- constructor; [now exists true|constructor].
        -- intros L _ C. apply G3. apply L2; auto. congruence.
        -- discriminate.
        -- intros [|? [|? ?]] e' b Q _; cbn [app] in Q; congruence.
      * assert (Hd : (length (input (snd s2)) < f)%nat).
        { rewrite P2. rewrite S, app_length in Hf. destruct d as [|b d]; [|cbn [length] in Hf; lia]. destruct Hs as [Hs _]. rewrite Rf in Rw. congruence. }
        destruct (IH (log ++ [e]) s2 Hd (i_ok _ _ _ I2) D3 G3) as (more & g & x3 & E3 & D4 & (rest & R4) & F4 & L4 & N4 & T4).
        exists (e :: more), g, x3. rewrite <- app_assoc in *. cbn [app] in *. split; [exact E3|]. split; [exact D4|]. split; [|split; [|split; [|split]]].
        -- exists rest. cbn [flat_map]. rewrite <- app_assoc, <- R4, P2, S, Rf. reflexivity.
        -- constructor; [now exists false|exact F4].
        -- intros L _ C. destruct (L2 L eq_refl) as [A B]; [congruence|]. now apply L4.
        -- discriminate.
        -- intros [|a0 a] e' b Q R; cbn [app] in Q; [|apply (T4 a e' b); [congruence|exact R]]. assert (e' = e) by congruence. subst e'. congruence.
    + exists [], false, x1. rewrite app_nil_r. split; [reflexivity|]. unfold done. rewrite K1, W1. split; [split; [exact W|split; [exact D1|exact D2]]|].
      split; [exists (input x); reflexivity|]. split; [constructor|]. split; [intros _ _ _; exact G|]. split; [discriminate|]. intros [|? ?] e' b Q _; discriminate Q.
  - exists [], false, x. rewrite app_nil_r. split; [reflexivity|]. split; [exact D|]. split; [exists (input x); reflexivity|]. split; [constructor|]. split; [discriminate|]. split; [auto|]. intros [|? ?] e' b Q _; discriminate Q.
Qed.
End P.
