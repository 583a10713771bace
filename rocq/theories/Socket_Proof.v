(** Proofs for Socket_Props.v. *)
From Verif Require Import Common CommonLemmas Socket_Spec Socket_Model.
Local Open Scope Z_scope.

Notation wbf x := (wb (fst x)).
Notation rbf x := (rb (fst x)).
Notation connf x := (conn (fst x)).
Notation kinf x := (kin (snd x)).
Notation koutf x := (kout (snd x)).
Definition bl : nat := buf_size.

Section K.
Context (rc sc : nat -> Z).
Definition live : Prop := (forall n, 0 < rc n) /\ (forall n, 0 < sc n).

Record okst (x : st) : Prop := {
  ok_open : connf x = true -> isopen (fst x) = true;
  ok_wb : (length (wbf x) < buf_size)%nat;
  ok_rb : bytes (rbf x);
  ok_kin : bytes (kinf x) }.

Lemma buf_pos : (0 < buf_size)%nat.
Proof. unfold buf_size. lia. Qed.
#[local] Opaque buf_size.
Lemma close_conn s : (conn s = true -> isopen s = true) -> conn (close_ s) = false.
Proof. intros H. unfold close_. destruct (isopen s) eqn:E; [reflexivity|]. destruct (conn s); [|reflexivity]. specialize (H eq_refl). congruence. Qed.
Lemma close_rb s : rb (close_ s) = rb s.
Proof. unfold close_. now destruct (isopen s). Qed.
Lemma close_wb s : wb (close_ s) = wb s.
Proof. unfold close_. now destruct (isopen s). Qed.
Definition keeps (x x' : st) : Prop := live -> (connf x = false -> kinf x = []) -> connf x' = false -> kinf x' = [].

Lemma firstn_eq_skipn {A} n : forall (l d : list A), firstn n l = d -> l = d ++ skipn (length d) l.
Proof. induction n as [|n IH]; intros [|a l] d <-; cbn; try reflexivity. f_equal. apply IH. reflexivity. Qed.
Lemma firstn_add {A} n m : forall l : list A, firstn (n + m) l = firstn n l ++ firstn m (skipn n l).
Proof. induction n as [|n IH]; intros [|a l]; cbn; try reflexivity. - now destruct m. - f_equal. apply IH. Qed.
Lemma keeps_refl x : keeps x x.
Proof. unfold keeps. auto. Qed.
Lemma keeps_trans x y z : keeps x y -> keeps y z -> keeps x z.
Proof. unfold keeps. auto. Qed.
(* what a call to ::recv does *)
Lemma recv_spec size x r x' : (connf x = true -> isopen (fst x) = true) -> recv rc size x = (r, x') ->
  koutf x' = koutf x /\ rbf x' = rbf x /\ wbf x' = wbf x /\
  match r with
  | inl d => d <> [] /\ (length d <= size)%nat /\ kinf x = d ++ kinf x' /\ fst x' = fst x /\ connf x = true
  | inr _ => kinf x' = kinf x /\ connf x' = false /\ ((0 < size)%nat -> keeps x x')
  end.
Proof.
  intros Ho. destruct x as [s k]. unfold recv. cbn [fst snd] in *. destruct (conn s) eqn:Ec; cbn [negb].
  - destruct (rc (calls k) <=? 0) eqn:En.
    + intros [= <- <-]. cbn. rewrite close_rb, close_wb, close_conn by (rewrite Ec; auto). repeat split; auto.
      intros _ [Hl _]. specialize (Hl (calls k)). lia.
    + destruct (firstn _ (kin k)) as [|a l] eqn:Ef; intros [= <- <-]; cbn [fst snd kin kout rb wb conn tick].
      * rewrite close_rb, close_wb, close_conn by (rewrite Ec; auto). repeat split; auto.
        intros Hs _ _ _. cbn [fst snd kin tick]. destruct (kin k); [reflexivity|].
        destruct (Nat.min (Z.to_nat (rc (calls k))) size) eqn:Em; [lia|]. discriminate.
      * repeat split; auto; try discriminate.
        -- rewrite <- Ef, firstn_length. lia.
        -- exact (firstn_eq_skipn _ _ _ Ef).
  - intros [= <- <-]. cbn. repeat split; auto. intros _ _. auto.
Qed.
Lemma send_spec dat x w x' : (connf x = true -> isopen (fst x) = true) -> dat <> [] -> send sc dat x = (w, x') ->
  kinf x' = kinf x /\ rbf x' = rbf x /\ wbf x' = wbf x /\
  (w <= 0 /\ koutf x' = koutf x /\ connf x' = false /\ (live -> connf x = false) \/
   0 < w <= Z.of_nat (length dat) /\ koutf x' = koutf x ++ firstn (Z.to_nat w) dat /\ fst x' = fst x /\ connf x = true).
Proof.
  intros Ho Hd. destruct x as [s k]. unfold send. cbn [fst snd] in *. destruct (conn s) eqn:Ec; cbn [negb].
  - destruct (sc (calls k) <=? 0) eqn:En; intros [= <- <-]; cbn [fst snd kin kout rb wb conn tick].
    + rewrite close_rb, close_wb, close_conn by (rewrite Ec; auto). repeat split; auto. left. repeat split; auto; try lia.
      intros [_ Hl]. specialize (Hl (calls k)). lia.
    + repeat split; auto. right. rewrite firstn_length. assert (length dat <> 0%nat) by (destruct dat; [easy|discriminate]).
      repeat split; auto; try lia. f_equal. rewrite Nat2Z.id.
      destruct (Nat.le_ge_cases (Z.to_nat (sc (calls k))) (length dat)) as [H1|H1].
      * now rewrite Nat.min_l by lia.
      * rewrite Nat.min_r by lia. now rewrite !firstn_all2 by lia.
  - intros [= <- <-]. cbn. repeat split; auto. left. repeat split; auto; lia.
Qed.

Definition opn (x : st) : Prop := connf x = true -> isopen (fst x) = true.
Lemma send_all_loop_spec f : forall dat sent x, (length dat < f)%nat -> opn x ->
  exists n x', send_all_loop sc f dat sent x = Ok (sent + n, x') /\ 0 <= n <= Z.of_nat (length dat) /\
  koutf x' = koutf x ++ firstn (Z.to_nat n) dat /\ kinf x' = kinf x /\ rbf x' = rbf x /\ wbf x' = wbf x /\ opn x' /\
  (n < Z.of_nat (length dat) -> connf x' = false) /\ (connf x' = true -> connf x = true) /\ (connf x = false -> n = 0) /\
  (live -> connf x = true -> connf x' = true).
Proof.
  induction f as [|f IH]; intros dat sent x Hf Ho; [lia|]. cbn [send_all_loop].
  destruct dat as [|a l].
  - exists 0, x. rewrite Z.add_0_r. cbn. rewrite app_nil_r. repeat split; auto; lia.
  - destruct (send sc (a :: l) x) as [w x1] eqn:Es.
    pose proof (send_spec (a :: l) x w x1 Ho ltac:(discriminate) Es) as (H1 & H2 & H3 & H4).
    destruct H4 as [(Hw & H5 & H6 & H7)|(Hw & H5 & H6 & H7)].
    + destruct (w <=? 0) eqn:E; [|lia]. exists 0, x1. rewrite Z.add_0_r. change (firstn (Z.to_nat 0) (a :: l)) with (@nil Z).
      rewrite app_nil_r. repeat split; auto; try lia; try (unfold opn; rewrite H6; discriminate); try (rewrite H6; discriminate).
      intros Hl Hc. rewrite H7 in Hc by auto. discriminate.
    + destruct (w <=? 0) eqn:E; [lia|].
      assert (Hls : length (skipn (Z.to_nat w) (a :: l)) = (length (a :: l) - Z.to_nat w)%nat) by apply skipn_length.
      destruct (IH (skipn (Z.to_nat w) (a :: l)) (sent + w) x1) as (n & x' & E1 & E2 & E3 & E4 & E5 & E6 & E7 & E8 & E9 & E10 & E11);
        [lia|unfold opn; rewrite H6; exact Ho|].
      exists (w + n), x'. rewrite Z.add_assoc. split; [exact E1|]. split; [lia|]. split.
      { rewrite E3, H5, <- app_assoc. f_equal. rewrite Z2Nat.inj_add by lia.
        symmetry. apply firstn_add. }
      rewrite H6 in *. repeat split; auto; try congruence; intros; apply E8; lia.
Qed.
Lemma send_all_spec dat x : opn x ->
  exists n x', send_all sc dat x = Ok (n, x') /\ 0 <= n <= Z.of_nat (length dat) /\
  koutf x' = koutf x ++ firstn (Z.to_nat n) dat /\ kinf x' = kinf x /\ rbf x' = rbf x /\ wbf x' = wbf x /\ opn x' /\
  (n < Z.of_nat (length dat) -> connf x' = false) /\ (connf x' = true -> connf x = true) /\ (connf x = false -> n = 0) /\
  (live -> connf x = true -> connf x' = true).
Proof.
  intros Ho. destruct (send_all_loop_spec (S (length dat)) dat 0 x ltac:(lia) Ho) as (n & x' & H). exists n, x'.
  exact H.
Qed.

(* sending side of a call: [out] went to the kernel, [lost] was dropped *)
Definition sends (w : list Z) (okr : Prop) (x x' : st) : Prop :=
  exists out lost, koutf x' = koutf x ++ out /\ wbf x ++ w = out ++ lost ++ wbf x' /\
  (connf x' = true -> connf x = true /\ lost = []) /\ (connf x = false -> out = []) /\ (okr -> lost = []).

Lemma flush_spec x : opn x ->
  exists n x', flush sc x = Ok (n, x') /\ kinf x' = kinf x /\ rbf x' = rbf x /\ wbf x' = [] /\ opn x' /\
  (n = -1 /\ koutf x' = koutf x ++ wbf x \/
   0 <= n < Z.of_nat (length (wbf x)) /\ koutf x' = koutf x ++ firstn (Z.to_nat n) (wbf x) /\ connf x' = false) /\
  (connf x' = true -> connf x = true) /\ (connf x = false -> koutf x' = koutf x) /\
  (live -> connf x = true -> connf x' = true).
Proof.
  intros Ho. unfold flush. destruct (wbf x) as [|a l] eqn:Ew.
  - exists (-1), x. rewrite app_nil_r. repeat split; auto.
  - destruct (send_all_spec (a :: l) x Ho) as (n & x' & E1 & E2 & E3 & E4 & E5 & E6 & E7 & E8 & E9 & E10 & E11).
    rewrite E1. cbn [obind fst snd conn isopen rb wb].
    eexists _, _. split; [reflexivity|]. cbn [fst snd conn isopen rb wb]. repeat split; auto.
    + destruct (n =? Z.of_nat (length (a :: l))) eqn:En.
      * left. split; [reflexivity|]. rewrite E3. f_equal. apply firstn_all2. lia.
      * right. repeat split; auto; try lia. apply E8. lia.
    + intros H. rewrite E3, (E10 H). apply app_nil_r.
Qed.

Lemma write_spec dat x : okst x ->
  exists n x', write sc dat x = Ok (n, x') /\ kinf x' = kinf x /\ rbf x' = rbf x /\ okst x' /\
  0 <= n <= Z.of_nat (length dat) /\
  sends dat (n = Z.of_nat (length dat)) x x' /\
  (n < Z.of_nat (length dat) -> connf x' = false /\ wbf x' = [] /\
     exists out t, koutf x' = koutf x ++ out /\ out ++ t = wbf x ++ firstn (Z.to_nat n) dat) /\
  (live -> connf x = true -> connf x' = true).
Proof.
  intros [Ho Hw Hr Hk]. unfold write. set (room := (buf_size - length (wbf x))%nat).
  set (x1 := set_wb x (wbf x ++ firstn room dat)). set (rest := skipn room dat).
  assert (Hd : dat = firstn room dat ++ rest) by (symmetry; apply firstn_skipn).
  assert (Hl1 : length (firstn room dat) = Nat.min room (length dat)) by apply firstn_length.
  assert (Hl2 : length rest = (length dat - room)%nat) by apply skipn_length.
  change (wbf x1) with (wbf x ++ firstn room dat).
  assert (Ho1 : opn x1) by exact Ho.
  rewrite app_length.
  destruct (length (wbf x) + length (firstn room dat) =? buf_size)%nat eqn:Eb.
  2: { (* the buffer has room for everything *)
    assert (Hrest : rest = []) by (apply length_zero_iff_nil; lia). rewrite Hrest.
    cbn [length]. destruct (buf_size <=? 0)%nat eqn:E0; [pose proof buf_pos; lia|].
    rewrite app_nil_r. eexists _, _. split; [reflexivity|]. cbn [set_wb fst snd conn isopen rb wb x1].
    assert (Hd' : firstn room dat = dat) by (rewrite Hd at 2; now rewrite Hrest, app_nil_r).
    rewrite Hd'. repeat split; auto; try lia.
    - cbn [set_wb fst snd wb]. rewrite app_length. rewrite Hd' in Eb, Hl1. lia.
    - exists [], []. cbn. rewrite app_nil_r. repeat split; auto. }
  destruct (flush_spec x1 Ho1) as (res & x2 & E1 & E2 & E3 & E4 & E5 & E6 & E7 & E8 & E9).
  rewrite E1. cbn [obind]. change (wbf x1) with (wbf x ++ firstn room dat) in E6.
  change (kinf x1) with (kinf x) in E2. change (rbf x1) with (rbf x) in E3. change (koutf x1) with (koutf x) in *.
  change (connf x1) with (connf x) in *.
  destruct E6 as [[-> E6]|(En & E6 & Ec)].
  - cbn [Z.leb Z.compare].
    destruct (buf_size <=? length rest)%nat eqn:El.
    + destruct (send_all_spec rest x2 E5) as (n & x' & F1 & F2 & F3 & F4 & F5 & F6 & F7 & F8 & F9 & F10 & F11).
      rewrite F1. cbn [obind]. eexists _, _. split; [reflexivity|].
      assert (Hout : koutf x' = koutf x ++ (wbf x ++ firstn room dat) ++ firstn (Z.to_nat n) rest)
        by (rewrite F3, E6; now rewrite <- !app_assoc).
      split; [congruence|]. split; [congruence|]. split.
      { constructor; auto; try congruence. rewrite F6, E4. apply buf_pos. }
      split; [lia|]. split; [|split].
      * exists ((wbf x ++ firstn room dat) ++ firstn (Z.to_nat n) rest), (skipn (Z.to_nat n) rest).
        split; [exact Hout|]. rewrite F6, E4, app_nil_r. split.
        { rewrite <- !app_assoc, (firstn_skipn (Z.to_nat n) rest). now rewrite <- Hd. }
        split; [|split].
        -- intros Hc. split; [auto|]. destruct (Z.lt_ge_cases n (Z.of_nat (length rest))) as [H|H].
           ++ rewrite F8 in Hc by auto. discriminate.
           ++ apply skipn_all2. lia.
        -- intros Hc. specialize (E8 Hc). rewrite E6 in E8.
           assert (Hz : wbf x ++ firstn room dat = []).
           { apply (app_inv_head (koutf x)). now rewrite app_nil_r. }
           apply (f_equal (@length Z)) in Hz. rewrite app_length in Hz. cbn in Hz. pose proof buf_pos. lia.
        -- intros Hn. apply skipn_all2. lia.
      * intros Hn. split; [apply F8; lia|]. split; [congruence|].
        eexists _, []. split; [exact Hout|]. rewrite app_nil_r, <- app_assoc. f_equal.
        replace (Z.to_nat (Z.of_nat (length dat - length rest) + n)) with (room + Z.to_nat n)%nat by lia.
        rewrite Hd at 2. rewrite firstn_app. rewrite (firstn_all2 (firstn room dat)) by lia. f_equal. f_equal. lia.
      * intros Hlv Hc. auto.
    + eexists _, _. split; [reflexivity|]. cbn [set_wb fst snd conn isopen rb wb]. rewrite E4. cbn [app].
      split; [auto|]. split; [auto|]. split.
      { constructor; cbn; auto; try congruence. lia. }
      split; [lia|]. split; [|split].
      * exists (wbf x ++ firstn room dat), []. cbn [fst snd conn wb app]. split; [exact E6|]. split.
        { change (wbf (set_wb x2 rest)) with rest. rewrite <- app_assoc. now rewrite <- Hd. }
        split; [auto|]. split; [|auto].
        intros Hc. specialize (E8 Hc). rewrite E6 in E8. apply (app_inv_head (koutf x)). now rewrite app_nil_r.
      * lia.
      * cbn. auto.
  - destruct (0 <=? res) eqn:E0; [|lia]. eexists _, _. split; [reflexivity|].
    split; [auto|]. split; [auto|]. split.
    { constructor; auto; try congruence. rewrite E4. apply buf_pos. }
    rewrite app_length in En.
    split; [lia|]. split; [|split].
    + exists (firstn (Z.to_nat res) (wbf x ++ firstn room dat)), (skipn (Z.to_nat res) (wbf x ++ firstn room dat) ++ rest).
      split; [exact E6|]. rewrite E4, app_nil_r. split.
      { rewrite app_assoc, firstn_skipn, <- app_assoc. now rewrite <- Hd. }
      split; [congruence|]. split; [|lia].
      intros Hc. specialize (E8 Hc). rewrite E6 in E8. apply (app_inv_head (koutf x)). now rewrite app_nil_r.
    + intros _. split; [auto|]. split; [auto|].
      destruct (Z.le_gt_cases (Z.of_nat (length (wbf x))) res) as [H|H].
      * eexists _, []. split; [exact E6|]. rewrite app_nil_r, Z.max_r by lia.
        rewrite firstn_app, (firstn_all2 (wbf x)) by lia. f_equal. rewrite firstn_firstn.
        replace (Z.to_nat res - length (wbf x))%nat with (Z.to_nat (res - Z.of_nat (length (wbf x)))) by lia.
        f_equal. lia.
      * eexists _, (skipn (Z.to_nat res) (wbf x)). split; [exact E6|]. rewrite Z.max_l by lia.
        change (firstn (Z.to_nat 0) dat) with (@nil Z). rewrite app_nil_r.
        rewrite firstn_app. replace (Z.to_nat res - length (wbf x))%nat with 0%nat by lia.
        cbn [firstn]. rewrite app_nil_r. apply firstn_skipn.
    + intros Hlv Hc. rewrite (E9 Hlv Hc) in Ec. discriminate.
Qed.

(* receiving *)
Lemma read_loop_spec f : forall got size x, (size < f)%nat -> okst x -> rbf x = [] ->
  exists d x', read_loop rc f got size x = Ok (got ++ d, x') /\ (length d <= size)%nat /\ kinf x = d ++ kinf x' /\
  koutf x' = koutf x /\ wbf x' = wbf x /\ rbf x' = [] /\ okst x' /\
  ((length d < size)%nat -> connf x' = false) /\ (connf x' = true -> connf x = true) /\
  keeps x x'.
Proof.
  induction f as [|f IH]; intros got size x Hf Hx Hrb; [lia|]. cbn [read_loop].
  destruct (size =? 0)%nat eqn:Es.
  - exists [], x. rewrite app_nil_r. cbn [length app]. split; [reflexivity|]. split; [lia|]. split; [auto|]. split; [auto|].
    split; [auto|]. split; [auto|]. split; [auto|]. split; [lia|]. split; [auto|]. apply keeps_refl.
  - destruct (recv rc size x) as [r x1] eqn:Er.
    pose proof (recv_spec size x r x1 (ok_open _ Hx) Er) as (H1 & H2 & H3 & H4).
    destruct r as [d|n].
    + destruct H4 as (Hd & Hl & Hk & Hf1 & Hc).
      assert (Hx1 : okst x1).
      { constructor; rewrite ?Hf1; try apply Hx. pose proof (ok_kin _ Hx) as Hb. rewrite Hk in Hb. now apply Forall_app in Hb. }
      assert (length d <> 0%nat) by (destruct d; [easy|discriminate]).
      destruct (IH (got ++ d) (size - length d)%nat x1) as (d' & x' & E1 & E2 & E3 & E4 & E5 & E6 & E7 & E8 & E9 & E10);
        [lia|auto|congruence|].
      exists (d ++ d'), x'. rewrite app_assoc. split; [exact E1|]. rewrite app_length, <- app_assoc, <- E3.
      split; [lia|]. split; [auto|]. split; [congruence|]. split; [congruence|]. split; [auto|]. split; [auto|].
      split; [intros; apply E8; lia|]. split; [congruence|].
      apply (keeps_trans x x1); [|auto]. unfold keeps. rewrite Hf1. congruence.
    + destruct H4 as (Hk & Hc & Hlv). exists [], x1. rewrite app_nil_r. cbn [length app].
      split; [reflexivity|]. split; [lia|]. split; [auto|]. split; [auto|]. split; [auto|]. split; [congruence|].
      split. { constructor; try congruence; rewrite ?H2, ?H3, ?Hk; apply Hx. }
      split; [auto|]. split; [congruence|]. apply Hlv. lia.
Qed.
Lemma read_spec size x : okst x ->
  exists d x', read rc size x = Ok (d, x') /\ (length d <= size)%nat /\ rbf x ++ kinf x = d ++ rbf x' ++ kinf x' /\
  koutf x' = koutf x /\ wbf x' = wbf x /\ okst x' /\
  ((length d < size)%nat -> connf x' = false /\ rbf x' = []) /\ (connf x' = true -> connf x = true) /\
  keeps x x'.
Proof.
  intros Hx. unfold read. destruct ((size <=? length (rbf x))%nat && negb (length (rbf x) =? 0)%nat) eqn:E.
  - eexists _, _. split; [reflexivity|]. cbn [set_rb fst snd rb wb conn isopen].
    pose proof (firstn_length size (rbf x)) as Hl. pose proof (ok_rb _ Hx) as Hb.
    rewrite <- (firstn_skipn size (rbf x)) in Hb. apply Forall_app in Hb.
    split; [lia|]. split; [now rewrite app_assoc, firstn_skipn|].
    split; [auto|]. split; [auto|]. split; [constructor; cbn; try apply Hx; apply Hb|]. split; [lia|]. split; [auto|]. exact (keeps_refl x).
  - destruct (read_loop_spec (S size) (rbf x) (size - length (rbf x)) (set_rb x [])) as (d & x' & E1 & E2 & E3 & E4 & E5 & E6 & E7 & E8 & E9 & E10);
      [lia|constructor; cbn; try apply Hx; constructor|reflexivity|].
    cbn [set_rb fst snd rb wb conn isopen] in *.
    exists (rbf x ++ d), x'. split; [exact E1|].
    assert (length (rbf x) <= size)%nat by lia.
    rewrite app_length. split; [lia|]. rewrite E6, E3, <- app_assoc. cbn [app].
    split; [auto|]. split; [auto|]. split; [auto|]. split; [auto|]. split; [intros; split; [apply E8; lia|auto]|]. split; [auto|exact E10].
Qed.

Lemma getc_spec x : okst x ->
  exists c x' d, getc rc x = (c, x') /\ rbf x ++ kinf x = d ++ rbf x' ++ kinf x' /\
  koutf x' = koutf x /\ wbf x' = wbf x /\ okst x' /\
  (d = [c] /\ is_byte c \/ d = [] /\ c = -1 /\ connf x' = false /\ rbf x' = []) /\
  (connf x' = true -> connf x = true) /\
  keeps x x'.
Proof.
  intros Hx. unfold getc. destruct (rbf x) as [|c r] eqn:Eb.
  - destruct (recv rc buf_size x) as [r x1] eqn:Er.
    pose proof (recv_spec _ x r x1 (ok_open _ Hx) Er) as (H1 & H2 & H3 & H4).
    destruct r as [d|n].
    + destruct H4 as (Hd & Hl & Hk & Hf1 & Hc). destruct d as [|c r]; [easy|].
      pose proof (ok_kin _ Hx) as Hb. rewrite Hk in Hb. apply Forall_app in Hb. destruct Hb as [Hb1 Hb2].
      inversion Hb1; subst.
      exists c, (set_rb x1 r), [c]. cbn [set_rb fst snd rb wb conn isopen app]. rewrite Hf1.
      split; [reflexivity|]. split; [now rewrite Hk|]. split; [auto|]. split; [auto|].
      split. { constructor; cbn [set_rb fst snd rb wb conn isopen]; rewrite ?Hf1; auto; apply Hx. }
      split; [left; auto|]. split; [congruence|]. unfold keeps. cbn [set_rb fst snd rb wb conn isopen]. rewrite Hf1. congruence.
    + destruct H4 as (Hk & Hc & Hlv). exists (-1), (set_rb x1 []), []. cbn [set_rb fst snd rb wb conn isopen app].
      split; [reflexivity|]. split; [auto|]. split; [auto|]. split; [auto|].
      split. { constructor; cbn; try congruence; rewrite ?H3, ?Hk; try apply Hx. constructor. }
      split; [right; auto|]. split; [congruence|]. exact (Hlv buf_pos).
  - pose proof (ok_rb _ Hx) as Hb. rewrite Eb in Hb. inversion Hb; subst.
    exists c, (set_rb x r), [c]. cbn [set_rb fst snd rb wb conn isopen app].
    split; [reflexivity|]. split; [reflexivity|]. split; [auto|]. split; [auto|].
    split. { constructor; cbn [set_rb fst snd rb wb conn isopen]; auto; apply Hx. }
    split; [left; auto|]. split; [auto|exact (keeps_refl x)].
Qed.

Lemma last_is_true c s : last_is c s = true -> s = removelast s ++ [c].
Proof.
  unfold last_is. intros H. destruct (rev s) as [|d l] eqn:E; [discriminate|].
  assert (Hs : s = rev l ++ [d]) by (rewrite <- (rev_involutive s), E; reflexivity).
  rewrite Hs, removelast_last. apply Z.eqb_eq in H. now subst d.
Qed.
Lemma last_is_false c s a : last_is c s = false -> s <> a ++ [c].
Proof. unfold last_is. intros H ->. rewrite rev_app_distr in H. cbn in H. now rewrite Z.eqb_refl in H. Qed.

Definition lim (l : Z) (i : nat) : option nat := if l <? 0 then None else Some (Z.to_nat l - i)%nat.
Lemma getline_loop_spec l f : forall ret x, okst x -> ~ In 10 ret ->
  (length (rbf x) + length (kinf x) < f)%nat -> (0 <= l -> Z.of_nat (length ret) <= l) ->
  exists r x' d, getline_loop rc f ret (lim l (length ret)) x = Ok (r, x') /\ rbf x ++ kinf x = d ++ rbf x' ++ kinf x' /\
  koutf x' = koutf x /\ wbf x' = wbf x /\ okst x' /\
  match r with
  | None => ret = [] /\ d = [] /\ connf x' = false /\ rbf x' = []
  | Some s => ~ In 10 s /\
      (ret ++ d = s ++ [13; 10] \/ ret ++ d = s ++ [10] /\ (forall a, s <> a ++ [13]) \/
       ret ++ d = s /\ (0 <= l -> Z.of_nat (length s) <= l) /\
         (connf x' = false /\ rbf x' = [] \/ 0 <= l /\ Z.of_nat (length s) = l))
  end /\
  (connf x' = true -> connf x = true) /\
  keeps x x'.
Proof.
  induction f as [|f IH]; intros ret x Hx Hn Hf Hl; [lia|]. cbn [getline_loop].
  assert (Hdone : lim l (length ret) = Some O \/ lim l (length ret) <> Some O) by (destruct (lim l (length ret)) as [[|]|]; auto; right; discriminate).
  destruct Hdone as [Hd|Hd].
  - rewrite Hd. exists (Some ret), x, []. cbn [app]. rewrite app_nil_r.
    unfold lim in Hd. destruct (l <? 0) eqn:El; [discriminate|]. injection Hd as Hd.
    split; [reflexivity|]. split; [auto|]. split; [auto|]. split; [auto|]. split; [auto|]. split; [|split; [auto|apply keeps_refl]].
    split; [auto|]. right. right. split; [auto|]. split; [auto|]. right. lia.
  - destruct (getc_spec x Hx) as (c & x1 & d & E1 & E2 & E3 & E4 & E5 & E6 & E7 & E8).
    assert (Hgo : (match lim l (length ret) with
      | Some O => Ok (Some ret, x)
      | _ => let (c, x') := getc rc x in
          if c =? 10 then Ok (Some (if last_is 13 ret then removelast ret else ret), x')
          else if c =? -1 then Ok (match ret with [] => None | _ => Some ret end, x')
          else getline_loop rc f (ret ++ [c]) (match lim l (length ret) with Some m => Some (m - 1)%nat | None => None end) x'
      end) = if c =? 10 then Ok (Some (if last_is 13 ret then removelast ret else ret), x1)
          else if c =? -1 then Ok (match ret with [] => None | _ => Some ret end, x1)
          else getline_loop rc f (ret ++ [c]) (lim l (length (ret ++ [c]))) x1).
    { rewrite E1, app_length. cbn [length]. unfold lim in *. destruct (l <? 0); [reflexivity|].
      destruct (Z.to_nat l - length ret)%nat as [|m] eqn:Em; [now elim Hd|].
      replace (Z.to_nat l - (length ret + 1))%nat with (S m - 1)%nat by lia. reflexivity. }
    rewrite Hgo. clear Hgo.
    destruct E6 as [[-> Hc]|(-> & -> & Hc & Hrb)].
    + unfold is_byte in Hc. destruct (c =? 10) eqn:E10.
      * apply Z.eqb_eq in E10. subst c. eexists _, x1, [10].
        split; [reflexivity|]. split; [auto|]. split; [auto|]. split; [auto|]. split; [auto|]. split; [|split; [auto|exact E8]].
        destruct (last_is 13 ret) eqn:E13.
        -- pose proof (last_is_true _ _ E13) as Hr. split.
           ++ intros Hin. apply Hn. rewrite Hr. apply in_or_app. auto.
           ++ left. rewrite Hr at 1. now rewrite <- app_assoc.
        -- split; [auto|]. right. left. split; [auto|]. intros a. now apply last_is_false.
      * destruct (c =? -1) eqn:Em; [lia|].
        destruct (IH (ret ++ [c]) x1) as (r & x' & d' & F1 & F2 & F3 & F4 & F5 & F6 & F7 & F8).
        { auto. } { intros [H|[H|[]]]%in_app_or; [auto|lia]. }
        { apply (f_equal (@length Z)) in E2. rewrite !app_length in E2. cbn [length] in E2. lia. }
        { rewrite app_length. cbn [length]. intros H0. specialize (Hl H0).
          assert (Z.of_nat (length ret) <> l).
          { intros Heq. apply Hd. unfold lim. destruct (l <? 0) eqn:E; [lia|]. f_equal. lia. }
          lia. }
        exists r, x', (c :: d'). split; [exact F1|]. split; [now rewrite E2, F2|].
        split; [congruence|]. split; [congruence|]. split; [auto|]. split; [|split; [auto|]].
        -- destruct r as [s|].
           ++ change (c :: d') with ([c] ++ d'). rewrite app_assoc. exact F6.
           ++ destruct F6 as [F6 _]. now destruct ret.
        -- apply (keeps_trans x x1); auto.
    + cbn [Z.eqb]. eexists _, x1, [].
      split; [reflexivity|]. split; [auto|]. split; [auto|]. split; [auto|]. split; [auto|]. split; [|split; [auto|exact E8]].
      destruct ret as [|a ret].
      * cbn. auto.
      * split; [auto|]. right. right. rewrite app_nil_r. split; [auto|]. split; [auto|]. left. auto.
Qed.

Lemma sends_none okr x x' : koutf x' = koutf x -> wbf x' = wbf x -> (connf x' = true -> connf x = true) -> sends [] okr x x'.
Proof. intros H1 H2 H3. exists [], []. rewrite H1, H2, !app_nil_r. repeat split; auto. Qed.

(* one call *)
Lemma call_spec c x : okst x ->
  exists r x' d, do_call rc sc c x = Ok (r, x') /\ okst x' /\ took c r d /\ rbf x ++ kinf x = d ++ rbf x' ++ kinf x' /\
  sends (written c) (success c r) x x' /\ (cut_short c r d -> connf x' = false /\ rbf x' = []) /\ keeps x x'.
Proof.
  intros Hx. destruct c as [d|d| |n| |l]; cbn [do_call written].
  - destruct (write_spec d x Hx) as (n & x' & E1 & E2 & E3 & E4 & E5 & E6 & E7 & E8).
    rewrite E1. cbn [obind]. exists (RNum n), x', []. split; [reflexivity|]. split; [auto|]. split; [constructor|].
    split; [cbn [app]; congruence|]. split; [exact E6|]. split; [intros []|].
    intros Hl H1 H2. rewrite E2. destruct (connf x) eqn:Ec; [|auto]. rewrite E8 in H2 by auto. discriminate.
  - unfold puts. destruct (write_spec d x Hx) as (n & x' & E1 & E2 & E3 & E4 & E5 & E6 & E7 & E8).
    rewrite E1. cbn [obind]. eexists _, x', []. split; [reflexivity|]. split; [auto|]. split; [constructor|].
    split; [cbn [app]; congruence|]. split; [|split; [intros []|]].
    + cbn [success]. destruct E6 as (o & lo & F1 & F2 & F3 & F4 & F5). exists o, lo. repeat split; auto; try apply F3; auto.
      intros H. apply F5. lia.
    + intros Hl H1 H2. rewrite E2. destruct (connf x) eqn:Ec; [|auto]. rewrite E8 in H2 by auto. discriminate.
  - destruct (flush_spec x (ok_open _ Hx)) as (n & x' & E1 & E2 & E3 & E4 & E5 & E6 & E7 & E8 & E9).
    rewrite E1. cbn [obind]. exists (RNum n), x', []. split; [reflexivity|].
    split. { constructor; auto; rewrite ?E2, ?E3, ?E4; try apply Hx. apply buf_pos. }
    split; [constructor|]. split; [cbn [app]; congruence|]. split; [|split; [intros []|]].
    + rewrite app_nil_r || idtac. destruct E6 as [[-> E6]|(En & E6 & Ec)].
      * exists (wbf x), []. rewrite E4, !app_nil_r. repeat split; auto.
        intros Hc. specialize (E8 Hc). rewrite E6 in E8. apply (app_inv_head (koutf x)). now rewrite app_nil_r.
      * exists (firstn (Z.to_nat n) (wbf x)), (skipn (Z.to_nat n) (wbf x)). rewrite E4, !app_nil_r, firstn_skipn.
        repeat split; auto; try congruence.
        -- intros Hc. specialize (E8 Hc). rewrite E6 in E8. apply (app_inv_head (koutf x)). now rewrite app_nil_r.
        -- cbn [success]. lia.
    + intros Hl H1 H2. rewrite E2. destruct (connf x) eqn:Ec; [|auto]. rewrite E9 in H2 by auto. discriminate.
  - destruct (read_spec n x Hx) as (d & x' & E1 & E2 & E3 & E4 & E5 & E6 & E7 & E8 & E9).
    rewrite E1. cbn [obind]. exists (RBytes d), x', d. split; [reflexivity|]. split; [auto|]. split; [now constructor|].
    split; [auto|]. split; [now apply sends_none|]. split; [exact E7|exact E9].
  - destruct (getc_spec x Hx) as (c & x' & d & E1 & E2 & E3 & E4 & E5 & E6 & E7 & E8).
    rewrite E1. exists (RNum c), x', d. split; [reflexivity|]. split; [auto|].
    split. { destruct E6 as [[-> _]|(-> & -> & _)]; constructor. }
    split; [auto|]. split; [now apply sends_none|]. split; [|auto].
    cbn [cut_short]. destruct E6 as [[-> _]|(_ & _ & H1 & H2)]; [discriminate|auto].
  - unfold getline. rewrite <- (Nat.sub_0_r (Z.to_nat l)).
    destruct (getline_loop_spec l (S (S (length (rbf x) + length (kinf x))))%nat [] x Hx) as (r & x' & d & E1 & E2 & E3 & E4 & E5 & E6 & E7 & E8);
      [intros []|lia|cbn; lia|].
    cbn [length] in E1. unfold lim in E1. rewrite E1. cbn [obind]. exists (RLine r), x', d.
    split; [reflexivity|]. split; [auto|]. cbn [app] in E6. destruct r as [s|].
    + destruct E6 as [E6 E9]. split.
      { destruct E9 as [->|[[-> H]|[-> H]]]; [now apply tk_crlf|now apply tk_lf|now apply tk_part]. }
      split; [auto|]. split; [now apply sends_none|]. split; [|auto].
      cbn [cut_short]. intros [-> H]. destruct E9 as [H1|[[H1 _]|[_ [_ [H1|H1]]]]].
      * apply (f_equal (@length Z)) in H1. rewrite app_length in H1. cbn in H1. lia.
      * apply (f_equal (@length Z)) in H1. rewrite app_length in H1. cbn in H1. lia.
      * auto.
      * lia.
    + destruct E6 as (_ & -> & H1 & H2). split; [constructor|]. split; [auto|]. split; [now apply sends_none|]. auto.
Qed.

(* any number of calls *)
Lemma sends_trans w1 w2 p1 p2 x y z : sends w1 p1 x y -> sends w2 p2 y z -> sends (w1 ++ w2) (p1 /\ p2) x z.
Proof.
  intros (o1 & l1 & A1 & A2 & A3 & A4 & A5) (o2 & l2 & B1 & B2 & B3 & B4 & B5).
  exists (o1 ++ o2), (l1 ++ l2). split; [now rewrite B1, A1, app_assoc|]. split.
  - rewrite app_assoc, A2, <- !app_assoc, B2. f_equal.
    destruct (connf y) eqn:Ey.
    + destruct (A3 eq_refl) as [_ ->]. cbn [app]. now rewrite <- ?app_assoc.
    + rewrite (B4 eq_refl). reflexivity.
  - split; [|split].
    + intros H. destruct (B3 H) as [H1 ->]. destruct (A3 H1) as [H2 ->]. auto.
    + intros H. rewrite A4 by auto. apply B4. destruct (connf y) eqn:Ey; [|auto]. destruct (A3 eq_refl). congruence.
    + intros [H1 H2]. now rewrite A5, B5.
Qed.
Lemma run_spec cs : forall x, okst x ->
  exists rs x' ds, run rc sc cs x = Ok (rs, x') /\ okst x' /\ Forall3 took cs rs ds /\
  rbf x ++ kinf x = concat ds ++ rbf x' ++ kinf x' /\
  sends (flat_map written cs) (Forall2 success cs rs) x x' /\ keeps x x'.
Proof.
  induction cs as [|c cs IH]; intros x Hx.
  - exists [], x, []. split; [reflexivity|]. split; [auto|]. split; [constructor|]. split; [reflexivity|].
    split; [now apply sends_none|apply keeps_refl].
  - destruct (call_spec c x Hx) as (r & x1 & d & E1 & E2 & E3 & E4 & E5 & E6 & E7).
    destruct (IH x1 E2) as (rs & x' & ds & F1 & F2 & F3 & F4 & F5 & F6).
    cbn [run]. rewrite E1. cbn [obind]. rewrite F1. cbn [obind].
    exists (r :: rs), x', (d :: ds). split; [reflexivity|]. split; [auto|]. split; [now constructor|].
    split; [cbn [concat]; now rewrite E4, F4, app_assoc|]. split; [|now apply (keeps_trans x x1)].
    cbn [flat_map]. destruct (sends_trans _ _ _ _ _ _ _ E5 F5) as (o & l & G1 & G2 & G3 & G4 & G5).
    exists o, l. repeat split; auto; try apply G3; auto. intros H. inversion H; subst. apply G5. auto.
Qed.
Lemma run_app cs cs' x : run rc sc (cs ++ cs') x =
  let* (rs, x') := run rc sc cs x in let* (rs', x'') := run rc sc cs' x' in Ok (rs ++ rs', x'').
Proof.
  revert x. induction cs as [|c cs IH]; intros x; cbn [app run obind].
  - destruct (run rc sc cs' x) as [[rs x']| | |]; reflexivity.
  - destruct (do_call rc sc c x) as [[r x1]| | |]; cbn [obind]; try reflexivity. rewrite IH.
    destruct (run rc sc cs x1) as [[rs x2]| | |]; cbn [obind]; try reflexivity.
    destruct (run rc sc cs' x2) as [[rs' x3]| | |]; reflexivity.
Qed.
End K.

#[local] Opaque buf_size.
Lemma okst_fresh inb n : bytes inb -> okst (fresh inb n).
Proof. intros H. constructor; cbn; auto; try constructor. apply buf_pos. Qed.

Lemma sent_fresh rc sc cs inb n : bytes inb ->
  exists rs x', run rc sc cs (fresh inb n) = Ok (rs, x') /\ (length (wb (fst x')) < buf_size)%nat /\
  exists lost, flat_map written cs = kout (snd x') ++ lost ++ wb (fst x') /\
  (conn (fst x') = true \/ Forall2 success cs rs -> lost = []).
Proof.
  intros Hb. destruct (run_spec rc sc cs _ (okst_fresh inb n Hb)) as (rs & x' & ds & E1 & E2 & _ & _ & E5 & _).
  exists rs, x'. split; [auto|]. split; [apply E2|]. destruct E5 as (o & l & F1 & F2 & F3 & F4 & F5).
  cbn in F1, F2. exists l. split; [now rewrite F1|]. intros [H|H]; [apply F3|apply F5]; auto.
Qed.
Lemma flush_sends rc sc cs inb n : bytes inb ->
  exists rs x', run rc sc (cs ++ [Flush]) (fresh inb n) = Ok (rs, x') /\
  (conn (fst x') = true \/ Forall2 success (cs ++ [Flush]) rs -> kout (snd x') = flat_map written cs).
Proof.
  intros Hb. destruct (sent_fresh rc sc (cs ++ [Flush]) inb n Hb) as (rs & x' & E1 & E2 & lost & E3 & E4).
  exists rs, x'. split; [auto|]. intros Hs. rewrite (E4 Hs) in E3. pose proof E1 as Hr.
  rewrite run_app in Hr. destruct (run_spec rc sc cs _ (okst_fresh inb n Hb)) as (rs1 & x1 & _ & F1 & F2 & _).
  rewrite F1 in Hr. cbn [obind run do_call] in Hr.
  destruct (flush_spec rc sc x1 (ok_open _ F2)) as (m & x2 & G1 & _ & _ & G4 & _). rewrite G1 in Hr. cbn [obind] in Hr.
  injection Hr as _ <-. rewrite G4 in E3. rewrite flat_map_app in E3. cbn in E3. now rewrite !app_nil_r in E3.
Qed.
Lemma received_fresh rc sc cs inb n : bytes inb ->
  exists rs x' ds, run rc sc cs (fresh inb n) = Ok (rs, x') /\ Forall3 took cs rs ds /\
  inb = concat ds ++ rb (fst x') ++ kin (snd x').
Proof.
  intros Hb. destruct (run_spec rc sc cs _ (okst_fresh inb n Hb)) as (rs & x' & ds & E1 & E2 & E3 & E4 & _).
  exists rs, x', ds. split; [auto|]. split; [auto|]. exact E4.
Qed.
Lemma stays rc sc cs inb n : bytes inb -> (forall i, 0 < rc i) -> (forall i, 0 < sc i) ->
  exists rs x', run rc sc cs (fresh inb n) = Ok (rs, x') /\ (conn (fst x') = false -> kin (snd x') = []).
Proof.
  intros Hb H1 H2. destruct (run_spec rc sc cs _ (okst_fresh inb n Hb)) as (rs & x' & ds & E1 & _ & _ & _ & _ & E6).
  exists rs, x'. split; [auto|]. apply E6; [split; auto|discriminate].
Qed.
(* the last call of a sequence *)
Lemma last_cut rc sc cs c inb n : bytes inb ->
  exists rs r x' ds d, run rc sc (cs ++ [c]) (fresh inb n) = Ok (rs ++ [r], x') /\ Forall3 took cs rs ds /\ took c r d /\
  inb = concat ds ++ d ++ rb (fst x') ++ kin (snd x') /\
  (cut_short c r d -> conn (fst x') = false /\ rb (fst x') = [] /\ (live rc sc -> inb = concat ds ++ d)).
Proof.
  intros Hb. destruct (run_spec rc sc cs _ (okst_fresh inb n Hb)) as (rs & x1 & ds & E1 & E2 & E3 & E4 & E5 & E6).
  destruct (call_spec rc sc c x1 E2) as (r & x' & d & F1 & F2 & F3 & F4 & F5 & F6 & F7).
  exists rs, r, x', ds, d. split.
  { rewrite run_app, E1. cbn [obind run]. rewrite F1. reflexivity. }
  split; [auto|]. split; [auto|]. cbn [rb kin fst snd fresh app] in E4. split; [now rewrite E4, F4|].
  intros Hc. destruct (F6 Hc) as [H1 H2]. split; [auto|]. split; [auto|]. intros Hl.
  pose proof (keeps_trans rc sc _ _ _ E6 F7 Hl ltac:(discriminate) H1) as Hk.
  now rewrite E4, F4, H2, Hk, app_nil_r.
Qed.
Lemma short_write rc sc cs d inb n rs w x x' : bytes inb ->
  run rc sc cs (fresh inb n) = Ok (rs, x) -> do_call rc sc (Write d) x = Ok (RNum w, x') ->
  0 <= w <= Z.of_nat (length d) /\
  (w < Z.of_nat (length d) -> conn (fst x') = false /\ wb (fst x') = [] /\
    exists t, kout (snd x') ++ t = kout (snd x) ++ wb (fst x) ++ firstn (Z.to_nat w) d).
Proof.
  intros Hb Hr Hw. destruct (run_spec rc sc cs _ (okst_fresh inb n Hb)) as (rs1 & x1 & ds & E1 & E2 & _).
  rewrite Hr in E1. injection E1 as <- <-. cbn [do_call] in Hw.
  destruct (write_spec rc sc d x E2) as (m & x2 & F1 & F2 & F3 & F4 & F5 & F6 & F7 & F8). rewrite F1 in Hw. cbn [obind] in Hw.
  injection Hw as <- <-. split; [auto|]. intros H. destruct (F7 H) as (H1 & H2 & o & t & H3 & H4).
  split; [auto|]. split; [auto|]. exists t. now rewrite H3, <- app_assoc, H4.
Qed.

(* reconnecting *)
Lemma connect_ok closed opened oks inb s k b x' : connect closed opened oks inb (s, k) = (b, x') -> b = true ->
  x' = (mkS true true (rb s) (wb s), mkK inb [] (calls k)).
Proof.
  unfold connect. destruct (negb (isopen s)); [intros [= <- <-]; discriminate|].
  destruct (conn s && negb closed); [intros [= <- <-]; discriminate|].
  destruct (conn s && negb opened); [intros [= <- <-]; discriminate|].
  destruct (existsb _ oks); [|intros [= <- <-]; discriminate].
  intros [= <- <-] _. destruct (conn s); reflexivity.
Qed.
Lemma reconnect rc sc cs inb n rs s k closed opened oks inb' x' cs' : bytes inb -> bytes inb' ->
  run rc sc cs (fresh inb n) = Ok (rs, (s, k)) -> connect closed opened oks inb' (s, k) = (true, x') ->
  exists rs' x'' ds lost, run rc sc cs' x' = Ok (rs', x'') /\ Forall3 took cs' rs' ds /\
  rb s ++ inb' = concat ds ++ rb (fst x'') ++ kin (snd x'') /\
  wb s ++ flat_map written cs' = kout (snd x'') ++ lost ++ wb (fst x'').
Proof.
  intros Hb Hb' Hr Hc. apply connect_ok in Hc; [|reflexivity]. subst x'.
  destruct (run_spec rc sc cs _ (okst_fresh inb n Hb)) as (rs1 & x1 & ds & E1 & E2 & _).
  rewrite Hr in E1. injection E1 as <- <-.
  destruct (run_spec rc sc cs' (mkS true true (rb s) (wb s), mkK inb' [] (calls k))) as (rs' & x'' & ds' & F1 & F2 & F3 & F4 & F5 & _).
  { constructor; cbn; auto; apply E2. }
  destruct F5 as (o & l & G1 & G2 & _). cbn in F4, G1, G2.
  exists rs', x'', ds', l. split; [auto|]. split; [auto|]. split; [auto|]. now rewrite G1.
Qed.
