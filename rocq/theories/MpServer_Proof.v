(** Proofs about starting and stopping the mprpc server. *)
From Verif Require Import Common CommonLemmas MpServer_Spec MpServer_Model.
From Coq Require Import Lia Permutation.
Local Open Scope Z_scope.

(** ** Lists *)
Lemma put_split {T} (l : list T) i x y : nth_error l i = Some x -> l = firstn i l ++ x :: skipn (S i) l /\ put l i y = firstn i l ++ y :: skipn (S i) l.
Proof.
  revert i. induction l as [|z l IH]; intros [|i] H; try discriminate H.
  - injection H as ->. now split.
  - destruct (IH i H) as (E1 & E2). cbn [put firstn skipn app] in *. split; [now rewrite <- E1|now rewrite E2].
Qed.
Lemma put_nth {T} (l : list T) i y k : (i < length l)%nat -> nth_error (put l i y) k = if Nat.eqb k i then Some y else nth_error l k.
Proof. revert i k. induction l as [|z l IH]; intros [|i] [|k] H; cbn in H; try lia; try reflexivity. cbn. apply IH. lia. Qed.
Lemma put_length {T} (l : list T) i y : length (put l i y) = length l.
Proof. revert i. induction l as [|z l IH]; intros [|i]; cbn; [reflexivity..|now rewrite IH]. Qed.
Lemma nth_lt {T} (l : list T) i x : nth_error l i = Some x -> (i < length l)%nat.
Proof. intros H. apply nth_error_Some. now rewrite H. Qed.

(** The threads that thread objects run *)
Definition pointer (x : slot) : list nat := match x with Obj (Some w) => [w] | _ => [] end.
Definition pointers (l : list slot) : list nat := flat_map pointer l.
Lemma pointers_app a b : pointers (a ++ b) = pointers a ++ pointers b.
Proof. apply flat_map_app. Qed.
Lemma pointers_null n : pointers (repeat Null n) = [].
Proof. induction n; [reflexivity|assumption]. Qed.

(** ** join() waits *)
Record core (P : list nat) (s : server) : Prop := {
  c_nodup : NoDup P;
  c_ptr : forall w, In w P <-> exists p, nth_error (workers s) w = Some (p, Joinable);
  c_joined : forall w p, nth_error (workers s) w = Some (p, Joined_) -> p = Done;
  c_done : forall w h, nth_error (workers s) w = Some (Done, h) -> In (Ended w) (log s);
  c_left : forall w p, nth_error (workers s) w = Some (p, Detached) -> In (Left w) (log s);
  c_started : forall w, In (Started w) (log s) -> (w < length (workers s))%nat;
  c_waits : waits (log s) }.
Lemma core_ext P s s' : workers s' = workers s -> log s' = log s -> core P s -> core P s'.
Proof. intros E1 E2 [H1 H2 H3 H4 H5 H6 H7]. split; rewrite ?E1, ?E2; assumption. Qed.
Lemma waits_cons e h : waits h -> e <> Joined -> waits (e :: h).
Proof. intros H He after before w E Hs Hl. destruct after as [|x after]; [cbn in E; congruence|]. injection E as -> E. exact (H after before w E Hs Hl). Qed.
Definition plain (e : event) : Prop := match e with Started _ | Joined => False | _ => True end.
Lemma core_note P s e : plain e -> core P s -> core P (note s e).
Proof.
  intros He [H1 H2 H3 H4 H5 H6 H7]. split; cbn; try assumption.
  - intros w h H. right. exact (H4 w h H).
  - intros w p H. right. exact (H5 w p H).
  - intros w [->|H]; [contradiction He|exact (H6 w H)].
  - apply waits_cons; [exact H7|]. intros ->. exact He.
Qed.
(** A worker that goes on, keeping its life *)
Lemma core_move P s w p q h : nth_error (workers s) w = Some (p, h) -> p <> Done -> (q = Done -> In (Ended w) (log s)) -> core P s -> core P (set_workers s (put (workers s) w (q, h))).
Proof.
  intros Hw Hp Hq [H1 H2 H3 H4 H5 H6 H7]. pose proof (nth_lt _ _ _ Hw) as Hlt. split; cbn [workers log set_workers]; try assumption.
  - intros v. rewrite H2. split; intros (r & H).
    + destruct (Nat.eq_dec v w) as [->|D]; [rewrite Hw in H; injection H as -> ->; exists q; now rewrite put_nth, Nat.eqb_refl|].
      exists r. rewrite put_nth by assumption. now rewrite (proj2 (Nat.eqb_neq v w) D).
    + rewrite put_nth in H by assumption. destruct (Nat.eqb_spec v w) as [->|D]; [injection H as -> ->; now exists p|now exists r].
  - intros v r H. rewrite put_nth in H by assumption. destruct (Nat.eqb_spec v w) as [->|D]; [injection H as -> ->; exfalso; exact (Hp (H3 w p Hw))|exact (H3 v r H)].
  - intros v r H. rewrite put_nth in H by assumption. destruct (Nat.eqb_spec v w) as [->|D]; [injection H as E _; now apply Hq|exact (H4 v r H)].
  - intros v r H. rewrite put_nth in H by assumption. destruct (Nat.eqb_spec v w) as [->|D]; [injection H as -> ->; exact (H5 w p Hw)|exact (H5 v r H)].
  - intros v H. rewrite put_length. exact (H6 v H).
Qed.
Lemma in_mid (a b : list nat) w v : In v (a ++ [w] ++ b) <-> v = w \/ In v (a ++ b).
Proof. rewrite !in_app_iff. cbn [In]. split; [intros [H|[[H|[]]|H]]; auto|intros [->|[H|H]]; auto]. Qed.
(** A worker that is joined or detached *)
Lemma core_release P1 P2 s w p h : nth_error (workers s) w = Some (p, Joinable) -> h <> Joinable -> (h = Joined_ -> p = Done) -> (h = Detached -> In (Left w) (log s)) ->
  core (P1 ++ [w] ++ P2) s -> core (P1 ++ P2) (set_workers s (put (workers s) w (p, h))).
Proof.
  intros Hw Hh Hj Hd [H1 H2 H3 H4 H5 H6 H7]. pose proof (nth_lt _ _ _ Hw) as Hlt.
  assert (N : ~ In w (P1 ++ P2)) by exact (NoDup_remove_2 P1 P2 w H1).
  split; cbn [workers log set_workers]; try assumption.
  - exact (NoDup_remove_1 P1 P2 w H1).
  - intros v. split.
    + intros Hv. destruct (Nat.eq_dec v w) as [->|D]; [contradiction|]. destruct (proj1 (H2 v) (proj2 (in_mid P1 P2 w v) (or_intror Hv))) as (r & H).
      exists r. rewrite put_nth by assumption. now rewrite (proj2 (Nat.eqb_neq v w) D).
    + intros (r & H). rewrite put_nth in H by assumption. destruct (Nat.eqb_spec v w) as [->|D]; [injection H as _ H; contradiction|].
      destruct (proj1 (in_mid P1 P2 w v) (proj2 (H2 v) (ex_intro _ r H))) as [K|K]; [contradiction|exact K].
  - intros v r H. rewrite put_nth in H by assumption. destruct (Nat.eqb_spec v w) as [->|D]; [injection H as <- H; now apply Hj|exact (H3 v r H)].
  - intros v r H. rewrite put_nth in H by assumption. destruct (Nat.eqb_spec v w) as [->|D]; [injection H as -> _; exact (H4 w _ Hw)|exact (H4 v r H)].
  - intros v r H. rewrite put_nth in H by assumption. destruct (Nat.eqb_spec v w) as [->|D]; [injection H as _ H; now apply Hd|exact (H5 v r H)].
  - intros v H. rewrite put_length. exact (H6 v H).
Qed.
Lemma core_drop P1 P2 s x : core (P1 ++ pointer x ++ P2) s -> core (P1 ++ P2) (drop_slot s x).
Proof.
  intros C. destruct x as [|[w|]]; [exact C| |exact C]. cbn [pointer drop_slot] in *. destruct (proj1 (c_ptr _ _ C w) (proj2 (in_mid P1 P2 w w) (or_introl eq_refl))) as (p & Hp). rewrite Hp.
  apply (core_ext _ ((set_workers (note s (Left w)) (put (workers s) w (p, Detached))))); [reflexivity|reflexivity|].
  refine (core_release P1 P2 (note s (Left w)) w p Detached Hp _ _ _ _); [discriminate|discriminate|now left|]. apply core_note; [exact I|exact C].
Qed.
Lemma core_drops l : forall P1 P2 s, core (P1 ++ pointers l ++ P2) s -> core (P1 ++ P2) (drop_slots s l).
Proof.
  induction l as [|x l IH]; intros P1 P2 s C; [exact C|]. cbn [drop_slots fold_left]. apply (IH P1 P2). apply (core_drop P1 (pointers l ++ P2)). cbn [pointers flat_map] in C. now rewrite <- app_assoc in C.
Qed.
(** dropping changes nothing else *)
Definition frame (s s' : server) : Prop := fd s' = fd s /\ flag s' = flag s /\ slots s' = slots s /\ owner s' = owner s /\ closers s' = closers s /\ files s' = files s /\
  down s' = down s /\ listeners s' = listeners s /\ gone s' = gone s /\ length (workers s') = length (workers s) /\ map fst (workers s') = map fst (workers s).
Lemma put_fst (l : list (wpc * life)) i p h h' : nth_error l i = Some (p, h) -> map fst (put l i (p, h')) = map fst l.
Proof. revert i. induction l as [|z l IH]; intros [|i] H; try discriminate H; cbn; [injection H as ->; reflexivity|now rewrite (IH i H)]. Qed.
Lemma drop_frame s x : frame s (drop_slot s x).
Proof.
  destruct x as [|[w|]]; cbn [drop_slot]; try (repeat split; reflexivity). destruct (nth_error (workers s) w) as [[p h]|] eqn:E; [|repeat split; reflexivity].
  unfold frame. cbn. rewrite put_length, (put_fst _ _ _ _ _ E). repeat split; reflexivity.
Qed.
Lemma frame_trans a b c : frame a b -> frame b c -> frame a c.
Proof. unfold frame. intuition congruence. Qed.
Lemma drops_frame l : forall s, frame s (drop_slots s l).
Proof. induction l as [|x l IH]; intros s; [repeat split; reflexivity|]. cbn [drop_slots fold_left]. exact (frame_trans _ _ _ (drop_frame s x) (IH _)). Qed.

Record inv (s : server) : Prop := {
  i_core : core (pointers (slots s)) s;
  i_joining : forall j sync, owner s = Joining j sync -> pointers (firstn j (slots s)) = [] }.
Lemma inv_ext s s' : workers s' = workers s -> log s' = log s -> slots s' = slots s -> (forall j sync, owner s' = Joining j sync -> owner s = Joining j sync \/ j = O) -> inv s -> inv s'.
Proof.
  intros E1 E2 E3 E4 [C J]. split; rewrite E3; [exact (core_ext _ s s' E1 E2 C)|]. intros j sync H. destruct (E4 j sync H) as [H'| ->]; [exact (J j sync H')|reflexivity].
Qed.
Lemma inv_note s e : plain e -> inv s -> inv (note s e).
Proof. intros He [C J]. split; [exact (core_note _ _ _ He C)|exact J]. Qed.
Lemma inv_close s own : inv s -> inv (begin_close s own).
Proof. intros H. unfold begin_close. destruct (fd s <? 0); [exact H|]. apply (inv_ext s); auto. Qed.
Lemma inv_resize s n : inv s -> core (pointers (slots (resize s n))) (resize s n).
Proof.
  intros [C J]. unfold resize. cbn [slots set_slots]. rewrite pointers_app, pointers_null, app_nil_r.
  apply (core_ext _ ((drop_slots s (skipn n (slots s))))); [reflexivity|reflexivity|]. rewrite <- (app_nil_r (pointers (firstn n (slots s)))). apply core_drops.
  rewrite app_nil_r, <- pointers_app, firstn_skipn. exact C.
Qed.
Lemma inv_begin s n sync : inv s -> inv (begin_run s n sync).
Proof.
  intros H. unfold begin_run. destruct ((fd s <? 0) || flag s).
  - apply inv_note; [exact I|]. apply (inv_ext s); auto. discriminate.
  - cbv zeta. destruct (n <? 0).
    + apply inv_note; [exact I|]. apply (inv_ext s); auto. discriminate.
    + split; [|discriminate]. apply (core_ext _ ((note (resize (set_flag s true) (Z.to_nat n)) (Asked (Z.to_nat n))))); [reflexivity|reflexivity|]. apply core_note; [exact I|].
      apply inv_resize. apply (inv_ext s); auto.
Qed.
Lemma inv_join_one s j w p o : inv s -> nth_error (slots s) j = Some (Obj (Some w)) -> nth_error (workers s) w = Some (Done, p) ->
  (forall k sync, o = Joining k sync -> k = S j /\ pointers (firstn j (slots s)) = []) ->
  inv (set_owner (set_workers (set_slots s (put (slots s) j (Obj None))) (put (workers s) w (Done, Joined_))) o).
Proof.
  intros [C J] Hj Hw Ho. destruct (put_split _ _ _ (Obj None) Hj) as (E1 & E2). rewrite E1, pointers_app in C. cbn [pointers flat_map pointer] in C. fold (pointers (skipn (S j) (slots s))) in C.
  destruct (proj1 (c_ptr _ _ C w)) as (q & Hq); [apply in_mid; now left|]. rewrite Hw in Hq. injection Hq as <- ->.
  split; cbn [slots owner set_owner set_workers set_slots].
  - rewrite E2, pointers_app. cbn [pointers flat_map pointer]. fold (pointers (skipn (S j) (slots s))). cbn [app].
    apply (core_ext _ ((set_workers s (put (workers s) w (Done, Joined_))))); [reflexivity|reflexivity|]. apply (core_release _ _ _ _ _ _ Hw); [discriminate|reflexivity|discriminate|exact C].
  - intros k sync H. destruct (Ho k sync H) as (-> & K). rewrite E2, firstn_app. pose proof (nth_lt _ _ _ Hj) as Hlt. rewrite firstn_length_le by lia. replace (S j - j)%nat with 1%nat by lia.
    rewrite firstn_firstn, Nat.min_r by lia. rewrite pointers_app, K. reflexivity.
Qed.
Lemma inv_skip s j sync : nth_error (slots s) j = Some (Obj None) -> owner s = Joining j sync -> inv s -> inv (set_owner s (Joining (S j) sync)).
Proof.
  intros Hj Ho [C J]. split; [apply (core_ext _ s); [reflexivity|reflexivity|exact C]|]. cbn [owner set_owner slots]. intros k b [= <- <-]. destruct (put_split _ _ _ Null Hj) as (E1 & _).
  pose proof (nth_lt _ _ _ Hj) as Hlt. rewrite E1, firstn_app, firstn_length_le by lia. replace (S j - j)%nat with 1%nat by lia. rewrite firstn_firstn, Nat.min_r by lia.
  rewrite pointers_app, (J _ _ Ho). reflexivity.
Qed.
Lemma core_started P1 P2 s : core (P1 ++ P2) s -> core (P1 ++ [length (workers s)] ++ P2) (note (set_workers s (workers s ++ [(Check, Joinable)])) (Started (length (workers s)))).
Proof.
  intros [H1 H2 H3 H4 H5 H6 H7].
  assert (A : forall v x, nth_error (workers s ++ [(Check, Joinable)]) v = Some x -> nth_error (workers s) v = Some x \/ (v = length (workers s) /\ x = (Check, Joinable))).
  { intros v x H. destruct (Nat.lt_ge_cases v (length (workers s))) as [L|L]; [left; now rewrite nth_error_app1 in H|right].
    rewrite nth_error_app2 in H by assumption. destruct (v - length (workers s))%nat as [|k] eqn:E; [injection H as <-; split; [lia|reflexivity]|destruct k; discriminate H]. }
  assert (N : ~ In (length (workers s)) (P1 ++ P2)) by (rewrite H2; intros (p & H); apply nth_lt in H; lia).
  split; cbn [workers log set_workers note].
  - apply (Permutation_NoDup (l := length (workers s) :: P1 ++ P2)); [apply Permutation_middle|constructor; assumption].
  - intros v. rewrite in_mid, H2. split.
    + intros [->|(p & H)]; [exists Check; now rewrite nth_error_app2, Nat.sub_diag by lia|]. exists p. rewrite nth_error_app1; [exact H|exact (nth_lt _ _ _ H)].
    + intros (p & H). destruct (A _ _ H) as [K|(-> & K)]; [right; now exists p|now left].
  - intros v p H. destruct (A _ _ H) as [K|(-> & K)]; [exact (H3 v p K)|discriminate K].
  - intros v p H. destruct (A _ _ H) as [K|(-> & K)]; [right; exact (H4 v p K)|discriminate K].
  - intros v p H. destruct (A _ _ H) as [K|(-> & K)]; [right; exact (H5 v p K)|discriminate K].
  - intros v [E|H]; [injection E as <-|specialize (H6 v H)]; rewrite app_length; cbn; lia.
  - apply waits_cons; [exact H7|discriminate].
Qed.
Lemma inv_owner s f ok s' : inv s -> owner_step s f ok = Ok s' -> inv s'.
Proof.
  intros H E. unfold owner_step in E. destruct (owner_closes s); [injection E as <-; exact H|]. destruct (owner s) as [|k|g k|n i sync|i j|j sync] eqn:Eo.
  - injection E as <-. exact H.
  - destruct (ok && (0 <=? f) && _); injection E as <-.
    + apply inv_close, (inv_ext s); auto. discriminate.
    + apply inv_note; [exact I|]. apply (inv_ext s); auto. discriminate.
  - injection E as <-. assert (H1 : inv (note (set_fd s g) (Created true))) by (apply inv_note; [exact I|]; apply (inv_ext s); auto).
    destruct k as [n|]; [exact (inv_begin _ n true H1)|]. apply (inv_ext (note (set_fd s g) (Created true))); auto. discriminate.
  - destruct (Nat.eqb i n).
    + injection E as <-. destruct sync; [|apply inv_note; [exact I|]]; apply (inv_ext s); auto; cbn [owner set_owner]; intros j b; [intros [= <- _]; now right|discriminate].
    + destruct (nth_error (slots s) i) as [old|] eqn:En; [|discriminate E]. destruct (put_split _ _ _ (Obj (Some (length (workers (drop_slot s old))))) En) as (E1 & E2).
      destruct (put_split _ _ _ (Obj None) En) as (_ & E3).
      destruct (drop_frame s old) as (_ & _ & Fs & _ & _ & _ & _ & _ & _ & Fl & _).
      assert (C : core (pointers (firstn i (slots s)) ++ pointers (skipn (S i) (slots s))) (drop_slot s old)).
      { apply core_drop. change (pointer old ++ pointers (skipn (S i) (slots s))) with (pointers (old :: skipn (S i) (slots s))). rewrite <- pointers_app, <- E1. apply (i_core _ H). }
      destruct ok; injection E as <-.
      * split; [|discriminate]. cbn [slots set_owner set_workers set_slots note]. rewrite Fs, E2, pointers_app. apply core_ext with (3 := (core_started _ _ _ C)); reflexivity.
      * apply inv_close. split; [|discriminate]. cbn [slots set_owner set_flag set_slots]. rewrite Fs, E3, pointers_app. (apply core_ext with (3 := C); reflexivity).
  - destruct (Nat.eqb j i); [injection E as <-; apply inv_note; [exact I|]; apply (inv_ext s); auto; discriminate|].
    destruct (nth_error (slots s) j) as [[|[w|]]|] eqn:En; try discriminate E.
    + destruct (nth_error (workers s) w) as [[[] h]|] eqn:Ew; injection E as <-; try exact H. apply (inv_join_one s j w h); auto; discriminate.
    + injection E as <-. apply (inv_ext s); auto. discriminate.
  - destruct (nth_error (slots s) j) as [[|[w|]]|] eqn:En; try discriminate E.
    + destruct (nth_error (workers s) w) as [[[] h]|] eqn:Ew; injection E as <-; try exact H. apply (inv_join_one s j w h); auto. intros k b [= <- _]. split; [reflexivity|exact (i_joining _ H _ _ Eo)].
    + injection E as <-. exact (inv_skip s j sync En Eo H).
    + assert (P : pointers (slots s) = []).
      { pose proof (i_joining _ H _ _ Eo) as K. rewrite firstn_all2 in K by (now apply nth_error_None). exact K. }
      destruct H as [[H1 H2 H3 H4 H5 H6 H7] J]. rewrite P in H1, H2.
      assert (W : waits (Joined :: log s)).
      { intros after before w Eh Hs Hl. destruct after as [|x after]; [|injection Eh as _ Eh; exact (H7 after before w Eh Hs Hl)]. injection Eh as <-.
        specialize (H6 w Hs). apply nth_error_Some in H6. destruct (nth_error (workers s) w) as [[p []]|] eqn:Ew; [| | |congruence].
        - destruct (proj2 (H2 w) (ex_intro _ p Ew)).
        - rewrite (H3 w p Ew) in Ew. exact (H4 w _ Ew).
        - destruct (Hl (H5 w p Ew)). }
      assert (Q : inv (note (set_owner (set_slots s []) Idle) Joined)).
      { split; [|discriminate]. split; cbn; try assumption; intros; try (right; eauto; fail). destruct H as [H|H]; [discriminate H|exact (H6 _ H)]. }
      injection E as <-. destruct sync; [apply inv_note; [exact I|exact Q]|exact Q].
Qed.
Lemma inv_worker s w a s' : inv s -> worker_step s w a = Ok s' -> inv s'.
Proof.
  intros H E. unfold worker_step in E. destruct (nth_error (workers s) w) as [[p h]|] eqn:Ew; [|injection E as <-; exact H].
  assert (M : forall q, p <> Done -> q <> Done -> inv (set_workers s (put (workers s) w (q, h)))).
  { intros q Hp Hq. destruct H as [C J]. split; [|exact J]. apply (core_move _ _ _ p); [exact Ew|exact Hp|contradiction|exact C]. }
  destruct p; [..|injection E as <-; exact H]; (destruct (gone s); [discriminate E|]).
  - injection E as <-. destruct (flag s); [apply M; discriminate|]. destruct H as [C J]. split; [|exact J].
    apply (core_ext _ ((set_workers (note s (Ended w)) (put (workers s) w (Done, h))))); [reflexivity|reflexivity|].
    refine (core_move _ (note s (Ended w)) _ Check _ _ Ew _ _ _); [discriminate|intros _; now left|]. apply core_note; [exact I|exact C].
  - injection E as <-. apply M; discriminate.
  - injection E as <-. apply M; [discriminate|]. destruct (files s f) as [|l|]; [|destruct (down s l)|]; discriminate.
  - destruct l as [l|]; [destruct (down s l)|]; cbn match in E; [injection E as <-; apply M; discriminate|..];
      destruct a; injection E as <-; try exact H; try (apply M; discriminate); (apply inv_note; [exact I|]); apply M; discriminate.
  - injection E as <-. destruct (flag s); apply M; discriminate.
  - destruct a as [| |[]|]; injection E as <-; apply M; discriminate.
  - injection E as <-. apply M; discriminate.
Qed.
Lemma inv_step s m s' : inv s -> step s m = Ok s' -> inv s'.
Proof.
  intros H E. destruct m as [|n|n sync| | |f ok| |k|w a|f]; cbn [step] in E.
  - injection E as <-. destruct (match owner s with Idle => _ | _ => _ end); [|exact H]. apply inv_close, (inv_ext s); auto. discriminate.
  - injection E as <-. destruct (match owner s with Idle => _ | _ => _ end); [|exact H]. apply (inv_ext s); auto. discriminate.
  - injection E as <-. destruct (match owner s with Idle => _ | _ => _ end); [|exact H]. exact (inv_begin s n sync H).
  - injection E as <-. destruct (match owner s with Idle => _ | _ => _ end); [|exact H]. apply (inv_ext s); auto. intros j b [= <- _]. now right.
  - injection E as <-. destruct (owner s) eqn:Eo; try exact H. destruct (gone s); cbn [negb]; [exact H|].
    assert (C : core [] (drop_slots (set_slots s []) (slots s))).
    { apply (core_drops (slots s) [] []). rewrite app_nil_r. cbn [app]. apply (core_ext _ s); [reflexivity|reflexivity|exact (i_core _ H)]. }
    destruct (drops_frame (slots s) (set_slots s [])) as (_ & _ & Fs & Fo & _). split; cbn [slots set_gone owner]; rewrite ?Fs, ?Fo; cbn [slots set_slots owner]; [(apply core_ext with (3 := C); reflexivity)|].
    intros j b K. congruence.
  - exact (inv_owner s f ok s' H E).
  - destruct (gone s); injection E as <-; [exact H|]. apply inv_close, (inv_ext s); auto.
  - unfold close_step in E. destruct (nth_error (closers s) k) as [[own c]|]; [|injection E as <-; exact H]. destruct (gone s); [discriminate E|]. cbv zeta in E.
    destruct c as [| |f|]; injection E as <-.
    + destruct (files s (fd s)); apply (inv_ext s); auto.
    + apply (inv_ext s); auto.
    + destruct (files s f); [apply (inv_ext s); auto|apply (inv_ext s); auto|]. apply (inv_ext (note (set_file s f Nothing) Shut_other)); auto. apply inv_note; [exact I|]. apply (inv_ext s); auto.
    + apply (inv_ext s); auto.
  - exact (inv_worker s w a s' H E).
  - injection E as <-. destruct (files s f); [destruct (0 <=? f); [apply (inv_ext s); auto|exact H]|exact H|exact H].
Qed.
Lemma inv_fresh : inv fresh.
Proof.
  split; [|discriminate]. split; cbn; [constructor| |intros [|w] p H; discriminate H..|intros w []|].
  - intros w. split; [intros []|intros (p & H); destruct w; discriminate H].
  - intros [|x after] before w H; discriminate H.
Qed.
Lemma inv_run ms : forall s s', inv s -> run s ms = Ok s' -> inv s'.
Proof.
  induction ms as [|m ms IH]; intros s s' H E; [injection E as <-; exact H|]. cbn [run] in E. destruct (step s m) as [s1| | |] eqn:E1; try discriminate E. exact (IH s1 s' (inv_step s m s1 H E1) E).
Qed.

(** ** An orderly owner *)
(** create(), serv(), run() and the destructor are called after join(), and when nobody is in stop(); nobody calls stop() during create(); nobody else opens listeners. *)
Definition orderly (s : server) (m : move) : Prop :=
  match m with
  | M_create | M_serv _ | M_destroy => slots s = [] /\ closers s = []
  | M_run _ _ => slots s = []
  | M_stop => match owner s with Opening _ | Assign _ _ => False | _ => True end
  | M_theirs _ => False
  | _ => True
  end.
Inductive reached : server -> Prop :=
| re_fresh : reached fresh
| re_step s m s' : reached s -> orderly s m -> step s m = Ok s' -> reached s'.

Record tidy (s : server) : Prop := {
  t_inv : inv s;
  t_left : forall w, ~ In (Left w) (log s);
  t_len : slots s = [] \/ length (slots s) = asked (log s);
  t_shape : match owner s with
            | Starting n i _ => exists a, slots s = a ++ repeat Null (n - i) /\ length a = i /\ (i <= n)%nat /\ ~ In Null a
            | Failing i j => exists a b, slots s = a ++ b /\ length a = S i /\ ~ In Null a /\ (j <= i)%nat
            | Opening _ | Assign _ _ => slots s = [] /\ Forall (fun c => fst c = true) (closers s)
            | _ => In Null (slots s) -> In Failed (log s)
            end;
  t_gone : gone s = true -> slots s = [] /\ closers s = [] /\ owner s = Idle }.
Lemma all_done s w p h : tidy s -> slots s = [] -> nth_error (workers s) w = Some (p, h) -> p = Done.
Proof.
  intros T E H. pose proof (i_core _ (t_inv _ T)) as C. rewrite E in C. destruct h.
  - destruct (proj2 (c_ptr _ _ C w) (ex_intro _ p H)).
  - exact (c_joined _ _ C w p H).
  - destruct (t_left _ T w (c_left _ _ C w p H)).
Qed.
Lemma not_null {T} (l : list T) (x y : T) k : nth_error l k = Some x -> ~ In y l -> x <> y.
Proof. intros H N ->. exact (N (nth_error_In _ _ H)). Qed.
Lemma put_null l j : ~ In Null l -> ~ In Null (put l j (Obj None)).
Proof. intros H. revert j. induction l as [|x l IH]; intros [|j]; cbn [put In] in *; try tauto; [intros [K|K]; [discriminate K|tauto]|]. specialize (IH ltac:(tauto) j). tauto. Qed.
Lemma put_null' l j : In Null (put l j (Obj None)) -> In Null l.
Proof. revert j. induction l as [|x l IH]; intros [|j]; cbn [put In]; try tauto; [intros [K|K]; [discriminate K|tauto]|]. specialize (IH j). tauto. Qed.
Lemma put_app1 {T} (a b : list T) j x : (j < length a)%nat -> put (a ++ b) j x = put a j x ++ b.
Proof. revert j. induction a as [|y a IH]; intros [|j] H; cbn in *; try lia; [reflexivity|]. rewrite IH by lia. reflexivity. Qed.

Lemma tidy_begin s n sync : inv s -> (forall w, ~ In (Left w) (log s)) -> slots s = [] -> gone s = false -> tidy (begin_run s n sync).
Proof.
  intros HI HL Hs Hg. pose proof (inv_begin s n sync HI) as HI'. unfold begin_run in *. destruct ((fd s <? 0) || flag s).
  - split; cbn [log slots owner gone note set_owner]; [exact HI'|intros w [H|H]; [discriminate H|exact (HL w H)]|now left|rewrite Hs; intros []|congruence].
  - cbv zeta in *. destruct (n <? 0).
    + split; cbn [log slots owner gone note set_owner set_flag]; [exact HI'|intros w [H|H]; [discriminate H|exact (HL w H)]|now left|rewrite Hs; intros []|congruence].
    + unfold resize in *. cbn [slots set_flag] in *. rewrite Hs, skipn_nil, firstn_nil in *. cbn [drop_slots fold_left length app] in *. rewrite Nat.sub_0_r in *.
      split; cbn [log slots owner gone note set_owner set_flag set_slots].
      * exact HI'.
      * intros w [H|H]; [discriminate H|exact (HL w H)].
      * right. now rewrite repeat_length.
      * exists []. rewrite Nat.sub_0_r. repeat split; [lia|intros []].
      * congruence.
Qed.
Lemma tidy_step s m s' : tidy s -> orderly s m -> step s m = Ok s' -> tidy s'.
Proof.
  intros T O E. pose proof (inv_step s m s' (t_inv _ T) E) as I'. destruct T as [HI HL HN HS HG].
  assert (Idle_gone : forall x, owner s = Idle -> negb (gone s) = x -> x = true -> gone s = false) by (intros x _ <-; now destruct (gone s)).
  destruct m as [|n|n sync| | |f ok| |k|w a|f]; cbn [step orderly] in E, O.
  - injection E as <-. destruct (owner s) eqn:Eo; try (split; auto; rewrite ?Eo; auto; fail). destruct (gone s) eqn:Eg; cbn [negb] in *; [split; auto; rewrite ?Eo; auto|].
    destruct O as (Os & Oc). split; auto; unfold begin_close; cbn [fd set_owner]; destruct (fd s <? 0); cbn [log slots owner closers gone set_owner set_closers]; auto; try congruence;
      rewrite Oc; split; auto; cbn; repeat constructor.
  - injection E as <-. destruct (owner s) eqn:Eo; try (split; auto; rewrite ?Eo; auto; fail). destruct (gone s) eqn:Eg; cbn [negb] in *; [split; auto; rewrite ?Eo; auto|].
    destruct O as (Os & Oc). split; auto; cbn [owner set_owner closers gone]; [|congruence]. rewrite Oc. split; auto.
  - injection E as <-. destruct (owner s) eqn:Eo; try (split; auto; rewrite ?Eo; auto; fail). destruct (gone s) eqn:Eg; cbn [negb] in *; [split; auto; rewrite ?Eo; auto|].
    now apply tidy_begin.
  - injection E as <-. destruct (owner s) eqn:Eo; try (split; auto; rewrite ?Eo; auto; fail). destruct (gone s) eqn:Eg; cbn [negb] in *; [split; auto; rewrite ?Eo; auto|].
    split; auto. cbn [gone set_owner]. congruence.
  - injection E as <-. destruct (owner s) eqn:Eo; try (split; auto; rewrite ?Eo; auto; fail). destruct (gone s) eqn:Eg; cbn [negb] in *; [split; auto; rewrite ?Eo; auto|].
    destruct O as (Os & Oc). rewrite Os in *. cbn [drop_slots fold_left] in *. split; auto; cbn [owner set_slots set_gone slots closers]; rewrite ?Eo; auto.
  - unfold owner_step in E. destruct (owner_closes s) eqn:Ec; [injection E as <-; split; auto|].
    destruct (owner s) as [|k|g k|n i sync|i j|j sync] eqn:Eo.
    + injection E as <-. split; auto; rewrite Eo; auto.
    + destruct HS as (Hs & Hc). assert (Hg : gone s = false) by (destruct (gone s); [destruct (HG eq_refl) as (_ & _ & ?); congruence|reflexivity]).
      destruct (ok && (0 <=? f) && _); injection E as <-.
      * split; auto; unfold begin_close; cbn [fd set_owner set_file new_listener]; destruct (fd s <? 0); cbn; auto; try congruence. split; [exact Hs|]. apply Forall_app. split; [exact Hc|]. repeat constructor.
      * split; cbn; auto; [intros w [H|H]; [discriminate H|exact (HL w H)]|rewrite Hs; intros []|congruence].
    + destruct HS as (Hs & Hc). assert (Hg : gone s = false) by (destruct (gone s); [destruct (HG eq_refl) as (_ & _ & ?); congruence|reflexivity]).
      injection E as <-. destruct k as [n|].
      * apply tidy_begin; auto; cbn; [apply inv_note; [exact I|]; apply (inv_ext s); auto|]. intros w [H|H]; [discriminate H|exact (HL w H)].
      * split; cbn; auto; [intros w [H|H]; [discriminate H|exact (HL w H)]|rewrite Hs; intros []|congruence].
    + assert (Hg : gone s = false) by (destruct (gone s); [destruct (HG eq_refl) as (_ & _ & ?); congruence|reflexivity]).
      destruct HS as (a & Ea & La & Hin & Na). destruct (Nat.eqb_spec i n) as [->|D].
      * rewrite Nat.sub_diag, app_nil_r in Ea. injection E as <-. destruct sync.
        -- split; cbn; auto; [rewrite Ea; contradiction|congruence].
        -- split; cbn; auto; [intros w [H|H]; [discriminate H|exact (HL w H)]|rewrite Ea; contradiction|congruence].
      * assert (En : nth_error (slots s) i = Some Null) by (rewrite Ea, nth_error_app2, La, Nat.sub_diag by lia; destruct (n - i)%nat eqn:?; [lia|reflexivity]).
        rewrite En in E. cbn [drop_slot] in E.
        assert (Ep : forall x, put (slots s) i x = (a ++ [x]) ++ repeat Null (n - S i)).
        { intros x. destruct (put_split _ _ _ x En) as (_ & ->). rewrite Ea. rewrite firstn_app, La, Nat.sub_diag, firstn_O, app_nil_r, firstn_all2 by lia.
          rewrite skipn_app, La, skipn_all2 by lia. replace (S i - i)%nat with 1%nat by lia. rewrite <- app_assoc. cbn [app]. f_equal. f_equal.
          replace (n - i)%nat with (S (n - S i)) by lia. reflexivity. }
        destruct ok; injection E as <-.
        -- split; cbn [log slots owner gone note set_owner set_workers set_slots].
           ++ exact I'.
           ++ intros w [H|H]; [discriminate H|exact (HL w H)].
           ++ right. rewrite put_length. destruct HN as [HN|HN]; [rewrite HN in En; destruct i; discriminate En|exact HN].
           ++ exists (a ++ [Obj (Some (length (workers s)))]). rewrite Ep. repeat split; [rewrite app_length; cbn; lia|lia|]. rewrite in_app_iff. intros [H|[H|[]]]; [exact (Na H)|discriminate H].
           ++ congruence.
        -- split; auto; unfold begin_close; cbn [fd set_owner set_slots set_flag]; destruct (fd s <? 0); cbn [log slots owner gone set_owner set_closers set_slots set_flag]; auto; try congruence.
           all: try (right; rewrite put_length; destruct HN as [HN|HN]; [rewrite HN in En; destruct i; discriminate En|exact HN]).
           all: exists (a ++ [Obj None]), (repeat Null (n - S i)); rewrite Ep; repeat split; [rewrite app_length; cbn; lia| |lia]; rewrite in_app_iff; intros [H|[H|[]]]; [exact (Na H)|discriminate H].
    + assert (Hg : gone s = false) by (destruct (gone s); [destruct (HG eq_refl) as (_ & _ & ?); congruence|reflexivity]).
      destruct HS as (a & b & Ea & La & Na & Hj). destruct (Nat.eqb_spec j i) as [->|D].
      * injection E as <-. split; cbn; auto; [intros w [H|H]; [discriminate H|exact (HL w H)]|congruence].
      * destruct (nth_error (slots s) j) as [[|[w|]]|] eqn:En; try discriminate E.
        -- destruct (nth_error (workers s) w) as [[[] h]|] eqn:Ew; injection E as <-; try (split; auto; rewrite Eo; [now exists a, b|congruence]).
           split; cbn [log slots owner gone set_owner set_workers set_slots]; auto; [right; rewrite put_length; destruct HN as [HN|HN]; [rewrite HN in En; destruct j; discriminate En|exact HN]| |congruence].
           exists (put a j (Obj None)), b. rewrite Ea, put_app1, put_length by lia. repeat split; [exact La|now apply put_null|lia].
        -- injection E as <-. split; cbn; auto; [exists a, b; repeat split; auto; lia|congruence].
    + assert (Hg : gone s = false) by (destruct (gone s); [destruct (HG eq_refl) as (_ & _ & ?); congruence|reflexivity]).
      destruct (nth_error (slots s) j) as [[|[w|]]|] eqn:En; try discriminate E.
      * destruct (nth_error (workers s) w) as [[[] h]|] eqn:Ew; injection E as <-; try (split; auto; rewrite Eo; [exact HS|congruence]).
        split; cbn [log slots owner gone set_owner set_workers set_slots]; auto; [right; rewrite put_length; destruct HN as [HN|HN]; [rewrite HN in En; destruct j; discriminate En|exact HN]| |congruence].
        intros H. apply HS. exact (put_null' _ _ H).
      * injection E as <-. split; cbn; auto. congruence.
      * injection E as <-. destruct sync; split; cbn; auto; try congruence; try contradiction; intros w H; repeat (destruct H as [H|H]; [discriminate H|]); exact (HL w H).
  - destruct (gone s) eqn:Eg; injection E as <-; [split; auto|]. split; auto; unfold begin_close; cbn [fd set_flag]; destruct (fd s <? 0); cbn [log slots owner gone set_flag set_closers]; auto; try congruence; destruct (owner s); auto; contradiction.
  - unfold close_step in E. destruct (nth_error (closers s) k) as [[own c]|] eqn:En; [|injection E as <-; split; auto]. destruct (gone s) eqn:Eg; [discriminate E|]. cbv zeta in E.
    assert (Q : forall s1, log s1 = log s \/ log s1 = Shut_other :: log s -> slots s1 = slots s -> owner s1 = owner s -> gone s1 = gone s ->
      (Forall (fun c => fst c = true) (closers s) -> Forall (fun c => fst c = true) (closers s1)) -> inv s1 -> tidy s1).
    { intros s1 Q1 Q2 Q3 Q4 Q5 Q6. split; [exact Q6|..].
      - intros w. destruct Q1 as [-> | ->]; [exact (HL w)|]. intros [H|H]; [discriminate H|exact (HL w H)].
      - rewrite Q2. destruct Q1 as [-> | ->]; exact HN.
      - rewrite Q2, Q3. destruct (owner s); try exact HS; try (destruct HS; split; auto; fail); intros K; destruct Q1 as [-> | ->]; try right; auto.
      - rewrite Q4. congruence. }
    assert (F : forall p, Forall (fun c => fst c = true) (closers s) -> Forall (fun c : bool * cpc => fst c = true) (put (closers s) k (own, p))).
    { intros p H. pose proof (proj1 (Forall_forall _ _) H _ (nth_error_In _ _ En)) as Ho. clear - H Ho. revert k. induction H as [|x l Hx Hl IH]; intros [|k]; cbn [put]; constructor; auto. }
    destruct c as [| |f|]; injection E as <-.
    + apply Q; auto; destruct (files s (fd s)); cbn; auto.
    + apply Q; cbn; auto.
    + apply Q; auto; destruct (files s f); cbn; auto.
    + apply Q; cbn; auto. intros H. rewrite <- (firstn_skipn k (closers s)) in H. apply Forall_app in H. destruct H as (H1 & H2). apply Forall_app. split; [exact H1|].
      clear - H2. revert k H2. generalize (closers s). intros l k. revert l. induction k as [|k IH]; intros [|x l] H; try constructor; cbn [skipn] in *; [exact (Forall_inv_tail H)|exact (IH _ H)].
  - assert (Q : forall s1, (exists q h, s1 = set_workers s (put (workers s) w (q, h)) \/ (exists l, s1 = note (set_workers s (put (workers s) w (q, h))) (Took w l)) \/
      s1 = note (set_workers s (put (workers s) w (q, h))) (Ended w)) -> inv s1 -> tidy s1).
    { intros s1 (q & h & [->|[(l & ->)| ->]]) Q6; (split; [exact Q6|..]); cbn [log slots owner gone note set_workers]; auto.
      all: try (intros v [H|H]; [discriminate H|exact (HL v H)]). all: destruct (owner s); auto; intros H; right; auto. }
    unfold worker_step in E. destruct (nth_error (workers s) w) as [[p h]|] eqn:Ew; [|injection E as <-; split; auto].
    destruct p as [| |f|l| | | |]; [..|injection E as <-; split; auto]; (destruct (gone s) eqn:Eg; [discriminate E|]).
    + injection E as <-. destruct (flag s); apply Q; auto; eauto 6.
    + injection E as <-. apply Q; auto; eauto 6.
    + injection E as <-. apply Q; auto; eauto 6.
    + destruct l as [l|]; [destruct (down s l)|]; [injection E as <-; apply Q; eauto 6|..]; destruct a; injection E as <-; try (split; auto; congruence); apply Q; eauto 6.
    + injection E as <-. destruct (flag s); apply Q; auto; eauto 6.
    + destruct a as [| |[]|]; injection E as <-; apply Q; auto; eauto 6.
    + injection E as <-. apply Q; auto; eauto 6.
  - contradiction.
Qed.
(** Listeners: one that was not shut down is the server's own, or being installed. *)
Record net (s : server) : Prop := {
  n_pos : forall f, files s f <> Nothing -> 0 <= f;
  n_theirs : forall f, files s f <> Theirs;
  n_files : forall f l, files s f = Mine l -> f = fd s \/ down s l = true \/ exists k, owner s = Assign f k;
  n_closer : forall c l, In c (closers s) -> snd c <> C0 -> files s (fd s) = Mine l -> down s l = true;
  n_wait : forall w x h, nth_error (workers s) w = Some (Waiting x, h) -> exists l, x = Some l /\ (down s l = true \/ files s (fd s) = Mine l);
  n_assign : forall f k, owner s = Assign f k -> fd s < 0 \/ closers s <> [] \/ fd s = f }.
Lemma net_close s own : net s -> net (begin_close s own).
Proof.
  intros [H1 H2 H3 H4 H5 H6]. unfold begin_close. destruct (fd s <? 0); split; cbn [fd files owner closers workers down set_closers]; auto.
  - intros c l Hc. apply in_app_iff in Hc. destruct Hc as [Hc|[<-|[]]]; [exact (H4 c l Hc)|cbn; congruence].
  - intros f k Ho. destruct (H6 f k Ho) as [H|[H|H]]; [now left|right; left; now destruct (closers s)|now do 2 right].
Qed.
(** the part of the state that matters here *)
Lemma net_ext s s' : fd s' = fd s -> files s' = files s -> down s' = down s -> closers s' = closers s -> (forall w x h, nth_error (workers s') w = Some (Waiting x, h) -> exists v g, nth_error (workers s) v = Some (Waiting x, g)) ->
  (forall f k, owner s' = Assign f k -> owner s = Assign f k) -> (forall f k, owner s = Assign f k -> owner s' = Assign f k) -> net s -> net s'.
Proof.
  intros E1 E2 E3 E4 E5 E6 E7 [H1 H2 H3 H4 H5 H6]. split; rewrite ?E1, ?E2, ?E3, ?E4; auto.
  - intros f l H. destruct (H3 f l H) as [K|[K|(k & K)]]; eauto.
  - intros w x h H. destruct (E5 w x h H) as (v & g & K). exact (H5 v x g K).
  - intros f k H. exact (H6 f k (E6 f k H)).
Qed.
Lemma net_drop s x : net s -> net (drop_slot s x).
Proof.
  intros H. destruct (drop_frame s x) as (F1 & F2 & F3 & F4 & F5 & F6 & F7 & F8 & F9 & F10 & F11). apply (net_ext s); auto; [|intros f k; now rewrite F4|intros f k; now rewrite F4].
  intros w y h E. apply (map_nth_error fst) in E. rewrite F11 in E. destruct (nth_error (workers s) w) as [[p g]|] eqn:Ew.
  - rewrite (map_nth_error fst _ _ Ew) in E. injection E as ->. now exists w, g.
  - exfalso. apply nth_error_None in Ew. rewrite <- (map_length fst) in Ew. apply nth_error_None in Ew. congruence.
Qed.
Lemma net_drops l : forall s, net s -> net (drop_slots s l).
Proof. induction l as [|x l IH]; intros s H; [exact H|]. apply IH. now apply net_drop. Qed.
Lemma net_owner s o : (forall f k, owner s <> Assign f k) -> (forall f k, o <> Assign f k) -> net s -> net (set_owner s o).
Proof. intros H1 H2 H. apply (net_ext s); auto; cbn; intros; [eauto|exfalso; eapply H2; eauto|exfalso; eapply H1; eauto]. Qed.
Lemma net_note s e : net s -> net (note s e).
Proof. intros H. apply (net_ext s); auto. cbn. eauto. Qed.
Lemma net_resize s n : net s -> net (resize s n).
Proof. intros H. unfold resize. cbv zeta. apply (net_ext (drop_slots s (skipn n (slots s)))); auto; [cbn; eauto|]. now apply net_drops. Qed.
Lemma resize_owner s n : owner (resize s n) = owner s.
Proof. unfold resize. cbn. now destruct (drops_frame (skipn n (slots s)) s) as (_ & _ & _ & ? & _). Qed.
Lemma net_begin s n sync : (forall f k, owner s <> Assign f k) -> net s -> net (begin_run s n sync).
Proof.
  intros Ho H. unfold begin_run. destruct (_ || _); [apply net_note, net_owner; [exact Ho|discriminate|exact H]|]. cbv zeta.
  assert (H1 : net (set_flag s true)) by (apply (net_ext s); auto; cbn; eauto). destruct (n <? 0).
  - apply net_note, net_owner; [exact Ho|discriminate|exact H1].
  - apply net_owner; [cbn [owner note]; rewrite resize_owner; exact Ho|discriminate|]. apply net_note, net_resize, H1.
Qed.
Lemma net_put s w q h : net s -> (forall x, q = Waiting x -> exists l, x = Some l /\ (down s l = true \/ files s (fd s) = Mine l)) -> net (set_workers s (put (workers s) w (q, h))).
Proof.
  intros [H1 H2 H3 H4 H5 H6] Hq. split; cbn [fd files owner closers workers down set_workers]; auto. intros v x g H. destruct (Nat.lt_ge_cases w (length (workers s))) as [L|L].
  - rewrite put_nth in H by assumption. destruct (Nat.eqb v w); [injection H as -> ->; now apply Hq|exact (H5 v x g H)].
  - assert (E : put (workers s) w (q, h) = workers s).
    { clear - L. revert w L. induction (workers s) as [|y l IH]; intros [|w] L; cbn in *; try lia; [reflexivity..|]. rewrite IH by lia. reflexivity. }
    rewrite E in H. exact (H5 v x g H).
Qed.
Lemma net_unassign s g k : owner s = Assign g k -> fd s = g -> net s -> net (set_owner s Idle).
Proof.
  intros Eo Ef [H1 H2 H3 H4 H5 H6]. split; cbn [fd files owner closers workers down set_owner]; auto; [|discriminate].
  intros f l H. destruct (H3 f l H) as [A|[A|(k' & A)]]; [now left|right; now left|left; congruence].
Qed.
Lemma begin_idle s n sync : slots s = [] -> begin_run s n sync = begin_run (set_owner s Idle) n sync.
Proof. intros H. unfold begin_run, resize. cbn [fd flag set_owner slots set_flag]. rewrite H, skipn_nil. reflexivity. Qed.
Lemma net_step s m s' : tidy s -> net s -> orderly s m -> step s m = Ok s' -> net s'.
Proof.
  intros T N O E. destruct m as [|n|n sync| | |f ok| |k|w a|f]; cbn [step orderly] in E, O.
  - injection E as <-. destruct (owner s) eqn:Eo; try exact N. destruct (negb (gone s)); [|exact N]. apply net_close, net_owner; [congruence|discriminate|exact N].
  - injection E as <-. destruct (owner s) eqn:Eo; try exact N. destruct (negb (gone s)); [|exact N]. apply net_owner; [congruence|discriminate|exact N].
  - injection E as <-. destruct (owner s) eqn:Eo; try exact N. destruct (negb (gone s)); [|exact N]. apply net_begin; [congruence|exact N].
  - injection E as <-. destruct (owner s) eqn:Eo; try exact N. destruct (negb (gone s)); [|exact N]. apply net_owner; [congruence|discriminate|exact N].
  - injection E as <-. destruct (owner s) eqn:Eo; try exact N. destruct (negb (gone s)); [|exact N].
    apply (net_ext (drop_slots (set_slots s []) (slots s))); auto; [cbn; eauto|]. apply net_drops. apply (net_ext s); auto. cbn. eauto.
  - unfold owner_step in E. destruct (owner_closes s) eqn:Ec; [injection E as <-; exact N|].
    assert (R : forall j w o, (forall f k, owner s <> Assign f k) -> (forall f k, o <> Assign f k) -> net (set_owner (set_workers (set_slots s (put (slots s) j (Obj None))) (put (workers s) w (Done, Joined_))) o)).
    { intros j w o H1 H2. apply net_owner; [exact H1|exact H2|]. apply (net_ext (set_workers s (put (workers s) w (Done, Joined_)))); auto; [cbn; eauto|]. apply net_put; [exact N|discriminate]. }
    destruct (owner s) as [|k|g k|n i sync|i j|j sync] eqn:Eo.
    + injection E as <-. exact N.
    + destruct (ok && (0 <=? f) && match files s f with Nothing => true | _ => false end) eqn:Eb; injection E as <-.
      * apply andb_prop in Eb. destruct Eb as (Eb & Ef). apply andb_prop in Eb. destruct Eb as (_ & Ep). apply Z.leb_le in Ep. destruct (files s f) eqn:Ef'; try discriminate Ef.
        pose proof (t_shape _ T) as Q. rewrite Eo in Q. destruct Q as (Hs & Q).
        assert (Hd : closers s = []) by (unfold owner_closes in Ec; destruct (closers s) as [|c r]; [reflexivity|]; cbn in Ec; now rewrite (Forall_inv Q) in Ec).
        assert (K : forall cs, (fd s <? 0) = false \/ cs = [] -> cs = [] \/ cs = [(true, C0)] -> (fd s <? 0 = false -> cs <> []) ->
          net (set_closers (set_owner (set_file (new_listener s) f (Mine (listeners s))) (Assign f k)) cs)).
        { intros cs _ Hcs Hne. destruct N as [H1 H2 H3 H4 H5 H6]. split; cbn [fd files owner closers workers down set_closers set_owner set_file new_listener].
          - intros g. destruct (Z.eqb_spec g f); [lia|apply H1].
          - intros g. destruct (Z.eqb_spec g f); [discriminate|apply H2].
          - intros g l. destruct (Z.eqb_spec g f) as [->|D]; [intros _; right; right; now exists k|]. intros H. destruct (H3 g l H) as [A|[A|(k' & A)]]; [now left|right; now left|congruence].
          - intros c l Hc Hn. destruct Hcs as [-> | ->]; [destruct Hc|]. destruct Hc as [<-|[]]. cbn in Hn. congruence.
          - intros w x h H. pose proof (all_done s w _ _ T Hs H) as A. discriminate A.
          - intros g k' _. destruct (Z.ltb_spec (fd s) 0); [now left|right; left; now apply Hne]. }
        unfold begin_close. cbn [fd set_owner set_file new_listener]. destruct (fd s <? 0) eqn:El.
        -- apply (net_ext (set_closers (set_owner (set_file (new_listener s) f (Mine (listeners s))) (Assign f k)) [])); auto; cbn; eauto. apply K; auto. discriminate.
        -- cbn [closers set_owner set_file new_listener]. rewrite Hd. apply K; auto. intros _. discriminate.
      * apply net_note, net_owner; [congruence|discriminate|exact N].
    + pose proof (t_shape _ T) as Q. rewrite Eo in Q. destruct Q as (Hs & Q).
      assert (Hd : closers s = []) by (unfold owner_closes in Ec; destruct (closers s) as [|c r]; [reflexivity|]; cbn in Ec; now rewrite (Forall_inv Q) in Ec).
      assert (K : net (note (set_fd s g) (Created true))).
      { destruct N as [H1 H2 H3 H4 H5 H6]. split; cbn [fd files owner closers workers down note set_fd]; auto.
        - intros f' l H. destruct (H3 f' l H) as [A|[A|(k' & A)]]; [|right; now left|left; congruence].
          destruct (H6 g k Eo) as [B|[B|B]]; [|contradiction|left; congruence]. exfalso. subst f'. specialize (H1 (fd s)). rewrite H in H1. specialize (H1 ltac:(discriminate)). lia.
        - intros c l Hc. rewrite Hd in Hc. destruct Hc.
        - intros w x h H. pose proof (all_done s w _ _ T Hs H) as A. discriminate A.
        - intros f' k' H. right. right. congruence. }
      injection E as <-. destruct k as [n|].
      * rewrite begin_idle by exact Hs. apply net_begin; [discriminate|]. exact (net_unassign (note (set_fd s g) (Created true)) g _ Eo eq_refl K).
      * exact (net_unassign (note (set_fd s g) (Created true)) g _ Eo eq_refl K).
    + destruct (Nat.eqb i n).
      * injection E as <-. destruct sync; [|apply net_note]; (apply net_owner; [congruence|discriminate|exact N]).
      * destruct (nth_error (slots s) i) as [old|]; [|discriminate E]. pose proof (net_drop s old N) as N1. destruct (drop_frame s old) as (_ & _ & _ & Fo & _).
        destruct ok; injection E as <-.
        -- apply net_note, net_owner; [cbn; congruence|discriminate|]. apply (net_ext (drop_slot s old)); auto. cbn [workers set_workers set_slots]. intros w x h H.
           destruct (Nat.lt_ge_cases w (length (workers (drop_slot s old)))) as [L|L]; [rewrite nth_error_app1 in H by assumption; eauto|].
           rewrite nth_error_app2 in H by assumption. destruct (w - length (workers (drop_slot s old)))%nat as [|z]; [discriminate H|destruct z; discriminate H].
        -- apply net_close. apply (net_ext (set_owner (drop_slot s old) (Failing i 0))); auto; [cbn; eauto|]. apply net_owner; [congruence|discriminate|exact N1].
    + destruct (Nat.eqb j i); [injection E as <-; apply net_note, net_owner; [congruence|discriminate|exact N]|].
      destruct (nth_error (slots s) j) as [[|[w|]]|] eqn:En; try discriminate E.
      * destruct (nth_error (workers s) w) as [[[] h]|] eqn:Ew; injection E as <-; try exact N. apply R; [congruence|discriminate].
      * injection E as <-. apply net_owner; [congruence|discriminate|exact N].
    + destruct (nth_error (slots s) j) as [[|[w|]]|] eqn:En; try discriminate E.
      * destruct (nth_error (workers s) w) as [[[] h]|] eqn:Ew; injection E as <-; try exact N. apply R; [congruence|discriminate].
      * injection E as <-. apply net_owner; [congruence|discriminate|exact N].
      * injection E as <-. assert (K : net (note (set_owner (set_slots s []) Idle) Joined)).
        { apply net_note, net_owner; [cbn; congruence|discriminate|]. apply (net_ext s); auto. cbn. eauto. }
        destruct sync; [now apply net_note|exact K].
  - destruct (gone s); injection E as <-; [exact N|]. apply net_close. apply (net_ext s); auto. cbn. eauto.
  - unfold close_step in E. destruct (nth_error (closers s) k) as [[own c]|] eqn:En; [|injection E as <-; exact N]. destruct (gone s) eqn:Eg; [discriminate E|]. cbv zeta in E.
    pose proof (nth_error_In _ _ En) as Hin.
    assert (Pi : forall p c, In c (put (closers s) k (own, p)) -> c = (own, p) \/ In c (closers s)).
    { clear. intros p. generalize k. clear k. induction (closers s) as [|x l IH]; intros [|k] c; cbn [put In]; try tauto; [intuition|]. specialize (IH k c). tauto. }
    assert (Pn : forall p, put (closers s) k (own, p) <> []) by (intros p; pose proof (put_length (closers s) k (own, p)) as L; pose proof (nth_lt _ _ _ En); intros Q; rewrite Q in L; cbn in L; lia).
    destruct c as [| |f|].
    + assert (E' : s' = set_closers (match files s (fd s) with Mine l => set_down s l | _ => s end) (put (closers s) k (own, C1))) by (injection E as <-; destruct (files s (fd s)); reflexivity).
      clear E. subst s'. destruct N as [H1 H2 H3 H4 H5 H6].
      destruct (files s (fd s)) as [|l|] eqn:Ef; [| |exfalso; exact (H2 _ Ef)].
      * split; cbn [fd files owner closers workers down set_closers]; rewrite ?Ef; auto. intros c l Hc _ Hl; discriminate Hl.
      * assert (D : forall l', down s l' = true -> (if Nat.eqb l' l then true else down s l') = true) by (intros l' Hl; rewrite Hl; now destruct (Nat.eqb l' l)).
        split; cbn [fd files owner closers workers down set_closers set_down]; auto.
        -- intros f l' H. destruct (H3 f l' H) as [A|[A|A]]; auto.
        -- intros c l' _ _ H. assert (l' = l) as -> by congruence. now rewrite Nat.eqb_refl.
        -- intros w x h H. rewrite Ef. destruct (H5 w x h H) as (l' & -> & [A|A]); exists l'; split; auto.
    + injection E as <-. destruct N as [H1 H2 H3 H4 H5 H6]. split; cbn [fd files owner closers workers down set_closers]; auto.
      intros c l Hc Hn. destruct (Pi _ _ Hc) as [->|Hc']; [|exact (H4 c l Hc' Hn)]. apply (H4 (own, C1) l Hin). discriminate.
    + assert (E' : s' = set_closers (set_file s f Nothing) (put (closers s) k (own, C3))).
      { injection E as <-. destruct (files s f) eqn:Ef; try reflexivity. exfalso. exact (n_theirs _ N _ Ef). }
      clear E. subst s'. destruct N as [H1 H2 H3 H4 H5 H6]. split; cbn [fd files owner closers workers down set_closers set_file].
      * intros g. destruct (g =? f); [congruence|apply H1].
      * intros g. destruct (g =? f); [discriminate|apply H2].
      * intros g l. destruct (g =? f); [discriminate|apply H3].
      * intros c l Hc Hn. destruct (fd s =? f); [discriminate|]. intros Hl. destruct (Pi _ _ Hc) as [->|Hc']; [|exact (H4 c l Hc' Hn Hl)]. apply (H4 (own, C2 f) l Hin); [discriminate|exact Hl].
      * intros w x h H. destruct (H5 w x h H) as (l & -> & [A|A]); exists l; (split; [reflexivity|]); [now left|left]. apply (H4 (own, C2 f) l Hin); [discriminate|exact A].
      * intros g k' H. right. left. apply Pn.
    + injection E as <-. destruct N as [H1 H2 H3 H4 H5 H6].
      assert (B : files s (-1) = Nothing) by (destruct (files s (-1)) eqn:Q; [reflexivity|specialize (H1 (-1)); rewrite Q in H1; specialize (H1 ltac:(discriminate)); lia..]).
      split; cbn [fd files owner closers workers down set_closers set_fd]; auto.
      * intros g l H. destruct (H3 g l H) as [->|[A|A]]; [|now right; left|now right; right]. right. left. apply (H4 (own, C3) l Hin); [discriminate|exact H].
      * intros c l _ _ H. congruence.
      * intros w x h H. destruct (H5 w x h H) as (l & -> & [A|A]); exists l; (split; [reflexivity|]); left; [exact A|]. apply (H4 (own, C3) l Hin); [discriminate|exact A].
      * intros g k' _. left. lia.
  - unfold worker_step in E. destruct (nth_error (workers s) w) as [[p h]|] eqn:Ew; [|injection E as <-; exact N].
    destruct p as [| |f|l| | | |]; [..|injection E as <-; exact N]; (destruct (gone s) eqn:Eg; [discriminate E|]).
    + injection E as <-. destruct (flag s); [|apply net_note]; (apply net_put; [exact N|discriminate]).
    + injection E as <-. apply net_put; [exact N|discriminate].
    + injection E as <-. apply net_put; [exact N|]. intros x. destruct (files s f) as [|l|] eqn:Ef; [discriminate| |exfalso; exact (n_theirs _ N _ Ef)].
      destruct (down s l) eqn:Ed; [discriminate|]. intros [= <-]. exists l. split; [reflexivity|right]. destruct (n_files _ N f l Ef) as [->|[A|(k & A)]]; [exact Ef|congruence|].
      pose proof (t_shape _ T) as Q. rewrite A in Q. destruct Q as (Hs & _). pose proof (all_done s w _ _ T Hs Ew) as B. discriminate B.
    + destruct l as [l|]; [destruct (down s l)|]; [injection E as <-; (apply net_put; [exact N|discriminate])|..]; destruct a; injection E as <-; try exact N; try apply net_note; (apply net_put; [exact N|discriminate]).
    + injection E as <-. destruct (flag s); (apply net_put; [exact N|discriminate]).
    + destruct a as [| |[]|]; injection E as <-; (apply net_put; [exact N|discriminate]).
    + injection E as <-. apply net_put; [exact N|discriminate].
  - contradiction.
Qed.
Lemma reached_tidy s : reached s -> tidy s /\ net s.
Proof.
  induction 1 as [|s m s' _ (T & N) O E].
  - split; [split; [exact inv_fresh|intros w []|now left|intros []|discriminate]|]. split; cbn; try discriminate; try contradiction; auto.
    intros [|w] x h H; discriminate H.
  - split; [exact (tidy_step s m s' T O E)|exact (net_step s m s' T N O E)].
Qed.

(** ** Stopping *)
(** stop() has returned, and the server was not started again *)
Definition stopped (s : server) : Prop := flag s = false /\ fd s < 0 /\ closers s = [] /\ gone s = false /\ match owner s with Idle | Joining _ _ | Failing _ _ => True | _ => False end.
(** steps of worker w *)
Definition by_worker (m : move) : Prop := match m with M_worker _ _ => True | _ => False end.
Fixpoint steps_of (w : nat) (ms : list move) : nat := match ms with [] => O | M_worker v _ :: r => (if Nat.eqb v w then 1 else 0) + steps_of w r | _ :: r => steps_of w r end.
Definition far (p : wpc) : nat := match p with Done => 0 | Check => 1 | Waiting _ | Inner => 2 | Call _ | Busy => 3 | Look | Reading => 4 end.
Definition state_of (s : server) (w : nat) : option wpc := option_map fst (nth_error (workers s) w).
(** nobody can be caught in accept() *)
Definition settled (s : server) : Prop := flag s = false /\ gone s = false /\ (forall f, files s f = Nothing \/ exists l, files s f = Mine l /\ down s l = true) /\
  (forall w x, state_of s w = Some (Waiting x) -> exists l, x = Some l /\ down s l = true).
Lemma stopped_settled s : tidy s -> net s -> stopped s -> settled s.
Proof.
  intros T N (Hf & Hd & Hc & Hg & Ho). destruct N as [H1 H2 H3 H4 H5 H6]. split; [exact Hf|]. split; [exact Hg|]. split.
  - intros f. destruct (files s f) as [|l|] eqn:Ef; [now left| |destruct (H2 f Ef)]. right. exists l. split; [reflexivity|]. destruct (H3 f l Ef) as [->|[A|(k & A)]]; [|exact A|now rewrite A in Ho].
    specialize (H1 (fd s)). rewrite Ef in H1. specialize (H1 ltac:(discriminate)). lia.
  - intros w x H. unfold state_of in H. destruct (nth_error (workers s) w) as [[p h]|] eqn:Ew; [|discriminate H]. injection H as ->. destruct (H5 w x h Ew) as (l & -> & [A|A]); exists l; (split; [reflexivity|]); [exact A|].
    specialize (H1 (fd s)). rewrite A in H1. specialize (H1 ltac:(discriminate)). lia.
Qed.
Lemma state_put s v w q h p : state_of s v = Some p -> state_of (set_workers s (put (workers s) v (q, h))) w = if Nat.eqb w v then Some q else state_of s w.
Proof.
  intros H. unfold state_of in *. cbn [workers set_workers]. destruct (nth_error (workers s) v) as [x|] eqn:E; [|discriminate H]. rewrite put_nth by exact (nth_lt _ _ _ E). now destruct (Nat.eqb w v).
Qed.
Lemma settled_worker s v a : settled s -> exists s', worker_step s v a = Ok s' /\ settled s' /\ slots s' = slots s /\ owner s' = owner s /\ closers s' = closers s /\ (forall e, In e (log s') -> In e (log s) \/ e <> Failed) /\
  (forall w p, state_of s w = Some p -> exists q, state_of s' w = Some q /\ (far q <= far p)%nat /\ (w = v -> p <> Done -> (far q < far p)%nat)).
Proof.
  intros (Hf & Hg & Hs & Hw). unfold worker_step. rewrite Hg, Hf.
  assert (Same : settled s) by (repeat split; assumption).
  destruct (nth_error (workers s) v) as [[p h]|] eqn:Ev.
  2:{ exists s. split; [reflexivity|]. split; [exact Same|]. split; [reflexivity|]. split; [reflexivity|]. split; [reflexivity|]. split; [intros e H; now left|]. intros w q Hq. exists q. split; [exact Hq|]. split; [lia|]. intros ->. unfold state_of in Hq. now rewrite Ev in Hq. }
  assert (Sv : state_of s v = Some p) by (unfold state_of; now rewrite Ev).
  assert (K : forall q (s1 : server), workers s1 = put (workers s) v (q, h) -> flag s1 = flag s -> gone s1 = gone s -> files s1 = files s -> down s1 = down s -> slots s1 = slots s -> owner s1 = owner s -> closers s1 = closers s ->
    (forall e, In e (log s1) -> In e (log s) \/ e <> Failed) -> (forall x, q <> Waiting x) -> (far q < far p)%nat ->
    settled s1 /\ slots s1 = slots s /\ owner s1 = owner s /\ closers s1 = closers s /\ (forall e, In e (log s1) -> In e (log s) \/ e <> Failed) /\
    (forall w p, state_of s w = Some p -> exists q, state_of s1 w = Some q /\ (far q <= far p)%nat /\ (w = v -> p <> Done -> (far q < far p)%nat))).
  { intros q s1 E1 E2 E3 E4 E5 E6 E7 E8 E9 Hq Hl.
    assert (St : forall w, state_of s1 w = if Nat.eqb w v then Some q else state_of s w) by (intros w; rewrite <- (state_put s v w q h p Sv); unfold state_of; cbn [workers set_workers]; now rewrite E1).
    split; [|split; [exact E6|split; [exact E7|split; [exact E8|split; [exact E9|]]]]].
    - unfold settled. rewrite E2, E3, E4, E5. split; [exact Hf|]. split; [exact Hg|]. split; [exact Hs|]. intros w x. rewrite St. destruct (Nat.eqb w v); [intros [= E]; destruct (Hq x E)|apply Hw].
    - intros w r Hr. rewrite St. destruct (Nat.eqb_spec w v) as [->|D]; [|exists r; repeat split; [exact Hr|lia|contradiction]].
      assert (r = p) as -> by congruence. exists q. split; [reflexivity|]. split; [lia|auto]. }
  destruct p as [| |f|l| | | |].
  - eexists. split; [reflexivity|]. apply (K Done); try reflexivity; [|discriminate|cbn; lia]. intros e [<-|H]; [right; discriminate|now left].
  - eexists. split; [reflexivity|]. apply (K (Call (fd s))); try reflexivity; [intros e H; now left|discriminate|cbn; lia].
  - eexists. split; [reflexivity|]. destruct (Hs f) as [->|(l & -> & ->)]; (apply (K Check); try reflexivity; [intros e H; now left|discriminate|cbn; lia]).
  - destruct (Hw v l Sv) as (k & -> & ->). eexists. split; [reflexivity|]. apply (K Check); try reflexivity; [intros e H; now left|discriminate|cbn; lia].
  - eexists. split; [reflexivity|]. apply (K Check); try reflexivity; [intros e H; now left|discriminate|cbn; lia].
  - destruct a as [| |[]|]; (eexists; split; [reflexivity|]); [apply (K Check)|apply (K Check)|apply (K Busy)|apply (K Inner)|apply (K Check)]; try reflexivity; try discriminate; try (cbn; lia); intros e H; now left.
  - eexists. split; [reflexivity|]. apply (K Inner); try reflexivity; [intros e H; now left|discriminate|cbn; lia].
  - exists s. split; [reflexivity|]. split; [exact Same|]. split; [reflexivity|]. split; [reflexivity|]. split; [reflexivity|]. split; [intros e H; now left|].
    intros w q Hq. exists q. split; [exact Hq|]. split; [lia|]. intros -> D. congruence.
Qed.
Lemma settled_run ms : Forall by_worker ms -> forall s, settled s -> exists s', run s ms = Ok s' /\ settled s' /\ slots s' = slots s /\ owner s' = owner s /\ closers s' = closers s /\ (forall e, In e (log s') -> In e (log s) \/ e <> Failed) /\
  (forall w p, state_of s w = Some p -> exists q, state_of s' w = Some q /\ (far q + Nat.min (steps_of w ms) (far p) <= far p)%nat).
Proof.
  induction 1 as [|m ms Hm Hms IH]; intros s Hs.
  - exists s. cbn [run steps_of]. split; [reflexivity|]. split; [exact Hs|]. split; [reflexivity|]. split; [reflexivity|]. split; [reflexivity|]. split; [intros e H; now left|]. intros w p H. exists p. split; [exact H|lia].
  - destruct m as [| | | | | | | |v a|]; try contradiction Hm. destruct (settled_worker s v a Hs) as (s1 & E1 & S1 & L1 & O1 & C1 & G1 & F1).
    destruct (IH s1 S1) as (s2 & E2 & S2 & L2 & O2 & C2 & G2 & F2). exists s2. cbn [run step]. rewrite E1. cbn [obind]. split; [exact E2|]. split; [exact S2|]. split; [congruence|]. split; [congruence|]. split; [congruence|].
    split; [intros e He; destruct (G2 e He) as [H|H]; [exact (G1 e H)|now right]|].
    intros w p Hp. destruct (F1 w p Hp) as (q & Hq & D1 & D2). destruct (F2 w q Hq) as (r & Hr & D3). exists r. split; [exact Hr|]. cbn [steps_of]. destruct (Nat.eqb_spec v w) as [->|D]; [|lia].
    destruct (far p) as [|n] eqn:Ep; [lia|]. assert (p <> Done) by (intros ->; discriminate Ep). specialize (D2 eq_refl H). lia.
Qed.
Lemma far_4 p : (far p <= 4)%nat.
Proof. destruct p; cbn; lia. Qed.
Lemma far_0 p : far p = O -> p = Done.
Proof. destruct p; cbn; congruence. Qed.

(** join() when all are done *)
Lemma join_all n : forall s j, tidy s -> closers s = [] -> owner s = Joining j false -> ~ In Null (slots s) -> (forall w p, state_of s w = Some p -> p = Done) -> length (slots s) = (j + n)%nat ->
  exists s', run s (repeat (M_owner 0 true) (S n)) = Ok s' /\ log s' = Joined :: log s.
Proof.
  induction n as [|n IH]; intros s j T Hc Ho Hn Hd Hl.
  - cbn [repeat run step]. unfold owner_step, owner_closes. rewrite Hc, Ho. cbn [existsb]. rewrite (proj2 (nth_error_None (slots s) j)) by lia. eexists. split; reflexivity.
  - assert (Hj : exists x, nth_error (slots s) j = Some x) by (destruct (nth_error (slots s) j) eqn:E; [eauto|apply nth_error_None in E; lia]). destruct Hj as (x & Hx).
    assert (Ex : owner_step s 0 true = step s (M_owner 0 true)) by reflexivity.
    assert (St : exists s1, step s (M_owner 0 true) = Ok s1 /\ log s1 = log s /\ closers s1 = [] /\ owner s1 = Joining (S j) false /\ ~ In Null (slots s1) /\ (forall w p, state_of s1 w = Some p -> p = Done) /\ length (slots s1) = (S j + n)%nat).
    { cbn [step]. unfold owner_step, owner_closes. rewrite Hc, Ho, Hx. cbn [existsb]. destruct x as [|[w|]].
      - destruct (Hn (nth_error_In _ _ Hx)).
      - assert (Hw : exists h, nth_error (workers s) w = Some (Done, h)).
        { destruct (put_split _ _ _ Null Hx) as (E1 & _). pose proof (i_core _ (t_inv _ T)) as C. rewrite E1, pointers_app in C. destruct (proj1 (c_ptr _ _ C w)) as (p & Hp).
          - apply in_app_iff. right. now left.
          - exists Joinable. specialize (Hd w p). unfold state_of in Hd. rewrite Hp in Hd. now rewrite (Hd eq_refl) in Hp. }
        destruct Hw as (h & Hw). rewrite Hw. eexists. split; [reflexivity|]. cbn [log closers owner slots set_owner set_workers set_slots]. repeat split; auto; [now apply put_null| |rewrite put_length; lia].
        intros v p H. unfold state_of in H. cbn [workers set_owner set_workers] in H. rewrite put_nth in H by exact (nth_lt _ _ _ Hw). destruct (Nat.eqb v w); [now injection H as <-|exact (Hd v p H)].
      - eexists. split; [reflexivity|]. cbn [log closers owner slots set_owner]. repeat split; auto. lia. }
    destruct St as (s1 & E1 & L1 & C1 & O1 & N1 & D1 & K1). assert (T1 : tidy s1) by exact (tidy_step s (M_owner 0 true) s1 T I E1).
    destruct (IH s1 (S j) T1 C1 O1 N1 D1 K1) as (s2 & E2 & L2). exists s2. change (repeat (M_owner 0 true) (S (S n))) with (M_owner 0 true :: repeat (M_owner 0 true) (S n)). cbn [run]. rewrite E1. cbn [obind].
    split; [exact E2|congruence].
Qed.
(** stop() by the owner or anybody, to its end *)
Lemma stop_ends s : tidy s -> closers s = [] -> gone s = false -> owner s = Idle ->
  exists s', run s (M_stop :: repeat (M_close 0) 4) = Ok s' /\ stopped s' /\ owner s' = Idle /\ slots s' = slots s /\ workers s' = workers s /\ (forall e, In e (log s') -> In e (log s) \/ e = Shut_other) /\ (net s -> log s' = log s).
Proof.
  intros T Hc Hg Ho. cbn [repeat run step]. rewrite Hg. unfold begin_close. cbn [fd set_flag]. destruct (fd s <? 0) eqn:El.
  - cbn [obind]. unfold close_step. cbn [closers set_flag]. repeat (rewrite Hc; cbn [nth_error obind closers set_flag]).
    eexists. split; [reflexivity|]. apply Z.ltb_lt in El. split; [split; [reflexivity|]; split; [exact El|]; split; [exact Hc|]; split; [exact Hg|]; cbn; now rewrite Ho|]. cbn. auto 10.
  - cbn [obind]. unfold close_step. cbn [closers set_flag set_closers]. rewrite Hc. cbn [app nth_error gone set_closers set_flag]. rewrite Hg. cbn [obind put set_closers closers fd files set_flag].
    destruct (files s (fd s)) as [|l|] eqn:Ef; cbn [nth_error closers set_closers set_flag set_down gone put fd files]; rewrite Hg; cbn [obind nth_error closers set_closers put gone fd files set_flag set_down]; rewrite Hg;
      cbn [obind]; rewrite Ef; cbn [nth_error closers set_closers set_flag set_down set_file note gone put fd files firstn skipn app]; rewrite Hg; cbn [obind];
      (eexists; split; [reflexivity|]); (split; [|split; [exact Ho|split; [reflexivity|split; [reflexivity|split]]]]); cbn [log note set_closers set_fd set_file set_down set_flag]; auto.
    all: try (split; [reflexivity|]; split; [cbn; lia|]; split; [reflexivity|]; split; [exact Hg|]; cbn; now rewrite Ho).
    + intros e [<-|H]; [now right|now left].
    + intros N. destruct (n_theirs _ N _ Ef).
Qed.
Lemma started_done s w : tidy s -> In (Started w) (log s) -> exists p, state_of s w = Some p.
Proof. intros T H. pose proof (c_started _ _ (i_core _ (t_inv _ T)) w H) as L. apply nth_error_Some in L. unfold state_of. destruct (nth_error (workers s) w) as [x|]; [now exists (fst x)|congruence]. Qed.
(** As many as asked for *)
Lemma serving_bound s : tidy s -> no_more (log s).
Proof.
  intros T ws Hn Hs. pose proof (i_core _ (t_inv _ T)) as C.
  assert (I1 : incl ws (pointers (slots s))).
  { intros w Hw. rewrite Forall_forall in Hs. destruct (Hs w Hw) as (H1 & H2). apply (c_ptr _ _ C). pose proof (c_started _ _ C w H1) as L. apply nth_error_Some in L. destruct (nth_error (workers s) w) as [[p []]|] eqn:Ew; [now exists p| | |congruence].
    - rewrite (c_joined _ _ C w p Ew) in Ew. destruct (H2 (c_done _ _ C w _ Ew)).
    - destruct (t_left _ T w (c_left _ _ C w p Ew)). }
  pose proof (NoDup_incl_length Hn I1) as L. assert (Lp : forall l, (length (pointers l) <= length l)%nat).
  { induction l as [|x l IH]; [cbn; lia|]. cbn [pointers flat_map]. rewrite app_length. fold (pointers l). destruct x as [|[w|]]; cbn; lia. }
  specialize (Lp (slots s)). destruct (t_len _ T) as [E|E]; [rewrite E in L; cbn in L; lia|lia].
Qed.

(** ** What is noted *)
Lemma drops_log l : forall s, exists ws, log (drop_slots s l) = map Left ws ++ log s.
Proof.
  induction l as [|x l IH]; intros s; [now exists []|]. cbn [drop_slots fold_left]. destruct (IH (drop_slot s x)) as (ws & E).
  assert (K : exists us, log (drop_slot s x) = map Left us ++ log s).
  { destruct x as [|[w|]]; cbn [drop_slot]; try (now exists []). destruct (nth_error (workers s) w) as [[p h]|]; [now exists [w]|now exists []]. }
  destruct K as (us & K). exists (ws ++ us). rewrite map_app, <- app_assoc, <- K. exact E.
Qed.
Lemma begin_log s n sync : exists es, log (begin_run s n sync) = es ++ log s /\ ~ In Shut_other es /\ forall w, ~ In (Took w None) es.
Proof.
  unfold begin_run. destruct (_ || _); [exists [Running false]; cbn; split; [reflexivity|split; [|intros w]; intros [H|[]]; discriminate H]|]. cbv zeta.
  destruct (n <? 0); [exists [Thrown]; cbn; split; [reflexivity|split; [|intros w]; intros [H|[]]; discriminate H]|].
  destruct (drops_log (skipn (Z.to_nat n) (slots (set_flag s true))) (set_flag s true)) as (ws & E). exists (Asked (Z.to_nat n) :: map Left ws). unfold resize. cbn [log set_owner note set_slots]. rewrite E. split; [reflexivity|].
  split; [|intros w]; (intros [H|H]; [discriminate H|]; apply in_map_iff in H; destruct H as (v & H & _); discriminate H).
Qed.
Lemma close_log s own : log (begin_close s own) = log s.
Proof. unfold begin_close. now destruct (fd s <? 0). Qed.
Lemma step_log s m s' : net s -> orderly s m -> step s m = Ok s' -> exists es, log s' = es ++ log s /\ ~ In Shut_other es /\ forall w, ~ In (Took w None) es.
Proof.
  intros N O E.
  assert (Z0 : forall s1, log s1 = log s -> exists es, log s1 = es ++ log s /\ ~ In Shut_other es /\ forall w, ~ In (Took w None) es) by (intros s1 H; exists []; rewrite H; cbn; auto).
  assert (Z1 : forall s1 e, log s1 = e :: log s -> e <> Shut_other -> (forall w, e <> Took w None) -> exists es, log s1 = es ++ log s /\ ~ In Shut_other es /\ forall w, ~ In (Took w None) es).
  { intros s1 e H K1 K2. exists [e]. rewrite H. split; [reflexivity|]. split; [intros [K|[]]; contradiction|intros w [K|[]]; exact (K2 w K)]. }
  destruct m as [|n|n sync| | |f ok| |k|w a|f]; cbn [step orderly] in E, O.
  - injection E as <-. destruct (match owner s with Idle => _ | _ => _ end); apply Z0; [now rewrite close_log|reflexivity].
  - injection E as <-. destruct (match owner s with Idle => _ | _ => _ end); apply Z0; reflexivity.
  - injection E as <-. destruct (match owner s with Idle => _ | _ => _ end); [apply begin_log|now apply Z0].
  - injection E as <-. destruct (match owner s with Idle => _ | _ => _ end); apply Z0; reflexivity.
  - injection E as <-. destruct O as (Os & _). rewrite Os. destruct (match owner s with Idle => _ | _ => _ end); apply Z0; reflexivity.
  - unfold owner_step in E. destruct (owner_closes s) eqn:Ec; [injection E as <-; now apply Z0|].
    destruct (owner s) as [|k|g k|n i sync|i j|j sync] eqn:Eo.
    + injection E as <-. now apply Z0.
    + destruct (ok && (0 <=? f) && _); injection E as <-; [apply Z0; now rewrite close_log|apply (Z1 _ (Created false)); [reflexivity|discriminate|discriminate]].
    + injection E as <-. destruct k as [n|]; [|apply (Z1 _ (Created true)); [reflexivity|discriminate|discriminate]].
      destruct (begin_log (note (set_fd s g) (Created true)) n true) as (es & E1 & E2 & E3). exists (es ++ [Created true]). rewrite E1, <- app_assoc. split; [reflexivity|].
      split; [|intros w]; rewrite in_app_iff; (intros [H|[H|[]]]; [|discriminate H]); [exact (E2 H)|exact (E3 w H)].
    + destruct (Nat.eqb i n); [injection E as <-; destruct sync; [now apply Z0|apply (Z1 _ (Running true)); [reflexivity|discriminate|discriminate]]|].
      destruct (nth_error (slots s) i) as [old|] eqn:En; [|discriminate E]. destruct (drops_log [old] s) as (ws & Ed). cbn [drop_slots fold_left] in Ed.
      assert (Y : ~ In Shut_other (map Left ws) /\ forall w, ~ In (Took w None) (map Left ws)) by (split; [|intros w]; intros H; apply in_map_iff in H; destruct H as (v & H & _); discriminate H).
      destruct Y as (Y1 & Y2). destruct ok; injection E as <-.
      * eexists (Started _ :: map Left ws). cbn [log note set_owner set_workers set_slots]. rewrite Ed. split; [reflexivity|]. split; [|intros w]; (intros [H|H]; [discriminate H|]); [exact (Y1 H)|exact (Y2 w H)].
      * exists (map Left ws). rewrite close_log. cbn [log set_flag set_owner set_slots]. auto.
    + destruct (Nat.eqb j i); [injection E as <-; apply (Z1 _ Failed); [reflexivity|discriminate|discriminate]|].
      destruct (nth_error (slots s) j) as [[|[w|]]|] eqn:En; try discriminate E; [|injection E as <-; now apply Z0].
      destruct (nth_error (workers s) w) as [[[] h]|]; injection E as <-; now apply Z0.
    + destruct (nth_error (slots s) j) as [[|[w|]]|] eqn:En; try discriminate E; [|injection E as <-; now apply Z0|].
      * destruct (nth_error (workers s) w) as [[[] h]|]; injection E as <-; now apply Z0.
      * injection E as <-. destruct sync; [|apply (Z1 _ Joined); [reflexivity|discriminate|discriminate]].
        exists [Running true; Joined]. split; [reflexivity|]. split; [|intros w]; intros [H|[H|[]]]; discriminate H.
  - destruct (gone s); injection E as <-; apply Z0; [reflexivity|now rewrite close_log].
  - unfold close_step in E. destruct (nth_error (closers s) k) as [[own c]|]; [|injection E as <-; now apply Z0]. destruct (gone s); [discriminate E|]. cbv zeta in E.
    destruct c as [| |f|]; injection E as <-; apply Z0; try reflexivity.
    + now destruct (files s (fd s)).
    + destruct (files s f) eqn:Ef; try reflexivity. destruct (n_theirs _ N _ Ef).
  - unfold worker_step in E. destruct (nth_error (workers s) w) as [[p h]|] eqn:Ew; [|injection E as <-; now apply Z0].
    destruct p as [| |f|l| | | |]; [..|injection E as <-; now apply Z0]; (destruct (gone s) eqn:Eg; [discriminate E|]).
    + injection E as <-. destruct (flag s); [now apply Z0|apply (Z1 _ (Ended w)); [reflexivity|discriminate|discriminate]].
    + injection E as <-. now apply Z0.
    + injection E as <-. now apply Z0.
    + destruct (n_wait _ N w l h Ew) as (l' & -> & _). destruct (down s l'); [injection E as <-; now apply Z0|]. destruct a; injection E as <-; try (now apply Z0).
      apply (Z1 _ (Took w (Some l'))); [reflexivity|discriminate|discriminate].
    + injection E as <-. destruct (flag s); now apply Z0.
    + destruct a as [| |[]|]; injection E as <-; now apply Z0.
    + injection E as <-. now apply Z0.
  - contradiction.
Qed.
Lemma safe_step s m : tidy s -> orderly s m -> ~ In Failed (log s) -> exists s', step s m = Ok s'.
Proof.
  intros T O F. destruct m as [|n|n sync| | |f ok| |k|w a|f]; cbn [step]; try (eexists; reflexivity).
  - unfold owner_step. destruct (owner_closes s); [eexists; reflexivity|]. pose proof (t_shape _ T) as Q. destruct (owner s) as [|k|g k|n i sync|i j|j sync]; try (eexists; reflexivity).
    + match goal with |- context [if ?b then _ else _] => destruct b end; eexists; reflexivity.
    + destruct (Nat.eqb_spec i n) as [|D]; [eexists; reflexivity|]. destruct Q as (a & Ea & La & Hin & _). destruct (nth_error (slots s) i) as [old|] eqn:En; [destruct ok; eexists; reflexivity|].
      exfalso. apply nth_error_None in En. rewrite Ea, app_length, repeat_length in En. lia.
    + destruct (Nat.eqb_spec j i) as [|D]; [eexists; reflexivity|]. destruct Q as (a & b & Ea & La & Na & Hj). destruct (nth_error (slots s) j) as [[|[w|]]|] eqn:En.
      * exfalso. rewrite Ea, nth_error_app1 in En by lia. exact (Na (nth_error_In _ _ En)).
      * destruct (nth_error (workers s) w) as [[[] h]|]; eexists; reflexivity.
      * eexists; reflexivity.
      * exfalso. apply nth_error_None in En. rewrite Ea, app_length in En. lia.
    + destruct (nth_error (slots s) j) as [[|[w|]]|] eqn:En; [exfalso; exact (F (Q (nth_error_In _ _ En)))| |eexists; reflexivity..]. destruct (nth_error (workers s) w) as [[[] h]|]; eexists; reflexivity.
  - destruct (gone s); eexists; reflexivity.
  - unfold close_step. destruct (nth_error (closers s) k) as [[own c]|] eqn:En; [|eexists; reflexivity]. destruct (gone s) eqn:Eg.
    + destruct (t_gone _ T Eg) as (_ & Hc & _). rewrite Hc in En. destruct k; discriminate En.
    + cbv zeta. destruct c; eexists; reflexivity.
  - unfold worker_step. destruct (nth_error (workers s) w) as [[p h]|] eqn:En; [|eexists; reflexivity]. destruct (gone s) eqn:Eg.
    + destruct (t_gone _ T Eg) as (Hs & _). rewrite (all_done s w p h T Hs En). eexists; reflexivity.
    + destruct p as [| |f|l| | | |]; try (eexists; reflexivity).
      * match goal with |- context [if ?b then _ else _] => destruct b end; [eexists; reflexivity|destruct a; eexists; reflexivity].
      * destruct a as [| |[]|]; eexists; reflexivity.
Qed.
(** Threads that exist have been noted *)
Lemma started_in s m s' : (forall v, (v < length (workers s))%nat -> In (Started v) (log s)) -> step s m = Ok s' -> forall v, (v < length (workers s'))%nat -> In (Started v) (log s').
Proof.
  intros H E.
  assert (Q : forall s1, length (workers s1) = length (workers s) -> (forall e, In e (log s) -> In e (log s1)) -> forall v, (v < length (workers s1))%nat -> In (Started v) (log s1)).
  { intros s1 L G v Hv. apply G, H. lia. }
  assert (D : forall l x, length (workers (drop_slots x l)) = length (workers x) /\ forall e, In e (log x) -> In e (log (drop_slots x l))).
  { intros l x. destruct (drops_frame l x) as (_ & _ & _ & _ & _ & _ & _ & _ & _ & L & _). destruct (drops_log l x) as (ws & G). split; [exact L|]. intros e He. rewrite G. apply in_app_iff. now right. }
  assert (B : forall x n sync, length (workers (begin_run x n sync)) = length (workers x) /\ forall e, In e (log x) -> In e (log (begin_run x n sync))).
  { intros x n sync. unfold begin_run. destruct (_ || _); [cbn; auto|]. cbv zeta. destruct (n <? 0); [cbn; auto|]. unfold resize. cbn [workers log set_owner note set_slots].
    destruct (D (skipn (Z.to_nat n) (slots (set_flag x true))) (set_flag x true)) as (L & G). split; [exact L|]. intros e He. right. now apply G. }
  destruct m as [|n|n sync| | |f ok| |k|w a|f]; cbn [step] in E.
  - injection E as <-. destruct (match owner s with Idle => _ | _ => _ end); [|exact H]. apply Q; unfold begin_close; destruct (fd _ <? 0); auto.
  - injection E as <-. destruct (match owner s with Idle => _ | _ => _ end); exact H.
  - injection E as <-. destruct (match owner s with Idle => _ | _ => _ end); [|exact H]. destruct (B s n sync). now apply Q.
  - injection E as <-. destruct (match owner s with Idle => _ | _ => _ end); exact H.
  - injection E as <-. destruct (match owner s with Idle => _ | _ => _ end); [|exact H]. destruct (D (slots s) (set_slots s [])). now apply Q.
  - unfold owner_step in E. destruct (owner_closes s) eqn:Ec; [injection E as <-; exact H|].
    destruct (owner s) as [|k|g k|n i sync|i j|j sync] eqn:Eo.
    + injection E as <-. exact H.
    + destruct (ok && (0 <=? f) && _); injection E as <-; [apply Q; unfold begin_close; destruct (fd _ <? 0); auto|apply Q; cbn; auto].
    + injection E as <-. destruct k as [n|]; [|apply Q; cbn; auto]. destruct (B (note (set_fd s g) (Created true)) n true) as (L & G). apply Q; [exact L|]. intros e He. apply G. now right.
    + destruct (Nat.eqb i n); [injection E as <-; destruct sync; apply Q; cbn; auto|].
      destruct (nth_error (slots s) i) as [old|] eqn:En; [|discriminate E]. destruct (D [old] s) as (L & G). cbn [drop_slots fold_left] in L, G. destruct ok; injection E as <-.
      * cbn [workers log note set_owner set_workers set_slots]. intros v Hv. rewrite app_length in Hv. cbn in Hv. destruct (Nat.eq_dec v (length (workers (drop_slot s old)))) as [->|Dv]; [now left|right]. apply G, H. lia.
      * apply Q; unfold begin_close; destruct (fd _ <? 0); auto.
    + destruct (Nat.eqb j i); [injection E as <-; apply Q; cbn; auto|].
      destruct (nth_error (slots s) j) as [[|[w|]]|] eqn:En; try discriminate E; [|injection E as <-; now apply Q].
      destruct (nth_error (workers s) w) as [[[] h]|]; injection E as <-; try exact H. apply Q; [cbn; now rewrite put_length|auto].
    + destruct (nth_error (slots s) j) as [[|[w|]]|] eqn:En; try discriminate E; [|injection E as <-; now apply Q|].
      * destruct (nth_error (workers s) w) as [[[] h]|]; injection E as <-; try exact H. apply Q; [cbn; now rewrite put_length|auto].
      * injection E as <-. destruct sync; apply Q; cbn; auto.
  - destruct (gone s); injection E as <-; [exact H|]. apply Q; unfold begin_close; destruct (fd _ <? 0); auto.
  - unfold close_step in E. destruct (nth_error (closers s) k) as [[own c]|]; [|injection E as <-; exact H]. destruct (gone s); [discriminate E|]. cbv zeta in E.
    destruct c as [| |f|]; injection E as <-; apply Q; cbn; auto; [destruct (files s (fd s)); auto..|destruct (files s f); auto|destruct (files s f); cbn; auto].
  - unfold worker_step in E. destruct (nth_error (workers s) w) as [[p h]|] eqn:Ew; [|injection E as <-; exact H].
    destruct p as [| |f|l| | | |]; [..|injection E as <-; exact H]; (destruct (gone s) eqn:Eg; [discriminate E|]); cbv zeta in E; destruct (flag s); try destruct l as [l|]; try destruct (down s l); destruct a as [| |[]|];
      injection E as <-; try exact H; (apply Q; cbn; rewrite ?put_length; auto).
  - injection E as <-. destruct (files s f); try exact H. destruct (0 <=? f); exact H.
Qed.
