From Verif Require Import Common RpcStop_Spec RpcStop_Model.
Local Open Scope Z_scope.

Definition count (p : wpc -> bool) (l : list wpc) : nat := length (filter p l).
Definition b2n (b : bool) : nat := if b then 1%nat else 0%nat.
Definition alive (x : wpc) : bool := match x with Notifying | Done => false | _ => true end.
Definition looping (x : wpc) : bool := match x with Check | Accept | Serving => true | _ => false end.

Lemma count_put p y : forall l w x, nth_error l w = Some x -> (count p (put l w y) + b2n (p x) = count p l + b2n (p y))%nat.
Proof.
  unfold count. induction l as [|z l IH]; intros [|w] x E; try discriminate; cbn [nth_error] in E; cbn [put filter].
  - injection E as ->. destruct (p x), (p y); cbn [length b2n]; lia.
  - specialize (IH w x E). destruct (p z); cbn [length]; lia.
Qed.
Lemma put_length y : forall l w, length (put l w y) = length l.
Proof. induction l as [|z l IH]; intros [|w]; cbn [put length]; auto. Qed.
Lemma count_app p a b : count p (a ++ b) = (count p a + count p b)%nat.
Proof. unfold count. now rewrite filter_app, app_length. Qed.
Lemma count_repeat p x n : count p (repeat x n) = if p x then n else 0%nat.
Proof. unfold count. induction n as [|n IH]; cbn [repeat filter]; destruct (p x); cbn [length] in *; lia. Qed.
Lemma put_in y : forall l w x, nth_error l w = Some x -> nth_error (put l w y) w = Some y.
Proof. induction l as [|z l IH]; intros [|w] x E; try discriminate; cbn in *; [reflexivity|eauto]. Qed.
Lemma put_other y : forall l w v, v <> w -> nth_error (put l w y) v = nth_error l v.
Proof. induction l as [|z l IH]; intros [|w] [|v] H; cbn; try congruence. apply IH. congruence. Qed.
Lemma count_pos p : forall l, (0 < count p l)%nat -> exists w x, nth_error l w = Some x /\ p x = true.
Proof.
  unfold count. induction l as [|z l IH]; cbn [filter]; [cbn; lia|]. intros H. destruct (p z) eqn:E; [now exists 0%nat, z|].
  destruct (IH H) as (w & x & Hw & Hx). now exists (S w), x.
Qed.
Lemma count_zero p l w x : count p l = 0%nat -> nth_error l w = Some x -> p x = false.
Proof.
  unfold count. revert w. induction l as [|z l IH]; intros [|w] H E; try discriminate; cbn [nth_error filter] in *; destruct (p z) eqn:Ez; try discriminate.
  - now injection E as <-.
  - eauto.
Qed.
Lemma alive_looping l : (count looping l <= count alive l)%nat.
Proof. unfold count. induction l as [|z l IH]; [auto|]. cbn [filter]. destruct z; cbn [looping alive length]; lia. Qed.

(** ** What always holds *)
Record inv (s : server) : Prop := {
  i_run : running s = Z.of_nat (count alive (workers s));
  i_started : started (log s) = length (workers s);
  i_left : (left_loop (log s) + count looping (workers s) = length (workers s))%nat;
  i_fin : (finished (log s) + count alive (workers s) = length (workers s))%nat;
  i_stop : state s = STOPPED -> count alive (workers s) = 0%nat;
  i_not : state s <> STOPPED -> (forall k, In (Start k) (log s) -> (0 < k)%nat) -> (0 < count alive (workers s))%nat;
  i_log1 : stopped_means_left (log s);
  i_log2 : not_stopped_means_some (log s)
}.
Lemma log1_cons e l : stopped_means_left l -> ((e = Is_stopped true \/ exists j, e = Returns j) -> left_loop l = started l /\ finished l = started l) ->
  stopped_means_left (e :: l).
Proof.
  intros H He post x pre E Hx. destruct post as [|y post]; cbn [app] in E; injection E as -> ->; [auto|]. now apply (H post x pre).
Qed.
Lemma log2_cons e l : not_stopped_means_some l -> (e = Is_stopped false -> (forall k, In (Start k) l -> (0 < k)%nat) -> (finished l < started l)%nat) ->
  not_stopped_means_some (e :: l).
Proof. intros H He post pre E Hs. destruct post as [|y post]; cbn [app] in E; injection E as -> ->; [auto|]. now apply (H post pre). Qed.

Lemma inv_fresh : inv fresh.
Proof.
  split; cbn; try reflexivity; try congruence; intros post; intros; destruct post; discriminate.
Qed.

Lemma inv_same s s' : inv s -> state s' = state s -> running s' = running s -> log s' = log s -> length (workers s') = length (workers s) ->
  count alive (workers s') = count alive (workers s) -> count looping (workers s') = count looping (workers s) -> inv s'.
Proof. intros [H1 H2 H3 H4 H5 H6 H7 H8] E1 E2 E3 E4 E5 E6. split; rewrite ?E1, ?E2, ?E3, ?E4, ?E5, ?E6; auto. Qed.

Ltac counts E y := 
  let Ca := fresh "Ca" in let Cl := fresh "Cl" in
  pose proof (count_put alive y _ _ _ E) as Ca; pose proof (count_put looping y _ _ _ E) as Cl; cbn [alive looping b2n] in Ca, Cl.

Lemma inv_test s j : inv s -> inv (test_stopped s j).
Proof.
  intros H. pose proof H as [H1 H2 H3 H4 H5 H6 H7 H8]. unfold test_stopped, is_stopped. pose proof (alive_looping (workers s)) as L.
  destruct (state s) eqn:Es; unfold with_waiter; split; cbn [state running log workers app started left_loop finished]; rewrite ?Es; try assumption; try congruence.
  all: try (intros _ Hs; apply H6; [congruence|]; intros k Hk; apply Hs; now right).
  all: try (apply log2_cons; [exact H8|discriminate]).
  all: apply log1_cons; [exact H7|]; intros [Q|[? Q]]; try discriminate.
  all: specialize (H5 eq_refl); lia.
Qed.

Lemma inv_step s m : inv s -> inv (step s m).
Proof.
  intros H. pose proof H as [H1 H2 H3 H4 H5 H6 H7 H8]. pose proof (alive_looping (workers s)) as L. destruct m as [k n|i|w| | |w ok|w j|j|j|j]; cbn [step].
  - destruct (lock s) as [p|]; cbn [orb]; [exact H|]. destruct (Nat.ltb_spec n k); [exact H|].
    split; cbn [state running log workers started left_loop finished]; rewrite ?count_app, ?count_repeat, ?app_length, ?repeat_length; cbn [alive looping]; try lia; try congruence.
    + intros _ Hs. specialize (Hs k (or_introl eq_refl)). lia.
    + apply log1_cons; [exact H7|]. intros [Q|[? Q]]; discriminate.
    + apply log2_cons; [exact H8|discriminate].
  - destruct (lock s) as [p|]; cbn [orb]; [exact H|]. unfold is_running. destruct (state s) eqn:Es; cbn [negb]; try exact H.
    split; cbn [state running log workers started left_loop finished]; try assumption; try congruence.
    + intros _ Hs. apply H6; [congruence|]. intros k Hk. apply Hs. now right.
    + apply log1_cons; [exact H7|]. intros [Q|[? Q]]; discriminate.
    + apply log2_cons; [exact H8|discriminate].
  - destruct (lock s) as [[i [|k]]|]; try exact H. destruct w as [w|].
    + destruct (nth_error (workers s) w) as [x|] eqn:E; [|exact H]. destruct x; try exact H. counts E Check.
      apply (inv_same s); cbn [with_lock with_workers with_waiter state running log workers]; rewrite ?put_length; auto; lia.
    + now apply (inv_same s).
  - destruct (lock s); [|exact H]. now apply (inv_same s).
  - destruct (lock s) as [p|]; [exact H|].
    split; cbn [state running log workers started left_loop finished]; try assumption.
    + intros Hn Hs. apply H6; [exact Hn|]. intros k Hk. apply Hs. now right.
    + apply log1_cons; [exact H7|]. unfold is_stopped. intros [Q|[? Q]]; [|discriminate]. destruct (state s) eqn:Es; try discriminate. specialize (H5 eq_refl). lia.
    + apply log2_cons; [exact H8|]. unfold is_stopped. intros Q Hs. assert (Hn : state s <> STOPPED) by (destruct (state s); congruence). specialize (H6 Hn Hs). lia.
  - destruct (nth_error (workers s) w) as [x|] eqn:E; [|exact H]. destruct x; try exact H.
    + destruct (lock s) as [p|]; [exact H|]. unfold is_running. destruct (state s) eqn:Es.
      * counts E Leaving. specialize (H5 eq_refl). exfalso. lia.
      * counts E Accept. apply (inv_same s); cbn [with_lock with_workers with_waiter state running log workers]; rewrite ?put_length; auto; lia.
      * counts E Leaving. split; cbn [state running log workers started left_loop finished]; rewrite ?put_length; try lia; try congruence.
        -- apply log1_cons; [exact H7|]. intros [Q|[? Q]]; discriminate.
        -- apply log2_cons; [exact H8|discriminate].
    + destruct ok; [counts E Serving|counts E Check]; apply (inv_same s); cbn [with_lock with_workers with_waiter state running log workers]; rewrite ?put_length; auto; lia.
    + counts E Check; apply (inv_same s); cbn [with_lock with_workers with_waiter state running log workers]; rewrite ?put_length; auto; lia.
    + destruct (lock s) as [p|]; [exact H|]. unfold leave. destruct (Z.ltb_spec 0 (running s - 1)) as [Hp|Hp].
      * counts E Done. split; cbn [state running log workers started left_loop finished]; rewrite ?put_length; try lia.
        -- apply log1_cons; [exact H7|]. intros [Q|[? Q]]; discriminate.
        -- apply log2_cons; [exact H8|discriminate].
      * counts E Notifying. split; cbn [state running log workers started left_loop finished]; rewrite ?put_length; try lia; try congruence.
        -- apply log1_cons; [exact H7|]. intros [Q|[? Q]]; discriminate.
        -- apply log2_cons; [exact H8|discriminate].
  - destruct (nth_error (workers s) w) as [x|] eqn:E; [|exact H]. destruct x; try exact H. destruct (waiter s j); try exact H.
    counts E Done. apply (inv_same s); cbn [with_lock with_workers with_waiter state running log workers]; rewrite ?put_length; auto; lia.
  - destruct (waiter s j); try exact H. destruct (lock s) as [p|]; [exact H|]. now apply inv_test.
  - destruct (waiter s j); try exact H. destruct (lock s) as [p|]; [exact H|]. now apply inv_test.
  - destruct (waiter s j); try exact H. now apply (inv_same s).
Qed.
Lemma inv_nobody s w : inv s -> nth_error (workers s) w = Some Notifying -> inv (with_workers s (put (workers s) w Done)).
Proof. intros H E. counts E Done. apply (inv_same s); cbn [with_lock with_workers with_waiter state running log workers]; rewrite ?put_length; auto; lia. Qed.
Lemma inv_steps s ms s' : steps s ms s' -> inv s -> inv s'.
Proof. induction 1 as [s|s m s' ms _ IH|s w s' ms E _ _ IH]; intros H; [exact H|apply IH; now apply inv_step|apply IH; now apply inv_nobody]. Qed.

(** ** One waiter *)
Definition only (j : nat) (m : move) : Prop := match m with M_wait i => i = j | _ => True end.
Record one (j : nat) (s : server) : Prop := {
  o_out : forall i, i <> j -> waiter s i = Outside;
  o_note : state s = STOPPED -> waiter s j = Asleep -> exists w, nth_error (workers s) w = Some Notifying
}.
Lemma set_same {T} (f : nat -> T) i x : set f i x i = x.
Proof. unfold set. now rewrite Nat.eqb_refl. Qed.
Lemma set_other {T} (f : nat -> T) i x k : k <> i -> set f i x k = f k.
Proof. unfold set. destruct (Nat.eqb_spec k i); congruence. Qed.
Lemma notifying_put l w x y v : nth_error l w = Some x -> x <> Notifying -> nth_error l v = Some Notifying -> nth_error (put l w y) v = Some Notifying.
Proof. intros E Hx Hv. rewrite put_other; [exact Hv|]. intros ->. congruence. Qed.

Lemma one_test j s i : one j s -> (i <> j -> waiter s i <> Outside) -> one j (test_stopped s i).
Proof.
  intros [Ho Hn] Hi. assert (i = j) as -> by (destruct (Nat.eq_dec i j) as [|N]; [assumption|]; exfalso; now apply Hi, Ho).
  unfold test_stopped, is_stopped. destruct (state s) eqn:Es; unfold with_waiter; split; cbn [waiter state workers]; rewrite ?set_same; try congruence.
  all: intros i Hi'; rewrite set_other by exact Hi'; now apply Ho.
Qed.
Lemma one_keep j s s' : one j s -> waiter s' = waiter s -> (state s' = STOPPED -> state s = STOPPED) ->
  (forall v, nth_error (workers s) v = Some Notifying -> exists v', nth_error (workers s') v' = Some Notifying) -> one j s'.
Proof.
  intros [Ho Hn] Ew Es Hw. split; rewrite Ew; [exact Ho|]. intros Hs Ha. destruct (Hn (Es Hs) Ha) as (v & Hv). eauto.
Qed.
Lemma one_step j s m : one j s -> only j m -> one j (step s m).
Proof.
  intros H Hm. pose proof H as [Ho Hn]. destruct m as [k n|i|w| | |w ok|w i|i|i|i]; cbn [step].
  - destruct (lock s) as [p|]; cbn [orb]; [exact H|]. destruct (Nat.ltb_spec n k); [exact H|]. apply (one_keep j s); cbn; auto; try discriminate.
    intros v Hv. exists v. rewrite nth_error_app1; [exact Hv|]. apply nth_error_Some. congruence.
  - destruct (lock s) as [p|]; cbn [orb]; [exact H|]. destruct (negb (is_running s)); [exact H|]. apply (one_keep j s); cbn; eauto. discriminate.
  - destruct (lock s) as [[i [|k]]|]; try exact H. destruct w as [w|].
    + destruct (nth_error (workers s) w) as [x|] eqn:E; [|exact H]. destruct x; try exact H.
      apply (one_keep j s); cbn; auto. intros v Hv. exists v. now apply (notifying_put _ _ _ _ _ E).
    + apply (one_keep j s); cbn; eauto.
  - destruct (lock s); [|exact H]. apply (one_keep j s); cbn; eauto.
  - destruct (lock s) as [p|]; [exact H|]. apply (one_keep j s); cbn; eauto.
  - destruct (nth_error (workers s) w) as [x|] eqn:E; [|exact H]. destruct x; try exact H.
    + destruct (lock s) as [p|]; [exact H|]. destruct (is_running s); apply (one_keep j s); cbn; auto; intros v Hv; exists v; now apply (notifying_put _ _ _ _ _ E).
    + apply (one_keep j s); cbn; auto; intros v Hv; exists v; now apply (notifying_put _ _ _ _ _ E).
    + apply (one_keep j s); cbn; auto; intros v Hv; exists v; now apply (notifying_put _ _ _ _ _ E).
    + destruct (lock s) as [p|]; [exact H|]. unfold leave. destruct (Z.ltb_spec 0 (running s - 1)) as [Hp|Hp].
      * apply (one_keep j s); cbn; auto; intros v Hv; exists v; now apply (notifying_put _ _ _ _ _ E).
      * split; cbn [waiter state workers]; [exact Ho|]. intros _ _. exists w. now apply (put_in _ _ _ Leaving).
  - destruct (nth_error (workers s) w) as [x|] eqn:E; [|exact H]. destruct x; try exact H. destruct (waiter s i) eqn:Ei; try exact H.
    assert (i = j) as -> by (destruct (Nat.eq_dec i j) as [|N]; [assumption|]; rewrite (Ho i N) in Ei; discriminate).
    split; cbn; rewrite ?set_same; try congruence. intros i Hi. rewrite set_other by exact Hi. now apply Ho.
  - cbn in Hm. subst i. destruct (waiter s j) eqn:Ej; try exact H. destruct (lock s) as [p|]; [exact H|]. apply one_test; congruence.
  - destruct (waiter s i) eqn:Ei; try exact H. destruct (lock s) as [p|]; [exact H|]. apply one_test; congruence.
  - destruct (waiter s i) eqn:Ei; try exact H.
    assert (i = j) as -> by (destruct (Nat.eq_dec i j) as [|N]; [assumption|]; rewrite (Ho i N) in Ei; discriminate).
    split; cbn; rewrite ?set_same; try congruence. intros i Hi. rewrite set_other by exact Hi. now apply Ho.
Qed.
Lemma one_steps j s ms s' : steps s ms s' -> Forall (only j) ms -> one j s -> one j s'.
Proof.
  induction 1 as [s|s m s' ms _ IH|s w s' ms E Hn _ IH]; intros Hm H; [exact H| |].
  - inversion Hm; subst. apply IH; [assumption|]. now apply one_step.
  - apply IH; [exact Hm|]. destruct H as [Ho Hw]. split; cbn [waiter with_workers]; [exact Ho|]. intros _ Ha. now apply Hn in Ha.
Qed.

(** ** Nobody is left to notify *)
Definition no_start (m : move) : Prop := match m with M_start _ _ => False | _ => True end.
Definition no_spurious (j : nat) (m : move) : Prop := match m with M_spurious i => i <> j | _ => True end.
Definition over (j : nat) (s : server) : Prop := Forall (eq Done) (workers s) /\ waiter s j = Asleep.
Lemma over_step j s m : over j s -> no_start m -> no_spurious j m -> over j (step s m).
Proof.
  intros [Hd Ha] Hs Hp. assert (D : forall w x, nth_error (workers s) w = Some x -> x = Done).
  { intros w x E. rewrite Forall_forall in Hd. symmetry. apply Hd. now apply nth_error_In in E. }
  assert (T : forall i, i <> j -> over j (test_stopped s i)).
  { intros i Hi. unfold test_stopped. destruct (is_stopped s); (split; [exact Hd|]); cbn [with_waiter waiter]; now rewrite set_other by congruence. }
  destruct m as [k n|i|w| | |w ok|w i|i|i|i]; cbn [step].
  - contradiction.
  - destruct (lock s); cbn [orb]; [now split|]. destruct (negb (is_running s)); now split.
  - destruct (lock s) as [[i [|k]]|]; try now split. destruct w as [w|]; [|now split].
    destruct (nth_error (workers s) w) as [x|] eqn:E; [|now split]. apply D in E. subst x. now split.
  - destruct (lock s); now split.
  - destruct (lock s); now split.
  - destruct (nth_error (workers s) w) as [x|] eqn:E; [|now split]. apply D in E. subst x. now split.
  - destruct (nth_error (workers s) w) as [x|] eqn:E; [|now split]. apply D in E. subst x. now split.
  - destruct (Nat.eq_dec i j) as [->|N]; [rewrite Ha; now split|]. destruct (waiter s i); try now split. destruct (lock s); [now split|now apply T].
  - destruct (Nat.eq_dec i j) as [->|N]; [rewrite Ha; now split|]. destruct (waiter s i); try now split. destruct (lock s); [now split|now apply T].
  - cbn in Hp. destruct (waiter s i); try now split. split; [exact Hd|]. cbn [with_waiter waiter]. now rewrite set_other by congruence.
Qed.
Lemma over_steps j s ms s' : steps s ms s' -> Forall no_start ms -> Forall (no_spurious j) ms -> over j s -> over j s'.
Proof.
  induction 1 as [s|s m s' ms _ IH|s w s' ms E Hn _ IH]; intros H1 H2 H; [exact H| |].
  - inversion H1; inversion H2; subst. apply IH; [assumption|assumption|]. now apply over_step.
  - destruct H as [Hd Ha]. now apply Hn in Ha.
Qed.

(** ** No worker *)
Definition idle (s : server) : Prop := workers s = [] /\ state s <> STOPPED /\ forall j, ~ In (Returns j) (log s).
Lemma idle_test s j : idle s -> idle (test_stopped s j).
Proof.
  intros (Hw & Hs & Hl). unfold test_stopped, is_stopped. destruct (state s) eqn:Es; [congruence| |]; (split; [exact Hw|]); (split; [cbn; congruence|]);
    cbn [with_waiter log app]; intros i [Q|Q]; try discriminate; now apply (Hl i).
Qed.
Lemma idle_step s m : idle s -> no_start m -> idle (step s m).
Proof.
  intros H Hm. pose proof H as (Hw & Hs & Hl). assert (W : forall w, nth_error (workers s) w = None) by (intros w; rewrite Hw; now destruct w).
  destruct m as [k n|i|w| | |w ok|w i|i|i|i]; cbn [step]; rewrite ?W; try exact H.
  - contradiction.
  - destruct (lock s); cbn [orb]; [exact H|]. destruct (negb (is_running s)); [exact H|]. split; [exact Hw|]. split; [discriminate|].
    cbn [log]. intros j [Q|Q]; [discriminate|now apply (Hl j)].
  - destruct (lock s) as [[i [|k]]|]; try exact H. destruct w as [w|]; rewrite ?W; exact H.
  - destruct (lock s); exact H.
  - destruct (lock s); [exact H|]. split; [exact Hw|]. split; [exact Hs|]. cbn [log]. intros j [Q|Q]; [discriminate|now apply (Hl j)].
  - destruct (waiter s i); try exact H. destruct (lock s); [exact H|now apply idle_test].
  - destruct (waiter s i); try exact H. destruct (lock s); [exact H|now apply idle_test].
  - destruct (waiter s i); exact H.
Qed.
Lemma idle_steps s ms s' : steps s ms s' -> Forall no_start ms -> idle s -> idle s'.
Proof.
  induction 1 as [s|s m s' ms _ IH|s w s' ms E Hn _ IH]; intros H1 H; [exact H| |].
  - inversion H1; subst. apply IH; [assumption|]. now apply idle_step.
  - destruct H as (Hw & _). rewrite Hw in E. now destruct w.
Qed.

(** ** The server can always be stopped *)
Lemma steps_app s a s1 b s2 : steps s a s1 -> steps s1 b s2 -> steps s (a ++ b) s2.
Proof.
  induction 1 as [s|s m s' ms _ IH|s w s' ms E Hn _ IH]; intros H; [exact H| |].
  - constructor. now apply IH.
  - eapply steps_nobody; eauto.
Qed.
Lemma unlock_lemma : forall k s i, lock s = Some (i, k) -> exists ms s', steps s ms s' /\ Forall no_start ms /\ lock s' = None /\ state s' = state s /\
  running s' = running s /\ workers s' = workers s.
Proof.
  induction k as [|k IH]; intros s i E.
  - exists [M_unlock], (with_lock s None). split; [|split; [repeat constructor|now repeat split]].
    constructor. cbn [step]. rewrite E. constructor.
  - destruct (IH (with_lock s (Some (i, k))) i eq_refl) as (ms & s' & Hs & Hn & H). exists (M_exit None :: ms), s'.
    split; [constructor; cbn [step]; rewrite E; exact Hs|]. split; [now constructor|exact H].
Qed.
Lemma unlocked s : exists ms s', steps s ms s' /\ Forall no_start ms /\ lock s' = None /\ state s' = state s /\ running s' = running s /\ workers s' = workers s.
Proof.
  destruct (lock s) as [[i k]|] eqn:E; [now apply (unlock_lemma k s i)|]. exists [], s. split; [constructor|]. split; [constructor|now repeat split].
Qed.
Definition weight (x : wpc) : nat := match x with Check => 2 | Accept | Serving => 3 | Leaving => 1 | _ => 0 end.
Definition total (l : list wpc) : nat := fold_right (fun x n => (weight x + n)%nat) 0%nat l.
Lemma total_put y : forall l w x, nth_error l w = Some x -> (total (put l w y) + weight x = total l + weight y)%nat.
Proof.
  induction l as [|z l IH]; intros [|w] x E; try discriminate; cbn [nth_error] in E; cbn [put total fold_right].
  - injection E as ->. lia.
  - specialize (IH w x E). unfold total in IH. lia.
Qed.
Lemma drain : forall n s, (total (workers s) <= n)%nat -> lock s = None -> state s = STOPPING -> running s = Z.of_nat (count alive (workers s)) ->
  (0 < count alive (workers s))%nat -> exists ms s', steps s ms s' /\ Forall no_start ms /\ state s' = STOPPED.
Proof.
  induction n as [|n IH]; intros s Hn Hl Hs Hr Hc.
  - destruct (count_pos _ _ Hc) as (w & x & E & Hx). pose proof (total_put Done _ _ _ E). destruct x; cbn [weight alive] in *; try discriminate; lia.
  - destruct (count_pos _ _ Hc) as (w & x & E & Hx).
    assert (go : forall y, (weight y < weight x)%nat -> alive y = true -> step s (M_worker w false) = with_workers s (put (workers s) w y) \/
        (workers (step s (M_worker w false)) = put (workers s) w y /\ lock (step s (M_worker w false)) = None /\ state (step s (M_worker w false)) = STOPPING /\
         running (step s (M_worker w false)) = running s) ->
        exists ms s', steps s ms s' /\ Forall no_start ms /\ state s' = STOPPED).
    { intros y Hy Ha G. pose proof (total_put y _ _ _ E) as T. pose proof (count_put alive y _ _ _ E) as C. rewrite Hx, Ha in C.
      assert (G' : workers (step s (M_worker w false)) = put (workers s) w y /\ lock (step s (M_worker w false)) = None /\ state (step s (M_worker w false)) = STOPPING /\
         running (step s (M_worker w false)) = running s) by (destruct G as [->|G]; [now repeat split|exact G]). destruct G' as (G1 & G2 & G3 & G4).
      destruct (IH (step s (M_worker w false))) as (ms & s' & H1 & H2 & H3); try assumption; rewrite ?G1, ?G4; try lia.
      exists (M_worker w false :: ms), s'. split; [now constructor|]. split; [now constructor|exact H3]. }
    destruct x; try discriminate.
    + apply (go Leaving); [cbn; lia|reflexivity|]. right. cbn [step]. rewrite E, Hl. unfold is_running. rewrite Hs. now repeat split.
    + apply (go Check); [cbn; lia|reflexivity|]. left. cbn [step]. now rewrite E.
    + apply (go Check); [cbn; lia|reflexivity|]. left. cbn [step]. now rewrite E.
    + pose proof (total_put Done _ _ _ E) as T. pose proof (count_put alive Done _ _ _ E) as C. cbn [alive b2n weight] in T, C.
      destruct (Z.ltb_spec 0 (running s - 1)) as [Hp|Hp].
      * destruct (IH (step s (M_worker w false))) as (ms & s' & H1 & H2 & H3); try (cbn [step]; rewrite E, Hl; unfold leave; destruct (Z.ltb_spec 0 (running s - 1)); [|lia]; cbn [workers lock state running]; lia || assumption).
        exists (M_worker w false :: ms), s'. split; [now constructor|]. split; [now constructor|exact H3].
      * exists [M_worker w false], (step s (M_worker w false)). split; [repeat constructor|]. split; [repeat constructor|].
        cbn [step]. rewrite E, Hl. unfold leave. destruct (Z.ltb_spec 0 (running s - 1)); [lia|reflexivity].
Qed.
Lemma stoppable s : inv s -> (0 < count alive (workers s))%nat -> exists ms s', steps s ms s' /\ Forall no_start ms /\ state s' = STOPPED.
Proof.
  intros Hi Hc. destruct (unlocked s) as (ms1 & s1 & H1 & N1 & L1 & S1 & R1 & W1).
  assert (G : exists ms s', steps s1 ms s' /\ Forall no_start ms /\ state s' = STOPPED).
  { assert (D : forall s2, lock s2 = None -> state s2 = STOPPING -> running s2 = running s1 -> workers s2 = workers s1 ->
      exists ms s', steps s2 ms s' /\ Forall no_start ms /\ state s' = STOPPED).
    { intros s2 Hl Hs Hr Hw. apply (drain (total (workers s2)) s2); auto; rewrite ?Hr, ?Hw, ?R1, ?W1; [apply Hi|exact Hc]. }
    destruct (state s1) eqn:Es.
    - exists [], s1. split; [constructor|]. split; [constructor|exact Es].
    - destruct (unlock_lemma (threads s1) (step s1 (M_stop 0)) 0%nat) as (ms2 & s2 & H2 & N2 & L2 & S2 & R2 & W2).
      { cbn [step]. rewrite L1. cbn [orb]. unfold is_running. now rewrite Es. }
      assert (Q : state (step s1 (M_stop 0)) = STOPPING /\ running (step s1 (M_stop 0)) = running s1 /\ workers (step s1 (M_stop 0)) = workers s1).
      { cbn [step]. rewrite L1. cbn [orb]. unfold is_running. now rewrite Es. }
      destruct Q as (Q1 & Q2 & Q3). destruct (D s2) as (ms3 & s3 & H3 & N3 & E3); try congruence.
      exists (M_stop 0 :: ms2 ++ ms3), s3. split; [constructor; eapply steps_app; eassumption|]. split; [constructor; [exact I|now apply Forall_app]|exact E3].
    - now apply (D s1). }
  destruct G as (ms2 & s2 & H2 & N2 & E2). exists (ms1 ++ ms2), s2. split; [eapply steps_app; eassumption|]. split; [now apply Forall_app|exact E2].
Qed.

(** While stop() has the mutex the state is STOPPING. *)
Definition held (s : server) : Prop := lock s <> None -> state s = STOPPING.
Lemma held_step s m : held s -> held (step s m).
Proof.
  unfold held. intros H. destruct m as [k n|i|w| | |w ok|w i|i|i|i]; cbn [step].
  - destruct (lock s) as [p|] eqn:E; cbn [orb]; [now rewrite E|]. destruct (Nat.ltb n k); [now rewrite E|]. cbn. congruence.
  - destruct (lock s) as [p|] eqn:E; cbn [orb]; [now rewrite E|]. destruct (negb (is_running s)); [now rewrite E|]. reflexivity.
  - destruct (lock s) as [[i [|k]]|] eqn:E; try (now rewrite E). destruct w as [w|]; [|intros _; apply H; discriminate].
    destruct (nth_error (workers s) w) as [[]|]; try (now rewrite E). intros _. apply H. discriminate.
  - destruct (lock s) eqn:E; [|now rewrite E]. cbn. congruence.
  - destruct (lock s) as [p|] eqn:E; [now rewrite E|]. cbn; congruence.
  - destruct (nth_error (workers s) w) as [[]|]; try exact H.
    + destruct (lock s) as [p|] eqn:E; [now rewrite E|]. destruct (is_running s); cbn; congruence.
    + destruct (lock s) as [p|] eqn:E; [now rewrite E|]. unfold leave. destruct (0 <? running s - 1); cbn; congruence.
  - destruct (nth_error (workers s) w) as [[]|]; try exact H. destruct (waiter s i); exact H.
  - destruct (waiter s i); try exact H. destruct (lock s) as [p|] eqn:E; [now rewrite E|]. unfold test_stopped. destruct (is_stopped s); cbn; congruence.
  - destruct (waiter s i); try exact H. destruct (lock s) as [p|] eqn:E; [now rewrite E|]. unfold test_stopped. destruct (is_stopped s); cbn; congruence.
  - destruct (waiter s i); exact H.
Qed.
Lemma held_steps s ms s' : steps s ms s' -> held s -> held s'.
Proof. induction 1 as [s|s m s' ms _ IH|s w s' ms E Hn _ IH]; intros H; [exact H|apply IH; now apply held_step|apply IH; exact H]. Qed.
