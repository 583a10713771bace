(** Proofs about mmapper. *)
From Verif Require Import Common CommonLemmas Mmapper_Spec Mmapper_Model.
From Coq Require Import Permutation.
Local Open Scope Z_scope.

Definition hf (o : obj) := descriptor (fd o).
Definition hm (o : obj) := mapping (ptr o) (len o).
Definition of_opt {A} (f : obj -> list A) (o : option obj) : list A := match o with Some o => f o | None => [] end.
Definition all {A} (f : obj -> list A) (l : list (option obj)) : list A := flat_map (of_opt f) l.
Definition out {A} (l : list A) (i : nat) : list A := firstn i l ++ skipn (S i) l.

Lemma take_ok {A} (eqb : A -> A -> bool) (E : forall x y, eqb x y = true <-> x = y) x : forall l, In x l -> exists l', take eqb x l = Some l' /\ Permutation l (x :: l').
Proof.
  induction l as [|y l IH]; intros H; [destruct H|]. cbn. destruct (eqb x y) eqn:C.
  - apply E in C as ->. eauto.
  - destruct H as [->|H]; [rewrite (proj2 (E x x) eq_refl) in C; discriminate|]. destruct (IH H) as (l' & -> & P). exists (y :: l'). split; [reflexivity|].
    rewrite P. apply perm_swap.
Qed.
Lemma eqm_iff a b : eqm a b = true <-> a = b.
Proof. unfold eqm. destruct a, b. cbn. rewrite andb_true_iff, !Z.eqb_eq. split; [intros [-> ->]; reflexivity|]. intros H. injection H. auto. Qed.
Lemma accounted_take {A} (base rest now now' : list A) x : accounted base (x :: rest) now -> Permutation now (x :: now') -> accounted base rest now'.
Proof.
  intros [P N] Q. split; [|rewrite Q in N; now inversion N]. apply Permutation_cons_inv with x. rewrite <- Q, P. symmetry. apply Permutation_middle.
Qed.
Lemma accounted_in {A} (base rest now : list A) x : accounted base (x :: rest) now -> In x now.
Proof. intros [P _]. rewrite P. apply in_or_app. right. now left. Qed.
Lemma accounted_perm {A} (base held held' now : list A) : accounted base held now -> Permutation held held' -> accounted base held' now.
Proof. intros [P N] Q. split; [now rewrite <- Q|exact N]. Qed.
Lemma accounted_cons {A} (base held now : list A) x : accounted base held now -> ~ In x now -> accounted base (x :: held) (x :: now).
Proof. intros [P N] H. split; [|now constructor]. rewrite P. apply Permutation_middle. Qed.

Section base.
Context (bf : list Z) (bm : list (Z * Z)).
(** the kernel is as it should be if the objects hold F and M *)
Definition sane (F : list Z) (M : list (Z * Z)) (k : kernel) : Prop := accounted bf F (fds k) /\ accounted bm M (maps k) /\ stray k = false.
Lemma close_sane F M o k : sane (hf o ++ F) (hm o ++ M) k -> sane F M (snd (close o k)) /\ hf (fst (close o k)) = [] /\ hm (fst (close o k)) = [].
Proof.
  intros (SF & SM & SS). unfold close.
  assert (S1 : exists k', (if 0 <=? fd o then ({| ptr := ptr o; len := len o; fd := -1 |}, sys_close (fd o) k) else (o, k)) = ({| ptr := ptr o; len := len o; fd := if 0 <=? fd o then -1 else fd o |}, k')
    /\ sane F (hm o ++ M) k').
  { unfold hf, descriptor in SF. destruct (0 <=? fd o).
    - exists (sys_close (fd o) k). split; [reflexivity|]. cbn [app] in SF. destruct (take_ok Z.eqb Z.eqb_eq (fd o) (fds k) (accounted_in _ _ _ _ SF)) as (l & E & P). unfold sys_close. rewrite E.
      split; [|split; assumption]. cbn. eapply accounted_take; eassumption.
    - exists k. split; [destruct o; reflexivity|]. split; [|split]; assumption. }
  destruct S1 as (k' & -> & (SF' & SM' & SS')). cbn [ptr len fd]. unfold hm, mapping in SM'. destruct (Z.eqb_spec (ptr o) 0) as [Z0|Z0]; cbn [negb fst snd].
  - split; [split; [|split]; assumption|]. unfold hf, hm, descriptor, mapping. cbn [fd ptr len]. split; [|now rewrite (proj2 (Z.eqb_eq _ _) Z0)].
    destruct (Z.leb_spec 0 (fd o)); [reflexivity|]. destruct (Z.leb_spec 0 (fd o)); [lia|reflexivity].
  - split.
    + cbn [app] in SM'. destruct (take_ok eqm eqm_iff (ptr o, len o) (maps k') (accounted_in _ _ _ _ SM')) as (l & E & P). unfold sys_munmap. rewrite E.
      split; [|split]; cbn; try assumption. eapply accounted_take; eassumption.
    + unfold hf, hm, descriptor, mapping. cbn [fd ptr len]. split; [|reflexivity]. destruct (Z.leb_spec 0 (fd o)); [reflexivity|]. destruct (Z.leb_spec 0 (fd o)); [lia|reflexivity].
Qed.
Lemma destroy_sane F M o k : sane (hf o ++ F) (hm o ++ M) k -> sane F M (destroy o k).
Proof. intros H. exact (proj1 (close_sane F M o k H)). Qed.
Lemma destroy_none o k : hf o = [] -> hm o = [] -> destroy o k = k.
Proof.
  unfold hf, hm, descriptor, mapping, destroy, close. intros H1 H2. destruct (Z.leb_spec 0 (fd o)); [discriminate|]. destruct (Z.eqb_spec (ptr o) 0); [reflexivity|discriminate].
Qed.
(** the kernel never gives what is in use *)
Definition valid (a : answers) (k : kernel) : Prop := 0 <= a_fd a -> ~ In (a_fd a) (fds k) /\
  (forall p, a_map a = Some p -> exists n, a_size a = Some n /\ 0 < n /\ 0 < p /\ ~ In (p, n) (maps k)).
Lemma open_sane F M o a k r o' k' : valid a k -> sane (hf o ++ F) (hm o ++ M) k -> open o a k = (r, o', k') -> sane (hf o' ++ F) (hm o' ++ M) k'.
Proof.
  intros V S. unfold open. destruct (Z.ltb_spec (a_fd a) 0) as [C|C].
  - intros H. injection H as <- <- <-. rewrite destroy_none; [exact S| |reflexivity]. unfold hf, descriptor. cbn. destruct (Z.leb_spec 0 (a_fd a)); [lia|reflexivity].
  - destruct (V C) as [VF VM].
    assert (T : forall n, sane (hf {| ptr := 0; len := n; fd := a_fd a |} ++ hf o ++ F) (hm {| ptr := 0; len := n; fd := a_fd a |} ++ hm o ++ M) {| fds := a_fd a :: fds k; maps := maps k; stray := stray k |}).
    { intros n. destruct S as (SF & SM & SS). split; [|split; assumption]. unfold hf at 1, descriptor. cbn [fd fds]. rewrite (proj2 (Z.leb_le _ _) C). cbn [app]. now apply accounted_cons. }
    destruct (a_size a) as [n|] eqn:En.
    + destruct (a_map a) as [p|] eqn:Ep.
      * intros H. injection H as <- <- <-. destruct (VM p eq_refl) as (n' & En' & Hn & Hp & Hm). injection En' as <-. specialize (T n). destruct T as (TF & TM & TS). apply destroy_sane.
        split; [|split]; cbn [fds maps stray] in *.
        -- eapply accounted_perm; [exact TF|]. rewrite !app_assoc. apply Permutation_app_tail. apply Permutation_app_comm.
        -- eapply accounted_perm; [apply accounted_cons; [exact TM|exact Hm]|]. change (hm {| ptr := 0; len := n; fd := a_fd a |}) with (@nil (Z * Z)). cbn [app].
           replace (hm {| ptr := p; len := n; fd := a_fd a |}) with [(p, n)] by (unfold hm, mapping; cbn; now rewrite (proj2 (Z.eqb_neq p 0)) by lia).
           apply Permutation_cons_app. reflexivity.
        -- exact TS.
      * intros H. injection H as <- <- <-. apply destroy_sane. apply T.
    + intros H. injection H as <- <- <-. apply destroy_sane. apply T.
Qed.

(** many objects *)
Lemma all_out {A} (f : obj -> list A) : forall l i o, nth_error l i = Some o -> Permutation (all f l) (of_opt f o ++ all f (out l i)).
Proof.
  induction l as [|x l IH]; intros [|i] o H; try discriminate.
  - injection H as ->. reflexivity.
  - cbn in H. unfold all, out in *. cbn [flat_map firstn skipn app]. rewrite (IH i o H). rewrite !app_assoc. apply Permutation_app_tail, Permutation_app_comm.
Qed.
Lemma all_set {A} (f : obj -> list A) : forall l i o, (i < length l)%nat -> Permutation (all f (set l i o)) (of_opt f o ++ all f (out l i)).
Proof.
  induction l as [|x l IH]; intros [|i] o H; cbn in H; try lia.
  - reflexivity.
  - unfold all, out in *. cbn [set flat_map firstn skipn app]. rewrite (IH i o) by lia. rewrite !app_assoc. apply Permutation_app_tail, Permutation_app_comm.
Qed.
Lemma set_len {A} (l : list A) : forall i x, length (set l i x) = length l.
Proof. induction l as [|y l IH]; intros [|i] x; cbn; auto. Qed.
Lemma set_nth {A} (l : list A) : forall i j x, nth_error (set l i x) j = if Nat.eqb i j && Nat.ltb i (length l) then Some x else nth_error l j.
Proof. induction l as [|y l IH]; intros [|i] [|j] x; cbn; try reflexivity; rewrite ?andb_false_r; try reflexivity. rewrite IH. reflexivity. Qed.
Lemma nth_len {A} (l : list A) i x : nth_error l i = Some x -> (i < length l)%nat.
Proof. intros H. apply nth_error_Some. congruence. Qed.
Definition inv (w : world) : Prop := sane (all hf (objs w)) (all hm (objs w)) (kern w).
Lemma sane_perm F F' M M' k : sane F M k -> Permutation F F' -> Permutation M M' -> sane F' M' k.
Proof. intros (A & B & C) P Q. split; [|split]; [eapply accounted_perm; eassumption|eapply accounted_perm; eassumption|exact C]. Qed.
Lemma inv_out w i o : inv w -> object w i = Some o -> sane (hf o ++ all hf (out (objs w) i)) (hm o ++ all hm (out (objs w) i)) (kern w) /\ nth_error (objs w) i = Some (Some o).
Proof.
  unfold object. intros I H. destruct (nth_error (objs w) i) as [[o'|]|] eqn:E; try discriminate. injection H as ->. split; [|reflexivity].
  eapply sane_perm; [exact I| |]; exact (all_out _ _ _ _ E).
Qed.
Lemma inv_set l i o k x : nth_error l i = Some x -> sane (of_opt hf o ++ all hf (out l i)) (of_opt hm o ++ all hm (out l i)) k -> inv {| objs := set l i o; kern := k |}.
Proof.
  intros H S. eapply sane_perm; [exact S| |]; cbn; symmetry; apply all_set; eapply nth_len; eassumption.
Qed.
Lemma swap_all {A} (f : obj -> list A) l i j o q : nth_error l i = Some o -> nth_error l j = Some q -> Permutation (all f (set (set l i q) j o)) (all f l).
Proof.
  intros Hi Hj. destruct (Nat.eq_dec i j) as [->|N].
  - rewrite Hi in Hj. injection Hj as <-. assert (L : (j < length l)%nat) by (eapply nth_len; eassumption). rewrite all_set by now rewrite set_len.
    rewrite (all_out f l j o Hi). apply Permutation_app_head. replace (out (set l j o) j) with (out l j); [reflexivity|]. clear -L. unfold out. revert j L.
    induction l as [|y l IH]; intros [|j] L; cbn in *; try reflexivity. f_equal. apply IH. lia.
  - pose proof (nth_len _ _ _ Hi) as Li. pose proof (nth_len _ _ _ Hj) as Lj.
    assert (Hj' : nth_error (set l i q) j = Some q) by (rewrite set_nth; rewrite (proj2 (Nat.eqb_neq i j) N); exact Hj).
    rewrite (all_set f (set l i q) j o) by now rewrite set_len. apply Permutation_app_inv_l with (of_opt f q). rewrite app_assoc, (Permutation_app_comm (of_opt f q)), <- app_assoc.
    rewrite <- (all_out f (set l i q) j q Hj'). rewrite (all_set f l i q Li). rewrite (all_out f l i o Hi). rewrite !app_assoc. apply Permutation_app_tail, Permutation_app_comm.
Qed.
(** what the theorem asks of the environment and of the program *)
Definition idle (w : world) (i : nat) : Prop := forall o, object w i = Some o -> is_open o = false /\ fd o < 0.
Definition allowed (p : op) (w : world) : Prop :=
  match p with Open _ a => valid a (kern w) | Move i => idle w i | Assign _ j => idle w j | _ => True end.
Lemma idle_holds o : is_open o = false -> fd o < 0 -> hf o = [] /\ hm o = [].
Proof.
  unfold is_open, hf, hm, descriptor, mapping. intros H1 H2. destruct (Z.eqb_spec (ptr o) 0); [|discriminate]. destruct (Z.leb_spec 0 (fd o)); [lia|auto].
Qed.
Lemma step_inv p w w' : inv w -> allowed p w -> step p w = Some w' -> inv w'.
Proof.
  intros I A. destruct p as [|i a|i|i j|i|i j|i]; cbn [step].
  - intros H. injection H as <-. unfold inv, all. cbn [objs kern]. rewrite !flat_map_app. cbn. rewrite !app_nil_r. exact I.
  - destruct (object w i) as [o|] eqn:E; [|discriminate]. destruct (inv_out _ _ _ I E) as [S N]. destruct (open o a (kern w)) as [[r o'] k'] eqn:Eo. intros H. injection H as <-.
    eapply inv_set; [exact N|]. exact (open_sane _ _ _ _ _ _ _ _ A S Eo).
  - destruct (object w i) as [o|] eqn:E; [|discriminate]. destruct (inv_out _ _ _ I E) as [S N]. destruct (close o (kern w)) as [o' k'] eqn:Eo. intros H. injection H as <-.
    eapply inv_set; [exact N|]. pose proof (close_sane _ _ _ _ S) as (S' & H1 & H2). rewrite Eo in *. cbn [fst snd] in *. cbn [of_opt]. now rewrite H1, H2.
  - destruct (object w i) as [o|] eqn:E; [|discriminate]. destruct (object w j) as [q|] eqn:E2; [|discriminate]. intros H. injection H as <-.
    destruct (inv_out _ _ _ I E) as [_ N]. destruct (inv_out _ _ _ I E2) as [_ N2]. eapply sane_perm; [exact I| |]; symmetry; now apply swap_all.
  - destruct (object w i) as [o|] eqn:E; [|discriminate]. intros H. cbn [move_ctor swap] in H. injection H as <-. destruct (inv_out _ _ _ I E) as [S N]. cbn in A. destruct (A o E) as [A1 A2].
    destruct (idle_holds o A1 A2) as [B1 B2]. rewrite destroy_none by assumption. rewrite B1, B2 in S. cbn [app] in S.
    assert (I' : inv {| objs := set (objs w) i (Some fresh); kern := kern w |}) by (eapply inv_set; [exact N|exact S]).
    unfold inv, all in *. cbn [objs kern] in *. rewrite !flat_map_app. cbn [flat_map of_opt]. change (hf {| ptr := ptr o; len := len o; fd := fd o |}) with (hf o).
    change (hm {| ptr := ptr o; len := len o; fd := fd o |}) with (hm o). rewrite B1, B2. cbn [app]. rewrite !app_nil_r. exact I'.
  - destruct (object w j) as [q|] eqn:E; [|discriminate]. cbn [move_ctor swap]. destruct (inv_out _ _ _ I E) as [S N]. cbn in A. destruct (A q E) as [A1 A2].
    destruct (idle_holds q A1 A2) as [B1 B2]. rewrite destroy_none by assumption. rewrite B1, B2 in S. cbn [app] in S.
    assert (I' : inv {| objs := set (objs w) j (Some fresh); kern := kern w |}) by (eapply inv_set; [exact N|exact S]).
    destruct (object _ i) as [o|] eqn:E2; [|discriminate]. intros H. injection H as <-. destruct (inv_out _ _ _ I' E2) as [S2 N2]. cbn [objs kern] in *.
    eapply inv_set; [exact N2|]. apply destroy_sane. cbn [of_opt]. change (hf {| ptr := ptr q; len := len q; fd := fd q |}) with (hf q).
    change (hm {| ptr := ptr q; len := len q; fd := fd q |}) with (hm q). rewrite B1, B2. exact S2.
  - destruct (object w i) as [o|] eqn:E; [|discriminate]. destruct (inv_out _ _ _ I E) as [S N]. intros H. injection H as <-. eapply inv_set; [exact N|]. cbn [of_opt app]. now apply destroy_sane.
Qed.
Fixpoint allowed_run (l : list op) (w : world) : Prop :=
  match l with [] => True | p :: l => allowed p w /\ match step p w with Some w => allowed_run l w | None => True end end.
Lemma run_inv l : forall w w', inv w -> allowed_run l w -> run l w = Some w' -> inv w'.
Proof.
  induction l as [|p l IH]; intros w w' I A H; cbn in *; [injection H as <-; exact I|]. destruct A as [A1 A2]. destruct (step p w) as [w1|] eqn:E; [|discriminate].
  eapply IH; [eapply step_inv; eassumption|exact A2|exact H].
Qed.
End base.
