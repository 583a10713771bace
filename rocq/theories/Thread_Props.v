(** C88, C89: threads and sleeping. *)
From Verif Require Import Common CommonLemmas Thread_Spec Thread_Model Thread_Proof.
From Coq Require Import QArith Qround.
Local Open Scope Z_scope.

(** Whatever the owner of a thread object does and the system answers, no thread is joined or detached that has been before, *)
Theorem C88_safe : forall c l w e r, reach c l w -> fair e w -> step e w = Some r -> exists b w', r = Ok (b, w').
Proof. intros c l w e r R F S. destruct (step_ok e w (reach_inv _ _ _ R) F _ S) as (b & w' & E & _). eauto. Qed.
(** each thread calls the function once, and there are just the copies of threads that have not; a joined thread has ended. *)
Theorem C88_once : forall c l w, reach c l w -> NoDup (copies w) /\ (forall t, In t (copies w) <-> exists th, nth_error (pool w) t = Some th /\ ended th = false) /\
  forall t th, nth_error (pool w) t = Some th -> calls th = (if ended th then 1%nat else 0%nat) /\ (f th = Joined -> ended th = true).
Proof. intros c l w R. destruct (reach_inv _ _ _ R) as [G N C _]. auto. Qed.
(** When the object is gone, no thread is left joinable (if pthread_detach of a joinable thread succeeds). *)
Theorem C88_released : forall c l w, reach c l w -> Forall detaches l -> obj w = None -> forall t th, nth_error (pool w) t = Some th -> f th = Joined \/ f th = Detached.
Proof.
  intros c l w R D O t th H. destruct (f th) eqn:E; auto. destruct (reach_owned _ _ _ R D t th H E) as (o & E' & _). congruence.
Qed.
(** start succeeds if there is a function, no thread is running and pthread_create succeeds: then there is one thread more.  Otherwise there is none. *)
Theorem C88_start : forall o res w b w', obj w = Some o -> start o res w = Ok (b, w') ->
  (b = true <-> callable o = true /\ running o = false /\ res = 0) /\
  (b = true -> exists o', obj w' = Some o' /\ running o' = true /\ pool w' = pool w ++ [{| f := Joinable; ended := false; calls := 0 |}]) /\
  (b = false -> pool w' = pool w /\ copies w' = copies w /\ exists o', obj w' = Some o' /\ running o' = running o).
Proof.
  intros o res w b w' E. unfold start. destruct (callable o); cbn [negb]; [|intros H; injection H as <- <-; split; [split; [discriminate|intros (H & _); discriminate]|split; [discriminate|eauto]]].
  destruct (running o) eqn:Er; [intros H; injection H as <- <-; split; [split; [discriminate|intros (_ & H & _); discriminate]|split; [discriminate|eauto]]|].
  destruct (Z.eqb_spec res 0) as [A|A]; cbn [negb]; intros H; injection H as <- <-; cbn [obj pool copies].
  - split; [tauto|]. split; [|discriminate]. intros _. eexists. split; [reflexivity|]. split; reflexivity.
  - split; [split; [discriminate|tauto]|]. split; [discriminate|]. intros _. split; [reflexivity|]. split; [reflexivity|]. eexists. split; reflexivity.
Qed.
(** join succeeds if a thread is running and pthread_join succeeds: that thread is joined and the object can start again.  If it fails nothing has changed. *)
Theorem C88_join : forall c l w o res b w', reach c l w -> obj w = Some o -> join o res w = Ok (b, w') ->
  (b = true <-> running o = true /\ res = 0) /\ (b = false -> w' = w) /\
  (b = true -> exists o' th th', obj w' = Some o' /\ running o' = false /\ callable o' = callable o /\ nth_error (pool w) (tid o) = Some th /\ nth_error (pool w') (tid o) = Some th' /\
    f th = Joinable /\ f th' = Joined /\ (forall t, t <> tid o -> nth_error (pool w') t = nth_error (pool w) t)).
Proof.
  intros c l w o res b w' R E. unfold join. destruct (running o) eqn:Er; cbn [negb]; [|intros H; injection H as <- <-; split; [split; [discriminate|intros (H & _); discriminate]|split; [reflexivity|discriminate]]].
  destruct (i_cur w (reach_inv _ _ _ R) o E Er) as (th & Ht & Hf). rewrite Ht, Hf. destruct (Z.eqb_spec res 0) as [A|A]; cbn [negb]; intros H; injection H as <- <-.
  - split; [tauto|]. split; [discriminate|]. intros _. eexists _, th, _. unfold with_pool. cbn [obj pool]. split; [reflexivity|]. split; [reflexivity|]. split; [reflexivity|]. split; [first [exact Ht|reflexivity]|].
    split; [rewrite upd_nth by (eapply nth_len; exact Ht); now rewrite Nat.eqb_refl|]. split; [exact Hf|]. split; [reflexivity|]. intros t N. rewrite upd_nth by (eapply nth_len; exact Ht).
    now rewrite (proj2 (Nat.eqb_neq t (tid o)) N).
  - split; [split; [discriminate|tauto]|]. split; [reflexivity|discriminate].
Qed.

(** sleep asks nanosleep for the given time, less or more by one nanosecond at most, with seconds and nanoseconds as they must be *)
Theorem C89_sleep_partial : forall rnd q, rounding rnd -> representable q -> (0 <= q)%Q -> (q < inject_Z (2 ^ 63))%Q ->
  exists s n, sleep_request rnd (Fin q) = Ok (s, n) /\ 0 <= s /\ 0 <= n <= 999999999 /\
  (inject_Z (s * 1000000000 + n - 1) <= q * 1000000000)%Q /\ (q * 1000000000 <= inject_Z (s * 1000000000 + n + 1))%Q.
Proof.
  intros rnd q R Rq H0 H1. destruct (sleep_pos rnd q R Rq H0 H1) as (n & E & N & L & U). exists (Qfloor q), n. split; [exact E|]. split; [now apply floor_pos|]. split; [exact N|].
  assert (S : (q * 1000000000 == (q - inject_Z (Qfloor q)) * billion + inject_Z (Qfloor q * 1000000000))%Q).
  { rewrite inject_Z_mult. change (inject_Z 1000000000) with billion. change 1000000000%Q with billion. ring. }
  rewrite S. split.
  - replace (Qfloor q * 1000000000 + n - 1) with ((n - 1) + Qfloor q * 1000000000) by lia. rewrite inject_Z_plus. now apply Qplus_le_compat; [|apply Qle_refl].
  - replace (Qfloor q * 1000000000 + n + 1) with ((n + 1) + Qfloor q * 1000000000) by lia. rewrite inject_Z_plus. now apply Qplus_le_compat; [|apply Qle_refl].
Qed.
(** negative times and those that are not a number are 0, *)
Theorem C89_no_time : forall rnd d, rounding rnd -> match d with Fin q => (q <= 0)%Q | Inf neg => neg = true | NaN => True end -> sleep_request rnd d = Ok (0, 0).
Proof. exact sleep_neg. Qed.
(** but 2^63 seconds or more, as infinity, are converted to time_t without a check. *)
Theorem C89_long_refuted : forall rnd, (forall q, (inject_Z (2 ^ 63) <= q)%Q -> sleep_request rnd (Fin q) = UB) /\ sleep_request rnd (Inf false) = UB.
Proof.
  intros rnd. split; [|reflexivity]. intros q H. unfold sleep_request, max0. assert (P : (0 < q)%Q) by (eapply Qlt_le_trans; [|exact H]; reflexivity).
  replace (Qle_bool q 0) with false by (symmetry; apply not_true_is_false; intros E; apply Qle_bool_iff in E; eapply Qlt_not_le; eassumption).
  unfold to_int64 at 1. rewrite trunc_pos by now apply Qlt_le_weak. assert (F : 2 ^ 63 <= Qfloor q) by (rewrite <- (Qfloor_Z (2 ^ 63)); now apply Qfloor_resp_le).
  replace ((- 2 ^ 63 <=? Qfloor q) && (Qfloor q <? 2 ^ 63)) with false by lia. reflexivity.
Qed.

Ltac go e := match goal with R : reach true ?l ?w |- _ => let r := eval vm_compute in (step e w) in match r with Some (Ok (?b, ?w')) =>
  let l' := eval cbv [app] in (l ++ [e]) in assert (reach true l' w') by (refine (reach_S true l w e b w' R _ eq_refl); cbn; try exact I; try (intros; discriminate);
    intros _ o th Ho Ht; injection Ho as <-; cbn in Ht; injection Ht as <-; reflexivity); clear R end end.
Example C88_nonvacuous : exists l w, reach true l w /\ Forall detaches l /\ obj w = None /\ pool w =
  [{| f := Joined; ended := true; calls := 1 |}; {| f := Detached; ended := true; calls := 1 |}; {| f := Detached; ended := false; calls := 0 |}].
Proof.
  pose proof (reach_0 true) as R. unfold made in R. go (Start 0). go (Start 0). go (Join 35). go (Run 0). go (Join 0). go (Start 11). go (Start 0). go (Detach 0). go (Start 0). go (Destroy 0). go (Run 1).
  eexists _, _. split; [eassumption|]. split; [repeat constructor|]. split; reflexivity.
Qed.
Example C89_nonvacuous : rounding (fun q => q) /\ representable (5 # 4) /\ sleep_request (fun q => q) (Fin (5 # 4)) = Ok (1, 250000000) /\ sleep_request (fun q => q) NaN = Ok (0, 0).
Proof.
  split; [split; [auto|intros; reflexivity]|]. split; [|split; vm_compute; reflexivity].
  exists 5, 1072. split; [lia|]. split; [lia|]. vm_compute. reflexivity.
Qed.

Print Assumptions C88_safe.
Print Assumptions C88_once.
Print Assumptions C88_released.
Print Assumptions C88_start.
Print Assumptions C88_join.
Print Assumptions C89_sleep_partial.
Print Assumptions C89_no_time.
Print Assumptions C89_long_refuted.
