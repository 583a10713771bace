(** C117: shared_ptr, weak_ptr and enable_shared_from_this. *)
From Verif Require Import Common CommonLemmas Shared_Spec Shared_Model Shared_Proof.

(** Whatever is done with any number of pointers, each object handed over is given once and deleted at most once, and it is there exactly as
    long as some shared_ptr points to it.  Partial: one thread; an address is handed over once. *)
Theorem C117_once_partial os h : all_fair empty os -> run empty os = Ok h -> proper (log h) /\ forall k, live (log h) k <-> In (Some k) (pointers h).
Proof. intros F E. pose proof (run_inv os empty h inv_empty F E) as H. split; [exact (inv_proper h [] H)|]. intros k. exact (live_owned h k H). Qed.

(** use_count is the number of shared_ptrs that point to the object. *)
Theorem C117_use_count os h i k : all_fair empty os -> run empty os = Ok h -> nth i (pointers h) None = Some k -> use_count h i = owners k (pointers h).
Proof.
  intros F E P. pose proof (run_inv os empty h inv_empty F E) as H. rewrite nth_pointers in P. unfold use_count. destruct (get (sh h) i) as [v|]; [|discriminate]. now apply count_owners.
Qed.

(** When no shared_ptr is left all objects handed over are deleted, whatever weak_ptrs there are. *)
Theorem C117_released os h : all_fair empty os -> run empty os = Ok h -> (forall i, get (sh h) i = None) -> released (log h).
Proof.
  intros F E G k Gk. destruct (C117_once_partial os h F E) as [_ O]. specialize (O k). unfold live in O. pose proof (run_inv os empty h inv_empty F E) as H.
  destruct (i_given _ _ H k) as [L|(b & c & Eb & Ok')]; [apply life_given in L; tauto|]. destruct (life_deleted h [] b c k H Eb Ok') as [D _]. apply D.
  rewrite (i_uses _ _ H b c Eb). cbn. rewrite Nat.add_0_r. destruct (Nat.eq_dec (cnt b (sh h)) 0) as [Z|N]; [exact Z|]. pose proof (cnt_pos b (sh h) ltac:(lia)) as I.
  apply In_nth_error in I as [i I]. specialize (G i). apply get_nth in I. congruence.
Qed.

(** The only undefined behaviour: a pointer that is null is dereferenced, or shared_from_this is called on an object that is not there. *)
Theorem C117_safe_partial os : all_fair empty os -> (exists h, run empty os = Ok h) \/
  exists done o rest h, os = done ++ o :: rest /\ run empty done = Ok h /\
    ((exists i, o = Deref i /\ nth i (pointers h) None = None /\ get (sh h) i <> None) \/ (exists k, o = FromThis k /\ (next h <= k \/ In (Deleted k) (log h)))).
Proof.
  intros F. destruct (run_all os empty inv_empty F) as [(h & E & _)|(d & o & r & h & -> & E & M & _)]; [left; eauto|right]. exists d, o, r, h. split; [reflexivity|]. split; [exact E|].
  destruct M as [(i & v & -> & G & T)|(k & -> & A)]; [left|right].
  - exists i. split; [reflexivity|]. rewrite nth_pointers, G. split; [exact T|discriminate].
  - exists k. split; [reflexivity|]. assert (Fd : all_fair empty d). { clear - F. revert F. generalize empty. induction d as [|x d IH]; intros h F; cbn in *; [exact I|]. destruct F as [F1 F2]. split; [exact F1|]. destruct (step h x) as [[h1 e]| | |]; auto. }
    pose proof (run_inv d empty h inv_empty Fd E) as H. rewrite (i_alive _ _ H) in A. destruct (Nat.lt_ge_cases k (next h)); [right|left; lia].
    destruct (in_dec event_eq_dec (Deleted k) (log h)) as [D|D]; [exact D|tauto].
Qed.

(** What the pointers point to after each operation on shared_ptrs (those with another pointer that is there) *)
Theorem C117_values os h o h' : all_fair empty os -> run empty os = Ok h -> step h o = Ok (h', false) ->
  match o with
  | Make Null | Empty => pointers h' = pointers h ++ [None]
  | Make New => exists k, ~ In (Given k) (log h) /\ pointers h' = pointers h ++ [Some k]
  | Make (Raw k) => pointers h' = pointers h ++ [Some k]
  | Copy j => get (sh h) j <> None -> pointers h' = pointers h ++ [nth j (pointers h) None]
  | Cast j fits => get (sh h) j <> None -> pointers h' = pointers h ++ [if fits then nth j (pointers h) None else None]
  | Assign i j => get (sh h) i <> None -> get (sh h) j <> None ->
      length (pointers h') = length (pointers h) /\ forall n, nth n (pointers h') None = if Nat.eqb n i then nth j (pointers h) None else nth n (pointers h) None
  | Destroy i => get (sh h) i <> None ->
      length (pointers h') = length (pointers h) /\ forall n, nth n (pointers h') None = if Nat.eqb n i then None else nth n (pointers h) None
  | WEmpty => pointers h' = pointers h /\ weaks h' = weaks h ++ [None]
  | WOf j => get (sh h) j <> None -> pointers h' = pointers h /\ weaks h' = weaks h ++ [nth j (pointers h) None]
  | WCopy j => get (wk h) j <> None -> pointers h' = pointers h /\ weaks h' = weaks h ++ [nth j (weaks h) None]
  | WAssign i j => get (wk h) i <> None -> get (wk h) j <> None ->
      pointers h' = pointers h /\ forall n, nth n (weaks h') None = if Nat.eqb n i then nth j (weaks h) None else nth n (weaks h) None
  | WAssignS i j => get (wk h) i <> None -> get (sh h) j <> None ->
      pointers h' = pointers h /\ forall n, nth n (weaks h') None = if Nat.eqb n i then nth j (pointers h) None else nth n (weaks h) None
  | WDestroy i => get (wk h) i <> None -> pointers h' = pointers h /\ forall n, nth n (weaks h') None = if Nat.eqb n i then None else nth n (weaks h) None
  | Deref _ | Fresh => pointers h' = pointers h /\ weaks h' = weaks h
  | Lock _ | FromWeak _ | FromThis _ => True
  end.
Proof.
  intros F E S. pose proof (run_inv os empty h inv_empty F E) as H. destruct o as [p| |j|j fits|i j|i|i| |j|j|i j|i j|i|j|j|k|]; cbn [step] in S; auto.
  - destruct p as [| |k]; cbn [make] in S.
    + destruct (adopt h None) as [[h1 v]| | |] eqn:A; try discriminate. injection S as <-. exact (adopt_values h [] None h1 v H A).
    + destruct (adopt (fresh h) (Some (next h))) as [[h1 v]| | |] eqn:A; try discriminate. injection S as <-. exists (next h). split; [|exact (adopt_values (fresh h) [] _ h1 v (fresh_inv h [] H) A)].
      intros X. destruct (i_given _ _ H (next h)) as [L|(b & c & Eb & O)]; [apply life_given in L; tauto|]. destruct (i_obj _ _ H b c _ Eb O). lia.
    + destruct (adopt h (Some k)) as [[h1 v]| | |] eqn:A; try discriminate. injection S as <-. exact (adopt_values h [] _ h1 v H A).
  - injection S as <-. exact (copy_values h None).
  - intros G. rewrite nth_pointers. destruct (get (sh h) j) as [v|] eqn:Gj; [|congruence]. injection S as <-. apply copy_values.
  - intros G. rewrite nth_pointers. destruct (get (sh h) j) as [v|] eqn:Gj; [|congruence]. cbv zeta in S. destruct (wrap _ _) as [h1| | |] eqn:W in S; try discriminate. injection S as <-.
    apply wrap_values in W; [|exact H|destruct fits; [exact (held_sh h [] v H (in_get _ _ _ Gj))|now left]]. rewrite W. destruct fits; reflexivity.
  - intros Gi Gj. rewrite (nth_pointers h j). destruct (get (sh h) i) as [old|] eqn:Ei; [|congruence]. destruct (get (sh h) j) as [v|] eqn:Ej; [|congruence].
    destruct (release _ _) as [h1| | |] eqn:R in S; try discriminate. injection S as <-. exact (assign_values h h1 i j old v H Ei Ej R).
  - intros G. destruct (get (sh h) i) as [v|] eqn:Ei; [|congruence]. destruct (release _ _) as [h1| | |] eqn:R in S; try discriminate. injection S as <-. exact (destroy_values h h1 i v H Ei R).
  - destruct (get (sh h) i) as [v|]; [|injection S as <-; auto]. destruct (target h v) as [k|]; [|discriminate]. destruct (existsb _ _); [|discriminate]. injection S as <-; auto.
  - injection S as <-. split; [reflexivity|]. unfold weaks. cbn. now rewrite map_app.
  - intros G. rewrite nth_pointers. destruct (get (sh h) j) as [v|]; [|congruence]. injection S as <-. split; [reflexivity|]. unfold weaks. cbn. now rewrite map_app.
  - intros G. rewrite nth_weaks. destruct (get (wk h) j) as [v|]; [|congruence]. injection S as <-. split; [reflexivity|]. unfold weaks. cbn. now rewrite map_app.
  - intros Gi Gj. rewrite (nth_weaks h j). destruct (get (wk h) i) as [old|] eqn:Ei; [|congruence]. destruct (get (wk h) j) as [v|]; [|congruence]. injection S as <-. split; [reflexivity|].
    intros n. rewrite !nth_weaks. cbn [with_wk wk]. rewrite get_upd by congruence. destruct (Nat.eqb n i); reflexivity.
  - intros Gi Gj. rewrite (nth_pointers h j). destruct (get (wk h) i) as [old|] eqn:Ei; [|congruence]. destruct (get (sh h) j) as [v|]; [|congruence]. injection S as <-. split; [reflexivity|].
    intros n. rewrite !nth_weaks. cbn [with_wk wk]. rewrite get_upd by congruence. destruct (Nat.eqb n i); reflexivity.
  - intros Gi. destruct (get (wk h) i) as [old|] eqn:Ei; [|congruence]. injection S as <-. split; [reflexivity|].
    intros n. rewrite !nth_weaks. cbn [with_wk wk]. rewrite get_upd by congruence. destruct (Nat.eqb n i); reflexivity.
  - injection S as <-. auto.
Qed.

(** lock() and the constructor from a weak_ptr give another owner while the object is there; when it is deleted lock() gives a null pointer
    and the constructor throws bad_weak_ptr, as they do for an empty weak_ptr. *)
Theorem C117_lock os h j k : all_fair empty os -> run empty os = Ok h -> nth j (weaks h) None = Some k ->
  (live (log h) k -> (exists h', step h (Lock j) = Ok (h', false) /\ pointers h' = pointers h ++ [Some k]) /\ exists h', step h (FromWeak j) = Ok (h', false) /\ pointers h' = pointers h ++ [Some k]) /\
  (~ live (log h) k -> (exists h', step h (Lock j) = Ok (h', false) /\ pointers h' = pointers h ++ [None]) /\ step h (FromWeak j) = Ok (h, true)).
Proof.
  intros F E W. pose proof (run_inv os empty h inv_empty F E) as H. rewrite nth_weaks in W. cbn [step]. destruct (get (wk h) j) as [v|]; [|discriminate]. rewrite (count_live h [] v k H W). unfold locked. split.
  - intros N. apply Nat.eqb_neq in N as N'. rewrite N'. assert (P : held h v) by (right; lia). split.
    + destruct (wrap_inv (retain h v) [] v (retain_inv h [] v H P)) as (h' & Ew & _). rewrite Ew. exists h'. split; [reflexivity|]. rewrite (wrap_values h v h' H P Ew), W. reflexivity.
    + eexists. split; [reflexivity|]. now rewrite copy_values, W.
  - intros N. assert (Z : count h v = 0) by lia. rewrite Z. cbn [Nat.eqb]. split; [|reflexivity]. destruct (wrap_inv h [] None (retain_inv h [] None H (or_introl eq_refl))) as (h' & Ew & _). rewrite Ew.
    exists h'. split; [reflexivity|]. exact (wrap_values h None h' H (or_introl eq_refl) Ew).
Qed.
Theorem C117_lock_empty os h j : all_fair empty os -> run empty os = Ok h -> get (wk h) j = Some None ->
  (exists h', step h (Lock j) = Ok (h', false) /\ pointers h' = pointers h ++ [None]) /\ step h (FromWeak j) = Ok (h, true).
Proof.
  intros F E W. pose proof (run_inv os empty h inv_empty F E) as H. cbn [step]. rewrite W. cbn [locked count Nat.eqb]. split; [|reflexivity].
  destruct (wrap_inv h [] None (retain_inv h [] None H (or_introl eq_refl))) as (h' & Ew & _). unfold locked. cbn [count Nat.eqb]. rewrite Ew. exists h'. split; [reflexivity|]. exact (wrap_values h None h' H (or_introl eq_refl) Ew).
Qed.

(** shared_from_this() of an object that was handed over and is there gives another owner of it; of one that was not it throws bad_weak_ptr. *)
Theorem C117_this os h k : all_fair empty os -> run empty os = Ok h -> (k < next h)%nat ->
  (live (log h) k -> exists h', step h (FromThis k) = Ok (h', false) /\ pointers h' = pointers h ++ [Some k]) /\ (~ In (Given k) (log h) -> step h (FromThis k) = Ok (h, true)).
Proof.
  intros F E L. pose proof (run_inv os empty h inv_empty F E) as H. cbn [step]. split.
  - intros [G D]. rewrite (proj2 (in_alive k (alive h))) by (apply (i_alive _ _ H); auto). destruct (i_given _ _ H k) as [Lf|(b & c & Eb & O)]; [apply life_given in Lf; tauto|].
    destruct (i_obj _ _ H b c k Eb O) as (_ & -> & _). assert (T : target h (Some b) = Some k) by (cbn; now rewrite Eb). pose proof (proj1 (count_live h [] (Some b) k H T) (conj G D)) as N. apply Nat.eqb_neq in N as N'. rewrite N'.
    assert (P : held h (Some b)) by (right; lia). destruct (wrap_inv (retain h (Some b)) [] (Some b) (retain_inv h [] _ H P)) as (h' & Ew & _). rewrite Ew. exists h'. split; [reflexivity|]. now rewrite (wrap_values h _ h' H P Ew), T.
  - intros G. pose proof (not_given h [] k H G) as Lf. apply life_given in Lf as Nd. rewrite (proj2 (in_alive k (alive h))) by (apply (i_alive _ _ H); tauto). now rewrite (i_none _ _ H k Lf).
Qed.

(** Handing over one address twice, which is why shared_from_this is there, deletes the object twice. *)
Theorem C117_twice_refuted : run empty [Fresh; Make (Raw 0); Make (Raw 0); Destroy 0; Destroy 1] = UB.
Proof. reflexivity. Qed.

Definition C117_program : list op :=
  [Make New; Copy 0; WOf 1; FromThis 0; Make Null; Assign 1 3; Destroy 0; Lock 0; Destroy 2; Cast 4 true; Cast 4 false; Destroy 4; Destroy 5; Lock 0; FromWeak 0; Fresh; FromThis 1; Make (Raw 1); WAssignS 0 8; FromWeak 0].
Example C117_nonvacuous : all_fair empty C117_program /\ match run empty C117_program with Ok h => log h = [Given 0; Deleted 0; Given 1] /\ pointers h = [None; None; None; None; None; None; None; None; Some 1; Some 1] /\ use_count h 9 = 2%nat /\ weaks h = [Some 1] | _ => False end.
Proof. split; [vm_compute; repeat split; auto; intros [X|[X|[]]]; discriminate|vm_compute; auto]. Qed.
Example C117_this_nonvacuous : match run empty [Make New; FromThis 0; Destroy 0; Deref 1; Destroy 1] with Ok h => log h = [Given 0; Deleted 0] | _ => False end.
Proof. reflexivity. Qed.
Example C117_lock_nonvacuous : match run empty [Make New; WOf 0; Destroy 0] with Ok h => nth 0 (weaks h) None = Some 0%nat /\ ~ live (log h) 0 | _ => False end.
Proof. cbn. split; [reflexivity|]. intros [_ N]. apply N. right. now left. Qed.

Print Assumptions C117_once_partial.
Print Assumptions C117_use_count.
Print Assumptions C117_released.
Print Assumptions C117_safe_partial.
Print Assumptions C117_values.
Print Assumptions C117_lock.
Print Assumptions C117_lock_empty.
Print Assumptions C117_this.
Print Assumptions C117_twice_refuted.
