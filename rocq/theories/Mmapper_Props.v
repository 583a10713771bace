(** C87: files mapped into memory. *)
From Verif Require Import Common CommonLemmas Mmapper_Spec Mmapper_Model Mmapper_Proof.
From Coq Require Import Permutation.
Local Open Scope Z_scope.

Definition descriptors (w : world) : list Z := flat_map (fun o => match o with Some o => descriptor (fd o) | None => [] end) (objs w).
Definition mappings (w : world) : list (Z * Z) := flat_map (fun o => match o with Some o => mapping (ptr o) (len o) | None => [] end) (objs w).
(** Whatever is released without being there is noticed. *)
Lemma take_none {A} (eqb : A -> A -> bool) (E : forall x y, eqb x y = true -> x = y) x l : ~ In x l -> take eqb x l = None.
Proof.
  induction l as [|y l IH]; intros H; [reflexivity|]. cbn [take]. destruct (eqb x y) eqn:Q; [apply E in Q; subst y; elim H; now left|].
  rewrite IH; [reflexivity|]. intros I. apply H. now right.
Qed.
Theorem C87_noticed : forall k, (forall f, ~ In f (fds k) -> stray (sys_close f k) = true) /\ (forall p n, ~ In (p, n) (maps k) -> stray (sys_munmap p n k) = true).
Proof.
  intros k. split; intros; [unfold sys_close|unfold sys_munmap]; rewrite take_none; try reflexivity; try assumption.
  - intros x y E. now apply Z.eqb_eq.
  - intros [a b] [c d] E. unfold eqm in E. cbn [fst snd] in E. apply andb_true_iff in E as [E F]. apply Z.eqb_eq in E, F. congruence.
Qed.
(** Programs that open, close, swap and destroy any number of mmappers, and move those that are not open: at any time the descriptors and mappings there
    are those there were before and one for each open object; nothing is released twice or kept; an open object's bytes can be used. *)
Theorem C87_owned_partial : forall k l w, NoDup (fds k) -> NoDup (maps k) -> stray k = false ->
  allowed_run l {| objs := []; kern := k |} -> run l {| objs := []; kern := k |} = Some w ->
  accounted (fds k) (descriptors w) (fds (kern w)) /\ accounted (maps k) (mappings w) (maps (kern w)) /\ stray (kern w) = false /\
  (forall i o n, object w i = Some o -> is_open o = true -> 0 <= n < size o -> at_ o n (kern w) = Ok (begin o + n)).
Proof.
  intros k l w N1 N2 S A R. assert (I : inv (fds k) (maps k) w).
  { eapply run_inv; [|exact A|exact R]. split; [|split]; cbn; [split; [now rewrite app_nil_r|exact N1]|split; [now rewrite app_nil_r|exact N2]|exact S]. }
  pose proof I as (SF & SM & SS). split; [exact SF|]. split; [exact SM|]. split; [exact SS|]. intros i o n E O Hn. unfold at_, begin. replace (mapped (kern w) (ptr o + n)) with true; [reflexivity|].
  symmetry. apply existsb_exists. exists (ptr o, len o). split; [|unfold size in Hn; cbn; lia]. destruct (inv_out _ _ _ _ _ I E) as [(_ & SM' & _) _].
  unfold hm, mapping in SM'. unfold is_open in O. destruct (ptr o =? 0); [discriminate|]. exact (accounted_in _ _ _ _ SM').
Qed.
(** Bytes of no mapping, like the one behind a lone mapping, cannot be used. *)
Theorem C87_bytes : forall o n k, (at_ o n k = Ok (begin o + n) <-> exists m, In m (maps k) /\ within m (begin o + n)) /\
  (at_ o n k = UB <-> forall m, In m (maps k) -> ~ within m (begin o + n)).
Proof.
  intros o n k. unfold at_, begin. destruct (mapped k (ptr o + n)) eqn:E.
  - apply existsb_exists in E as (m & H1 & H2). assert (W : within m (ptr o + n)) by (unfold within; lia).
    split; split; auto; [now exists m|discriminate|]. intros H. now destruct (H m H1).
  - assert (N : forall m, In m (maps k) -> ~ within m (ptr o + n)).
    { intros m H W. assert (T : mapped k (ptr o + n) = true); [|congruence]. apply existsb_exists. exists m. split; [exact H|]. unfold within in W. lia. }
    split; split; auto; [discriminate|]. intros (m & H & W). now destruct (N m H).
Qed.
(** So when all objects are gone, nothing is left. *)
Theorem C87_nothing_left_partial : forall k l w, NoDup (fds k) -> NoDup (maps k) -> stray k = false ->
  allowed_run l {| objs := []; kern := k |} -> run l {| objs := []; kern := k |} = Some w -> Forall (fun o => o = None) (objs w) ->
  Permutation (fds (kern w)) (fds k) /\ Permutation (maps (kern w)) (maps k).
Proof.
  intros k l w N1 N2 S A R F. destruct (C87_owned_partial k l w N1 N2 S A R) as ((P1 & _) & (P2 & _) & _).
  assert (E : descriptors w = [] /\ mappings w = []) by (unfold descriptors, mappings; induction F as [|o l' -> F IH]; [split; reflexivity|exact IH]).
  destruct E as [E1 E2]. rewrite E1, app_nil_r in P1. rewrite E2, app_nil_r in P2. auto.
Qed.
(** open succeeds if all three calls do; then the object has the new file.  If it fails, object and kernel are as before. *)
Theorem C87_open : forall o a k r o' k', open o a k = (r, o', k') ->
  (r = 0 /\ exists n p, 0 <= a_fd a /\ a_size a = Some n /\ a_map a = Some p /\ o' = {| ptr := p; len := n; fd := a_fd a |}) \/
  (r = -1 /\ (a_fd a < 0 \/ a_size a = None \/ a_map a = None) /\ o' = o /\ k' = k).
Proof.
  intros o a k r o' k'. unfold open. destruct (Z.ltb_spec (a_fd a) 0) as [C|C].
  - intros H. injection H as <- <- <-. right. split; [reflexivity|]. split; [now left|]. split; [reflexivity|]. apply destroy_none; [|reflexivity]. unfold hf, descriptor. cbn. now rewrite (proj2 (Z.leb_gt _ _) C).
  - assert (D : forall n, destroy {| ptr := 0; len := n; fd := a_fd a |} {| fds := a_fd a :: fds k; maps := maps k; stray := stray k |} = k).
    { intros n. unfold destroy, close. cbn. rewrite (proj2 (Z.leb_le _ _) C). cbn. unfold sys_close. cbn. rewrite Z.eqb_refl. now destruct k. }
    destruct (a_size a) as [n|]; [destruct (a_map a) as [p|]|]; intros H; injection H as <- <- <-; cbn [fds maps stray].
    + left. split; [reflexivity|]. now exists n, p.
    + right. rewrite D. split; [reflexivity|]. split; [auto|]. split; reflexivity.
    + right. rewrite D. split; [reflexivity|]. split; [auto|]. split; reflexivity.
Qed.
(** After close the object is not open and holds nothing, *)
Theorem C87_close : forall o k, let o' := fst (close o k) in is_open o' = false /\ descriptor (fd o') = [] /\ mapping (ptr o') (len o') = [] /\ begin o' = 0.
Proof.
  intros o k. unfold close, descriptor, mapping, is_open, begin. destruct (Z.leb_spec 0 (fd o)) as [C|C]; cbn [ptr len fd]; destruct (Z.eqb_spec (ptr o) 0) as [E|E]; cbn -[Z.leb];
    rewrite ?(proj2 (Z.eqb_eq _ _) E), ?(proj2 (Z.leb_gt _ _) C); auto.
Qed.
(** but it keeps its size, so that begin() and end() enclose bytes that do not exist. *)
Theorem C87_size_refuted : forall o k, let o' := fst (close o k) in size o' = size o /\ finish o' = begin o' + size o.
Proof.
  intros o k. unfold close, size, begin, finish. destruct (0 <=? fd o); cbn; destruct (negb (ptr o =? 0)); cbn; lia.
Qed.
(** Moving an open object releases the file: the new object says that it is open, but its bytes are unmapped and its descriptor is closed, *)
Theorem C87_move_refuted : forall o k, is_open o = true -> 0 <= fd o -> accounted [] [fd o] (fds k) -> accounted [] [(ptr o, len o)] (maps k) -> stray k = false ->
  exists new old k', move_ctor o k = (new, old, k') /\ is_open new = true /\ size new = size o /\ (forall n, at_ new n k' = UB) /\ ~ In (fd new) (fds k') /\ is_open old = false /\
  (* and releases them again in the end *) stray (destroy new k') = true.
Proof.
  intros o k O F AF AM S. eexists _, _, _. split; [reflexivity|].
  assert (K : sane [] [] [] [] (destroy o k)).
  { apply destroy_sane. unfold hf, hm, descriptor, mapping. unfold is_open in O. destruct (ptr o =? 0); [discriminate|]. rewrite (proj2 (Z.leb_le _ _) F). now split. }
  destruct K as ((P1 & _) & (P2 & _) & _). cbn in P1, P2. apply Permutation_sym, Permutation_nil in P1, P2. unfold swap.
  split; [exact O|]. split; [reflexivity|]. split; [intros n; unfold at_, mapped; now rewrite P2|]. split; [now rewrite P1|]. split; [reflexivity|].
  unfold destroy at 1, close. cbn [fd ptr len]. rewrite (proj2 (Z.leb_le _ _) F). cbn [ptr len]. unfold is_open in O. rewrite O. cbn [snd]. unfold sys_close. rewrite P1. cbn [take].
  unfold sys_munmap. cbn [maps]. rewrite P2. reflexivity.
Qed.
(** and if the descriptor has been given to another object meanwhile, it closes that one's. *)
Definition file1 := {| a_fd := 3; a_size := Some 10; a_map := Some 4096 |}.
Definition file2 := {| a_fd := 3; a_size := Some 20; a_map := Some 8192 |}.
Theorem C87_theft_refuted : exists w, run [New; New; Open 0 file1; Move 0; Open 1 file2; Destroy 2] {| objs := []; kern := {| fds := []; maps := []; stray := false |} |} = Some w /\
  exists o, object w 1 = Some o /\ fd o = 3 /\ fds (kern w) = [].
Proof. eexists. split; [vm_compute; reflexivity|]. eexists. split; [reflexivity|]. split; reflexivity. Qed.

Example C87_nonvacuous : let k := {| fds := [0; 1; 2]; maps := []; stray := false |} in
  let l := [New; New; Open 0 file1; Swap 0 1; Move 0; Close 1; Open 0 file2; Open 1 {| a_fd := 4; a_size := None; a_map := None |}] in
  exists w, run l {| objs := []; kern := k |} = Some w /\ allowed_run l {| objs := []; kern := k |} /\ fds (kern w) = [3; 0; 1; 2] /\ maps (kern w) = [(8192, 20)] /\
  exists w', run [Destroy 1; Destroy 0; Destroy 2] w = Some w' /\ kern w' = k.
Proof.
  eexists. split; [vm_compute; reflexivity|]. split; [|split; [reflexivity|split; [reflexivity|eexists; split; vm_compute; reflexivity]]].
  cbn. unfold valid, idle. cbn. repeat split; try (intros; lia); try (intros o H; injection H as <-; cbn; lia); try (intros p H; injection H as <-; eexists; repeat split; try lia; cbn; tauto); try (intros p H; discriminate).
  all: intros; repeat match goal with H : Some _ = Some _ |- _ => injection H as <- end; cbn in *; try lia; try tauto; try discriminate.
  all: try (eexists; repeat split; cbn; try lia; tauto).
Qed.

Print Assumptions C87_owned_partial.
Print Assumptions C87_bytes.
Print Assumptions C87_nothing_left_partial.
Print Assumptions C87_open.
Print Assumptions C87_close.
Print Assumptions C87_size_refuted.
Print Assumptions C87_move_refuted.
Print Assumptions C87_theft_refuted.
Print Assumptions C87_noticed.
