(** Proofs about the descriptors of the socket classes. *)
From Coq Require Import Permutation.
From Verif Require Import Common Fd_Spec Fd_Model.
Local Open Scope Z_scope.

Lemma mem_spec x l : mem x l = true <-> In x l.
Proof. unfold mem. destruct (in_dec Z.eq_dec x l); split; intros; auto; discriminate. Qed.
Lemma mem_out x l : mem x l = false <-> ~ In x l.
Proof. unfold mem. destruct (in_dec Z.eq_dec x l); split; intros; auto; try discriminate. tauto. Qed.
Lemma replay_app l : forall own l', replay own (l ++ l') = match replay own l with Some own => replay own l' | None => None end.
Proof. induction l as [|e l IH]; intros own l'; cbn [replay app]; [reflexivity|]. destruct (one own e); [apply IH|reflexivity]. Qed.
Lemma max_above l : forall x, In x l -> x <= fold_right Z.max 0 l.
Proof. induction l as [|y l IH]; intros x I; [contradiction|]. cbn [fold_right]. destruct I as [<-|I]; [lia|]. specialize (IH x I). lia. Qed.
Lemma max_nonneg l : 0 <= fold_right Z.max 0 l.
Proof. induction l as [|y l IH]; cbn [fold_right]; lia. Qed.
Lemma pick_new k v : 0 <= pick k v /\ ~ In (pick k v) (mine k).
Proof.
  unfold pick. destruct ((0 <=? v) && negb (mem v (mine k)) && negb (mem v (oth k))) eqn:E.
  - apply andb_true_iff in E. destruct E as [E _]. apply andb_true_iff in E. destruct E as [E1 E2]. apply Z.leb_le in E1.
    split; [lia|]. apply mem_out. destruct (mem v (mine k)); [discriminate|reflexivity].
  - pose proof (max_nonneg (mine k ++ oth k)). split; [lia|]. intros I.
    pose proof (max_above (mine k ++ oth k) _ (in_or_app _ _ _ (or_introl I))). lia.
Qed.
Lemma remove_none x (l : list Z) : ~ In x l -> remove Z.eq_dec x l = l.
Proof. apply notin_remove. Qed.
Lemma remove_perm x (l h : list Z) : NoDup l -> Permutation l (x :: h) -> Permutation (remove Z.eq_dec x l) h /\ NoDup (remove Z.eq_dec x l).
Proof.
  intros N P.
  assert (N' : NoDup (x :: h)) by (eapply Permutation_NoDup; eassumption). inversion N' as [|y l0 N1 N2 E]; subst.
  assert (ND : NoDup (remove Z.eq_dec x l)).
  { clear P. induction l as [|y l IH]; cbn; [constructor|]. inversion N; subst. destruct (Z.eq_dec x y); auto. constructor; auto.
    intros I. apply in_remove in I. tauto. }
  split; [|exact ND]. apply NoDup_Permutation; auto. intros y. split; intros I.
  - apply in_remove in I. destruct I as [I D]. apply (Permutation_in _ P) in I. destruct I as [E|I]; [congruence|exact I].
  - apply in_in_remove; [intros ->; tauto|]. apply (Permutation_in _ (Permutation_sym P)). right. exact I.
Qed.

(** the calls so far have touched nothing else, the classes' objects hold H, and L is held by nobody *)
Definition inv (H L : list Z) (k : kern) : Prop :=
  replay [] (log k) = Some (mine k) /\ NoDup (mine k) /\ Forall (fun x => 0 <= x) (mine k) /\ Permutation (mine k) (H ++ L).
Lemma inv_perm H H' L k : Permutation H H' -> inv H L k -> inv H' L k.
Proof. intros P (A & B & C & D). repeat split; auto. rewrite D. apply Permutation_app_tail, P. Qed.
Lemma inv_start : inv [] [] start.
Proof. repeat split; constructor. Qed.
Lemma inv_leak x H L k : inv (x :: H) L k -> inv H (x :: L) k.
Proof. intros (A & B & C & D). repeat split; auto. rewrite D. cbn [app]. apply Permutation_middle. Qed.
Lemma inv_in H L k x : inv H L k -> In x H -> In x (mine k) /\ 0 <= x.
Proof. intros (A & B & C & D) I. assert (J : In x (mine k)) by (apply (Permutation_in _ (Permutation_sym D)), in_or_app; auto). split; [exact J|]. rewrite Forall_forall in C. auto. Qed.

Section Kernel.
Context (orc : nat -> ans).
Definition touch (H : list Z) (fd : Z) : Prop := fd < 0 \/ In fd H.

Lemma next_inv H L k : inv H L k -> inv H L (snd (next orc k)).
Proof. intros I. exact I. Qed.
Lemma next_mine k : mine (snd (next orc k)) = mine k /\ log (snd (next orc k)) = log k.
Proof. split; reflexivity. Qed.
Lemma note_inv H L k c fd b : touch H fd -> inv H L k -> inv H L (note (On c fd b) k).
Proof.
  intros T I. pose proof I as (A & B & C & D). repeat split; auto. cbn [note log mine]. rewrite replay_app, A. cbn [replay one].
  destruct T as [T|T]; [apply Z.ltb_lt in T; rewrite T; reflexivity|].
  destruct (inv_in _ _ _ _ I T) as [J _]. apply mem_spec in J. rewrite J, orb_true_r. reflexivity.
Qed.
Lemma gave_inv H L k v : inv H L k -> let fd := pick k v in 0 <= fd /\ inv (fd :: H) L (mkK (calls k) (fd :: mine k) (oth k) (log k ++ [Gave fd])).
Proof.
  intros (A & B & C & D) fd. destruct (pick_new k v) as [P1 P2]. split; [exact P1|]. fold fd in P2. repeat split; cbn [log mine].
  - rewrite replay_app, A. reflexivity.
  - constructor; auto.
  - constructor; auto.
  - cbn [app]. constructor. exact D.
Qed.
Definition new_fd (H L : list Z) (fd : Z) (k : kern) : Prop := fd = -1 /\ inv H L k \/ 0 <= fd /\ inv (fd :: H) L k.
Lemma socket_inv H L k : inv H L k -> let (fd, k') := sys_socket orc k in new_fd H L fd k'.
Proof.
  intros I. unfold sys_socket. pose proof (next_inv _ _ _ I) as J. destruct (next orc k) as [a k1] eqn:E. cbn [snd] in J.
  destruct (yes a); [right; apply gave_inv; exact J|left; auto].
Qed.
Lemma on_inv H L k c fd : touch H fd -> inv H L k -> let (b, k') := sys_on orc c fd k in inv H L k'.
Proof.
  intros T I. unfold sys_on. pose proof (next_inv _ _ _ I) as J. destruct (next orc k) as [a k1]. cbn [snd] in J. apply note_inv; assumption.
Qed.
Lemma name_inv H L k fd : touch H fd -> inv H L k -> let (b, k') := sys_name orc fd k in inv H L k'.
Proof.
  intros T I. unfold sys_name. pose proof (next_inv _ _ _ I) as J. destruct (next orc k) as [a k1]. cbn [snd] in J. apply note_inv; assumption.
Qed.
Lemma accept_inv H L k fd : touch H fd -> inv H L k -> let (nfd, k') := sys_accept orc fd k in new_fd H L nfd k'.
Proof.
  intros T I. unfold sys_accept. pose proof (next_inv _ _ _ I) as J. destruct (next orc k) as [a k1]. cbn [snd] in J.
  pose proof (note_inv H L k1 KAccept fd (yes a && is_open fd k1) T J) as N.
  destruct (yes a && is_open fd k1); [right; apply gave_inv; exact N|left; auto].
Qed.
Lemma drop_inv H L k fd : inv (fd :: H) L k -> inv H L (drop fd (is_open fd k) k).
Proof.
  intros I. destruct (inv_in _ _ _ fd I (or_introl eq_refl)) as [J P]. destruct I as (A & B & C & D).
  unfold is_open. replace (mem fd (mine k)) with true by (symmetry; apply mem_spec, J). cbn [orb drop note log mine calls oth].
  destruct (remove_perm fd (mine k) (H ++ L) B D) as [Q N]. repeat split; cbn [log mine]; auto.
  - rewrite replay_app, A. cbn [replay one]. replace (fd <? 0) with false by (symmetry; apply Z.ltb_ge; lia).
    replace (mem fd (mine k)) with true by (symmetry; apply mem_spec, J). reflexivity.
  - rewrite Forall_forall in C |- *. intros x X. apply in_remove in X. apply C, X.
Qed.
Context (calm : forall n, intrs (orc n) = []).
Lemma close_inv H L k fd : inv (fd :: H) L k ->
  let (b, k') := sys_close orc fd k in inv H L k' /\ ((forall n, shut (orc n) = true) -> b = true).
Proof.
  intros I. unfold sys_close. pose proof (next_inv _ _ _ I) as J. unfold next in *. cbn [snd] in J. rewrite calm. cbn [fold_left].
  destruct (inv_in _ _ _ fd J (or_introl eq_refl)) as [M P]. split; [apply drop_inv; exact J|].
  intros Y. rewrite Y. unfold is_open. replace (mem fd _) with true by (symmetry; apply mem_spec, M). reflexivity.
Qed.
Lemma drop_neg H L k fd b : fd < 0 -> inv H L k -> inv H L (drop fd b k).
Proof.
  intros N (A & B & C & D).
  assert (X : ~ In fd (mine k)) by (intros I; rewrite Forall_forall in C; specialize (C _ I); lia).
  assert (R : replay [] (log k ++ [Close fd b]) = Some (mine k)).
  { rewrite replay_app, A. cbn [replay one]. replace (fd <? 0) with true by (symmetry; apply Z.ltb_lt; lia). reflexivity. }
  unfold drop. destruct b; repeat split; cbn [note log mine]; auto; rewrite remove_none by exact X; auto.
Qed.
Lemma close_once_inv H L k fd : inv (if fd <? 0 then H else fd :: H) L k -> let (b, k') := sys_close_once orc fd k in inv H L k'.
Proof.
  intros I. unfold sys_close_once. pose proof (next_inv _ _ _ I) as J. unfold next in *. cbn [snd] in J. rewrite calm.
  destruct (fd <? 0) eqn:N; [apply Z.ltb_lt in N; apply drop_neg; assumption|apply drop_inv; exact J].
Qed.

(** * stream_socket *)
Definition holds (fd : Z) : list Z := if fd <? 0 then [] else [fd].
Lemma holds_neg fd : fd < 0 -> holds fd = [].
Proof. unfold holds. intros. destruct (Z.ltb_spec fd 0); [reflexivity|lia]. Qed.
Lemma holds_pos fd : 0 <= fd -> holds fd = [fd].
Proof. unfold holds. intros. destruct (Z.ltb_spec fd 0); [lia|reflexivity]. Qed.
Lemma touch_holds fd H : touch (holds fd ++ H) fd.
Proof. unfold touch, holds. destruct (Z.ltb_spec fd 0); [left; assumption|right; left; reflexivity]. Qed.
Definition swf (s : stream) : Prop := sconn s = true -> 0 <= ssock s.
Definition sinv (s : stream) (H L : list Z) (k : kern) : Prop := swf s /\ inv (holds (ssock s) ++ H) L k.
Definition all_close : Prop := forall n, shut (orc n) = true.

Ltac runm lem := match goal with |- context[bind ?m ?f ?k] => unfold bind at 1; lem; destruct (m k) as [? ?] end.

Lemma s_close_inv s H L k : sinv s H L k ->
  let '(b, s', k') := s_close orc s k in inv H L k' /\ ssock s' < 0 /\ sconn s' = false.
Proof.
  intros [W I]. unfold s_close. destruct (Z.ltb_spec (ssock s) 0) as [N|N].
  - cbn [ret]. rewrite holds_neg in I by exact N. split; [exact I|split; [exact N|]]. destruct (sconn s) eqn:E; [specialize (W E); lia|reflexivity].
  - rewrite holds_pos in I by exact N. unfold bind. pose proof (close_inv H L k (ssock s) I) as C. destruct (sys_close orc (ssock s) k) as [b k'].
    destruct b; cbn; (split; [apply C|split; [lia|reflexivity]]).
Qed.
Lemma s_close_ok s H L k : sinv s H L k -> all_close -> 0 <= ssock s -> let '(b, s', k') := s_close orc s k in b = true.
Proof.
  intros [W I] Y N. unfold s_close. destruct (Z.ltb_spec (ssock s) 0) as [X|_]; [lia|].
  rewrite holds_pos in I by exact N. unfold bind. pose proof (close_inv H L k (ssock s) I) as C. destruct (sys_close orc (ssock s) k) as [b k'].
  rewrite (proj2 C Y). reflexivity.
Qed.
Lemma s_open_inv s H L k : sinv s H L k -> let '(b, s', k') := s_open orc s k in sinv s' H L k' /\ sconn s' = sconn s /\ (b = true -> 0 <= ssock s').
Proof.
  intros [W I]. unfold s_open. destruct (Z.leb_spec 0 (ssock s)) as [N|N].
  - cbn [ret]. split; [exact (conj W I)|auto].
  - rewrite holds_neg in I by exact N. cbn [app] in I. unfold bind. pose proof (socket_inv H L k I) as S. destruct (sys_socket orc k) as [fd k'].
    assert (C : sconn s = false) by (destruct (sconn s) eqn:E; [specialize (W E); lia|reflexivity]).
    destruct S as [[-> J]|[P J]].
    + cbn. split; [split; [intros X; cbn in X; congruence|exact J]|]. split; [reflexivity|discriminate].
    + destruct (Z.ltb_spec fd 0); [lia|]. cbn [ret]. split; [split; [intros _; exact P|cbn [ssock]; rewrite holds_pos by exact P; exact J]|].
      split; [reflexivity|intros _; exact P].
Qed.
Lemma s_new_inv H L k : inv H L k -> let (s, k') := s_new orc k in sinv s H L k' /\ sconn s = false.
Proof.
  intros I. unfold s_new, bind.
  assert (J : sinv (mkS false (-1) 0 0) H L k) by (split; [intros X; discriminate X|exact I]).
  pose proof (s_open_inv _ H L k J) as S. destruct (s_open orc (mkS false (-1) 0 0) k) as [[b s] k']. cbn [ret]. split; apply S.
Qed.
Lemma try_inv fd ips port : forall H L k, touch H fd -> inv H L k -> let (r, k') := try_all orc fd ips port k in inv H L k'.
Proof.
  induction ips as [|ip ips IH]; intros H L k T I; cbn [try_all]; [exact I|].
  unfold bind. pose proof (on_inv H L k (KConnect ip port) fd T I) as O. destruct (sys_on orc (KConnect ip port) fd k) as [b k'].
  destruct b; [exact O|apply IH; assumption].
Qed.
Definition ok_s {A} (H L : list Z) (r : A * stream * kern) : Prop := let '(_, s, k) := r in sinv s H L k.
Lemma closed_sinv s H L k : inv H L k -> ssock s < 0 -> sconn s = false -> sinv s H L k.
Proof. intros I N C. split; [intros X; congruence|]. rewrite holds_neg by exact N. exact I. Qed.
Lemma s_connect_inv ips port s H L k : sinv s H L k -> ok_s H L (s_connect orc ips port s k).
Proof.
  intros I. unfold s_connect.
  assert (G : forall s k, sinv s H L k -> 0 <= ssock s ->
    ok_s H L (bind (try_all orc (ssock s) ips port) (fun r => match r with Some ip => ret (true, mkS true (ssock s) ip port)
      | None => bind (s_close orc s) (fun '(_, s) => ret (false, s)) end) k)).
  { clear - calm. intros s k I N. unfold bind at 1. pose proof (try_inv (ssock s) ips port _ _ _ (touch_holds _ H) (proj2 I)) as T.
    destruct (try_all orc (ssock s) ips port k) as [[ip|] k'].
    - cbn. split; [intros _; exact N|exact T].
    - unfold bind. pose proof (s_close_inv s H L k' (conj (proj1 I) T)) as C. destruct (s_close orc s k') as [[b s'] k''].
      destruct C as (C1 & C2 & C3). cbn. apply closed_sinv; assumption. }
  destruct (Z.ltb_spec (ssock s) 0) as [N|N]; [exact I|]. destruct (sconn s) eqn:SC; [|apply G; assumption].
  unfold bind at 1. pose proof (s_close_inv s H L k I) as C. destruct (s_close orc s k) as [[b s'] k'].
  destruct C as (C1 & C2 & C3). pose proof (closed_sinv s' H L k' C1 C2 C3) as J. destruct b; [|exact J]. cbn [negb].
  unfold bind at 1. pose proof (s_open_inv s' H L k' J) as O. destruct (s_open orc s' k') as [[b s''] k'']. destruct O as (O1 & O2 & O3).
  destruct b; [|exact O1]. cbn [negb]. apply G; auto.
Qed.
Lemma s_shutdown_inv s H L k : sinv s H L k -> ok_s H L (s_shutdown orc s k).
Proof.
  intros I. unfold s_shutdown. unfold bind at 1. pose proof (s_close_inv s H L k I) as C. destruct (s_close orc s k) as [[b s'] k'].
  destruct C as (C1 & C2 & C3). pose proof (closed_sinv s' H L k' C1 C2 C3) as J. destruct b; [|exact J]. cbn [negb].
  unfold bind. pose proof (s_open_inv s' H L k' J) as O. destruct (s_open orc s' k') as [[b s''] k'']. apply O.
Qed.
Lemma s_io_inv s H L k : sinv s H L k -> let (s', k') := s_io orc s k in sinv s' H L k'.
Proof.
  intros I. unfold s_io. destruct (sconn s); [|exact I]. cbn [negb]. unfold bind.
  pose proof (on_inv _ _ _ KIo (ssock s) (touch_holds _ H) (proj2 I)) as O. destruct (sys_on orc KIo (ssock s) k) as [b k']. destruct b.
  - exact (conj (proj1 I) O).
  - pose proof (s_close_inv s H L k' (conj (proj1 I) O)) as C. destruct (s_close orc s k') as [[b s'] k''].
    destruct C as (C1 & C2 & C3). cbn. apply closed_sinv; assumption.
Qed.
Lemma s_flush_inv n : forall s H L k, sinv s H L k -> let (s', k') := s_flush orc n s k in sinv s' H L k'.
Proof.
  induction n as [|n IH]; intros s H L k I; cbn [s_flush]; [exact I|]. unfold bind. pose proof (s_io_inv s H L k I) as J.
  destruct (s_io orc s k) as [s' k']. apply IH, J.
Qed.
Lemma s_delete_inv n s H L k : sinv s H L k -> let (u, k') := s_delete orc n s k in inv H L k'.
Proof.
  intros I. unfold s_delete, bind. pose proof (s_flush_inv n s H L k I) as J. destruct (s_flush orc n s k) as [s' k'].
  pose proof (s_close_inv s' H L k' J) as C. destruct (s_close orc s' k') as [[b s''] k''].
  destruct C as (C1 & C2 & C3). exact C1.
Qed.
Lemma s_option_inv s H L k : sinv s H L k -> let (u, k') := s_option orc s k in sinv s H L k'.
Proof.
  intros I. unfold s_option. destruct (ssock s <? 0); [exact I|].
  pose proof (on_inv _ _ _ KOpt (ssock s) (touch_holds _ H) (proj2 I)) as O. destruct (sys_on orc KOpt (ssock s) k). exact (conj (proj1 I) O).
Qed.
(** binding a descriptor to a stream which does not hold one, or to a fresh one: the descriptor is lost if closing fails *)
Lemma s_bind_inv fd addr port s H L k : sinv s (fd :: H) L k -> 0 <= fd ->
  let '(b, s', k') := s_bind orc fd addr port s k in exists L', sinv s' H L' k' /\ (all_close -> L' = L).
Proof.
  intros I P. unfold s_bind. destruct (Z.ltb_spec fd 0); [lia|]. destruct (Z.leb_spec 0 (ssock s)) as [N|N].
  - unfold bind. pose proof (s_close_inv s _ L k I) as C. pose proof (s_close_ok s _ L k I) as D. destruct (s_close orc s k) as [[b s'] k'].
    destruct C as (C1 & C2 & C3). destruct b; cbn [negb].
    + exists L. split; [|reflexivity]. split; [intros _; exact P|]. cbn [ssock]. rewrite holds_pos by exact P. exact C1.
    + exists (fd :: L). split; [apply closed_sinv; [apply inv_leak|..]; assumption|]. intros Y. specialize (D Y N). discriminate D.
  - unfold bind, ret. cbn [negb]. exists L. split; [|reflexivity]. split; [intros _; exact P|]. cbn [ssock]. rewrite holds_pos by exact P.
    destruct I as [_ I]. rewrite holds_neg in I by exact N. exact I.
Qed.

(** * server_socket *)
Definition vheld (v : server) : list Z := if vconn v then [vsock v] else [].
Definition vwf (v : server) : Prop := vconn v = true -> 0 <= vsock v.
Definition vinv (v : server) (H L : list Z) (k : kern) : Prop := vwf v /\ inv (vheld v ++ H) L k.
Lemma setup_inv fd port backlog H L k : inv (fd :: H) L k ->
  let (r, k') := v_setup orc fd port backlog k in match r with Some _ => inv (fd :: H) L k' | None => inv H L k' end.
Proof.
  intros I. unfold v_setup.
  assert (T : touch (fd :: H) fd) by (right; left; reflexivity).
  assert (F : forall k, inv (fd :: H) L k -> let (r, k') := bind (sys_close orc fd) (fun _ => ret (@None Z)) k in match r with Some _ => inv (fd :: H) L k' | None => inv H L k' end).
  { intros k0 J. unfold bind. pose proof (close_inv H L k0 fd J) as C. destruct (sys_close orc fd k0). apply C. }
  unfold bind at 1. pose proof (on_inv _ _ _ KReuse fd T I) as O1. destruct (sys_on orc KReuse fd k) as [[|] k1]; [|apply F, O1]. cbn [negb].
  unfold bind at 1. pose proof (on_inv _ _ _ (KBind port) fd T O1) as O2. destruct (sys_on orc (KBind port) fd k1) as [[|] k2]; [|apply F, O2]. cbn [negb].
  unfold bind at 1. pose proof (on_inv _ _ _ KLinger fd T O2) as O3. destruct (sys_on orc KLinger fd k2) as [[|] k3]; [|apply F, O3]. cbn [negb].
  unfold bind at 1. pose proof (on_inv _ _ _ (KListen backlog) fd T O3) as O4. destruct (sys_on orc (KListen backlog) fd k3) as [[|] k4]; [|apply F, O4]. cbn [negb].
  destruct (port =? 0); cbn [negb]; [|exact O4].
  unfold bind at 1. pose proof (name_inv _ _ _ fd T O4) as O5. destruct (sys_name orc fd k4) as [[[|] p] k5]; [exact O5|apply F, O5].
Qed.
Lemma v_create_inv port backlog v H L k : vconn v = false -> vinv v H L k ->
  let '(b, v', k') := v_create orc port backlog v k in vinv v' H L k' /\ vconn v' = b.
Proof.
  intros C [W I]. unfold v_create. unfold bind at 1. unfold vheld in I. rewrite C in I. cbn [app] in I.
  pose proof (socket_inv H L k I) as S. destruct (sys_socket orc k) as [fd k']. destruct S as [[-> J]|[P J]].
  - cbn. split; [|exact C]. split; [intros X; cbn in X; congruence|]. unfold vheld. cbn. rewrite C. exact J.
  - destruct (Z.ltb_spec fd 0); [lia|]. unfold bind. pose proof (setup_inv fd port backlog H L k' J) as S.
    destruct (v_setup orc fd port backlog k') as [[p|] k'']; cbn.
    + split; [split; [intros _; exact P|exact S]|reflexivity].
    + split; [|exact C]. split; [intros X; cbn in X; congruence|]. unfold vheld. cbn. rewrite C. exact S.
Qed.
Lemma v_close_inv v H L k : vinv v H L k -> let '(b, v', k') := v_close orc v k in inv H L k' /\ vconn v' = false.
Proof.
  intros [W I]. unfold v_close, vheld in *. destruct (vconn v) eqn:C; cbn [negb].
  - unfold bind. pose proof (close_inv H L k (vsock v) I) as K. destruct (sys_close orc (vsock v) k). cbn. split; [apply K|reflexivity].
  - cbn. auto.
Qed.
Lemma v_touch v H : vconn v = true -> touch (vheld v ++ H) (vsock v).
Proof. intros C. unfold vheld. rewrite C. right. left. reflexivity. Qed.
Lemma v_timeout_inv v H L k : vinv v H L k -> let (b, k') := v_timeout orc v k in vinv v H L k'.
Proof.
  intros [W I]. unfold v_timeout. destruct (vconn v) eqn:C; cbn [negb]; [|exact (conj W I)]. unfold bind.
  pose proof (on_inv _ _ _ KOpt (vsock v) (v_touch v H C) I) as O. destruct (sys_on orc KOpt (vsock v) k) as [[|] k']; [|exact (conj W O)].
  pose proof (on_inv _ _ _ KOpt (vsock v) (v_touch v H C) O) as O2. destruct (sys_on orc KOpt (vsock v) k'). exact (conj W O2).
Qed.
Lemma v_accept_inv addr port v H L k : vinv v H L k ->
  let (r, k') := v_accept orc addr port v k in exists L', (all_close -> L' = L) /\
  match r with Some s => swf s /\ inv (holds (ssock s) ++ vheld v ++ H) L' k' | None => inv (vheld v ++ H) L' k' end.
Proof.
  intros [W I]. unfold v_accept. destruct (vconn v) eqn:C; cbn [negb]; [|exists L; auto].
  unfold bind at 1. pose proof (accept_inv _ _ _ (vsock v) (v_touch v H C) I) as A. destruct (sys_accept orc (vsock v) k) as [c k']. destruct A as [[-> J]|[P J]].
  - cbn. exists L. auto.
  - destruct (Z.ltb_spec c 0); [lia|]. unfold bind. pose proof (s_new_inv _ _ _ J) as N. destruct (s_new orc k') as [s k'']. apply proj1 in N.
    pose proof (s_bind_inv c addr port s _ _ _ N P) as B. destruct (s_bind orc c addr port s k'') as [[b s'] k3]. cbn.
    destruct B as (L' & B & E). exists L'. split; [exact E|exact B].
Qed.

(** * mprpc *)
Lemma m_close_inv fd H L k : inv (holds fd ++ H) L k -> let '(b, fd', k') := m_close orc fd k in inv H L k' /\ fd' < 0.
Proof.
  intros I. unfold m_close. destruct (Z.ltb_spec fd 0) as [N|N]; [rewrite holds_neg in I by exact N; cbn; auto|].
  unfold bind at 1. pose proof (on_inv _ _ _ KDown fd (touch_holds _ H) I) as O. destruct (sys_on orc KDown fd k) as [b k'].
  rewrite holds_pos in O by exact N. unfold bind. pose proof (close_inv H L k' fd O) as C. destruct (sys_close orc fd k'). cbn. split; [apply C|lia].
Qed.
Lemma connect_sock_inv ips port H L k : inv H L k -> let (fd, k') := connect_sock orc ips port k in new_fd H L fd k'.
Proof.
  intros I. unfold connect_sock. unfold bind at 1. pose proof (socket_inv H L k I) as S. destruct (sys_socket orc k) as [fd k']. destruct S as [[-> J]|[P J]]; [left; cbn; auto|].
  destruct (Z.ltb_spec fd 0); [lia|]. unfold bind at 1. pose proof (try_inv fd ips port _ _ _ (or_intror (or_introl eq_refl) : touch (fd :: H) fd) J) as T.
  destruct (try_all orc fd ips port k') as [[ip|] k'']; [right; auto|]. unfold bind. pose proof (close_inv H L k'' fd T) as C. destruct (sys_close orc fd k''). left. cbn. split; [reflexivity|apply C].
Qed.
Lemma listen_sock_inv port backlog H L k : inv H L k -> let (fd, k') := listen_sock orc port backlog k in new_fd H L fd k'.
Proof.
  intros I. unfold listen_sock. unfold bind at 1. pose proof (socket_inv H L k I) as S. destruct (sys_socket orc k) as [fd k']. destruct S as [[-> J]|[P J]]; [left; cbn; auto|].
  destruct (Z.ltb_spec fd 0); [lia|].
  assert (T : touch (fd :: H) fd) by (right; left; reflexivity).
  assert (F : forall k, inv (fd :: H) L k -> let (r, k') := bind (sys_close orc fd) (fun _ => ret (-1)) k in new_fd H L r k').
  { intros k0 J0. unfold bind. pose proof (close_inv H L k0 fd J0) as C. destruct (sys_close orc fd k0). left. cbn. split; [reflexivity|apply C]. }
  unfold bind at 1. pose proof (on_inv _ _ _ KReuse fd T J) as O1. destruct (sys_on orc KReuse fd k') as [[|] k1]; [|apply F, O1]. cbn [negb].
  unfold bind at 1. pose proof (on_inv _ _ _ (KBind port) fd T O1) as O2. destruct (sys_on orc (KBind port) fd k1) as [[|] k2]; [|apply F, O2]. cbn [negb].
  unfold bind at 1. pose proof (on_inv _ _ _ KLinger fd T O2) as O3. destruct (sys_on orc KLinger fd k2) as [[|] k3]; [|apply F, O3]. cbn [negb].
  unfold bind at 1. pose proof (on_inv _ _ _ (KListen backlog) fd T O3) as O4. destruct (sys_on orc (KListen backlog) fd k3) as [[|] k4]; [|apply F, O4]. cbn [negb].
  right. auto.
Qed.
Lemma m_take_inv (get : M Z) fd H L k : (forall H k, inv H L k -> let (fd, k') := get k in new_fd H L fd k') ->
  inv (holds fd ++ H) L k -> let '(b, fd', k') := m_take orc get fd k in inv (holds fd' ++ H) L k' /\ (if b then 0 <= fd' else fd' = fd).
Proof.
  intros G I. unfold m_take. unfold bind at 1. pose proof (G _ k I) as N. destruct (get k) as [nfd k']. destruct N as [[-> J]|[P J]]; [cbn; split; [exact J|reflexivity]|].
  destruct (Z.ltb_spec nfd 0); [lia|]. unfold bind.
  assert (J' : inv (holds fd ++ nfd :: H) L k') by (eapply inv_perm; [apply Permutation_middle|exact J]).
  pose proof (m_close_inv fd _ _ _ J') as C. destruct (m_close orc fd k') as [[b f] k'']. cbn. rewrite holds_pos by exact P. split; [apply C|exact P].
Qed.
Lemma m_option_inv fd H L k : touch H fd -> inv H L k -> let (b, k') := m_option orc fd k in inv H L k'.
Proof.
  intros T I. unfold m_option. destruct (fd <? 0); [exact I|]. unfold bind. pose proof (on_inv _ _ _ KOpt fd T I) as O.
  destruct (sys_on orc KOpt fd k) as [[|] k']; [|exact O]. apply on_inv; assumption.
Qed.
Lemma o_delete_inv fd H L k : inv (holds fd ++ H) L k -> let (u, k') := o_delete orc fd k in inv H L k'.
Proof.
  intros I. unfold o_delete, bind. pose proof (on_inv _ _ _ KDown fd (touch_holds _ H) I) as O. destruct (sys_on orc KDown fd k) as [b k'].
  apply close_once_inv. unfold holds in O. destruct (fd <? 0); exact O.
Qed.
Definition opt_held (r : option Z) : list Z := match r with Some fd => holds fd | None => [] end.
Lemma serve_inv t fd H L k : touch H fd -> inv H L k -> let (r, k') := serve orc t fd k in inv (opt_held r ++ H) L k'.
Proof.
  intros T I. unfold serve. unfold bind at 1. pose proof (accept_inv H L k fd T I) as A. destruct (sys_accept orc fd k) as [s k']. destruct A as [[-> J]|[P J]]; [exact J|].
  destruct (Z.ltb_spec s 0); [lia|]. assert (T' : touch (s :: H) s) by (right; left; reflexivity).
  unfold bind at 1. pose proof (m_option_inv s _ _ _ T' J) as O. destruct (m_option orc s k') as [b k1].
  unfold bind at 1.
  assert (O2 : let (b, k2) := (if t then m_option orc s else ret true) k1 in inv (s :: H) L k2) by (destruct t; [apply m_option_inv; assumption|exact O]).
  destruct ((if t then m_option orc s else ret true) k1) as [[|] k2].
  - cbn [ret opt_held]. rewrite holds_pos by exact P. exact O2.
  - unfold bind. pose proof (m_close_inv s H L k2) as C. rewrite holds_pos in C by exact P. specialize (C O2). destruct (m_close orc s k2) as [[b' f] k3]. apply C.
Qed.
Lemma client_inv n ips port t : forall H L k, inv H L k -> let (r, k') := get_connection orc n ips port t k in inv (opt_held r ++ H) L k'.
Proof.
  induction n as [|n IH]; intros H L k I; cbn [get_connection]; [exact I|]. unfold bind at 1. unfold m_connect.
  pose proof (m_take_inv (connect_sock orc ips port) (-1) H L k (fun H k => connect_sock_inv ips port H L k) I) as C.
  destruct (m_take orc (connect_sock orc ips port) (-1) k) as [[b fd] k']. destruct C as [C1 C2]. destruct b; cbn [negb].
  - rewrite holds_pos in C1 by exact C2. cbn [app] in C1. assert (T' : touch (fd :: H) fd) by (right; left; reflexivity).
    unfold bind at 1.
    assert (O2 : let (b, k2) := (if t then m_option orc fd else ret true) k' in inv (fd :: H) L k2) by (destruct t; [apply m_option_inv; assumption|exact C1]).
    destruct ((if t then m_option orc fd else ret true) k') as [b k2].
    unfold bind at 1.
    assert (O3 : let (b, k3) := (if b then m_option orc fd else ret false) k2 in inv (fd :: H) L k3) by (destruct b; [apply m_option_inv; assumption|exact O2]).
    destruct ((if b then m_option orc fd else ret false) k2) as [[|] k3].
    + cbn [ret opt_held]. rewrite holds_pos by exact C2. exact O3.
    + unfold bind. pose proof (m_close_inv fd H L k3) as C. rewrite holds_pos in C by exact C2. specialize (C O3). destruct (m_close orc fd k3) as [[b' f] k4].
      apply IH, C.
  - subst fd. apply IH. exact C1.
Qed.

(** * Programs *)
Definition oheld (o : option obj) : list Z :=
  match o with
  | None => []
  | Some (OStream s) => holds (ssock s)
  | Some (OServer v) => vheld v
  | Some (OSock fd) | Some (OObject fd) => holds fd
  end.
Definition owf (o : option obj) : Prop := match o with Some (OStream s) => swf s | Some (OServer v) => vwf v | _ => True end.
Definition winv (w : world) (L : list Z) (k : kern) : Prop := Forall owf (objs w) /\ inv (flat_map oheld (objs w)) L k.
Definition rest (w : world) (i : nat) : list Z := flat_map oheld (firstn i (objs w)) ++ flat_map oheld (skipn (S i) (objs w)).

Lemma get_split w i o : get w i = Some o -> objs w = firstn i (objs w) ++ Some o :: skipn (S i) (objs w).
Proof.
  unfold get. destruct (nth_error (objs w) i) as [x|] eqn:E; [|discriminate]. intros ->.
  destruct (nth_error_split _ _ E) as (l1 & l2 & -> & <-).
  rewrite firstn_app, Nat.sub_diag, firstn_all, firstn_O, app_nil_r.
  replace (S (length l1)) with (length (l1 ++ [Some o])) by (rewrite app_length; cbn; lia).
  replace (l1 ++ Some o :: l2) with ((l1 ++ [Some o]) ++ l2) at 2 by (rewrite <- app_assoc; reflexivity).
  rewrite skipn_app, skipn_all, Nat.sub_diag, skipn_O. reflexivity.
Qed.
Lemma held_perm w i o : Permutation (flat_map oheld (objs (put w i o))) (oheld o ++ rest w i).
Proof. unfold put, rest. cbn [objs]. rewrite flat_map_app. cbn [flat_map]. rewrite Permutation_app_swap_app. reflexivity. Qed.
Lemma take w i o L k : get w i = Some o -> winv w L k -> owf (Some o) /\ inv (oheld (Some o) ++ rest w i) L k.
Proof.
  intros G [W I]. split.
  - rewrite (get_split w i o G) in W. apply Forall_app in W. destruct W as [_ W]. exact (Forall_inv W).
  - eapply inv_perm; [|exact I]. rewrite <- held_perm. unfold put. cbn [objs]. rewrite <- (get_split w i o G). reflexivity.
Qed.
Lemma give w i o o' L k : get w i = Some o -> winv w L k -> forall L' k', owf o' -> inv (oheld o' ++ rest w i) L' k' -> winv (put w i o') L' k'.
Proof.
  intros G [W I] L' k' O J. split.
  - rewrite (get_split w i o G) in W. apply Forall_app in W. destruct W as [W1 W2]. unfold put. cbn [objs]. apply Forall_app. split; [exact W1|].
    constructor; [exact O|exact (Forall_inv_tail W2)].
  - eapply inv_perm; [symmetry; apply held_perm|exact J].
Qed.
Lemma keep w i o L k : get w i = Some o -> winv w L k -> forall k', inv (oheld (Some o) ++ rest w i) L k' -> winv w L k'.
Proof.
  intros G [W I] k' J. split; [exact W|]. eapply inv_perm; [|exact J]. rewrite <- held_perm. unfold put. cbn [objs]. rewrite <- (get_split w i o G). reflexivity.
Qed.
Lemma add_inv w o L' k' : Forall owf (objs w) -> owf (Some o) -> inv (oheld (Some o) ++ flat_map oheld (objs w)) L' k' -> winv (add w o) L' k'.
Proof.
  intros W O J. split; [apply Forall_app; split; auto|]. cbn [add objs]. rewrite flat_map_app. eapply inv_perm; [|exact J].
  cbn [flat_map]. rewrite app_nil_r. apply Permutation_app_comm.
Qed.
Lemma add_opt_inv w r L' k' : Forall owf (objs w) -> inv (opt_held r ++ flat_map oheld (objs w)) L' k' -> winv (add_opt w r) L' k'.
Proof. intros W J. destruct r as [fd|]; [apply add_inv; [exact W|exact Logic.I|exact J]|split; [exact W|exact J]]. Qed.
Lemma touch_held w i o fd : get w i = Some o -> oheld (Some o) = holds fd -> touch (flat_map oheld (objs w)) fd.
Proof.
  intros G E. unfold touch. destruct (Z.ltb_spec fd 0) as [N|N]; [left; exact N|right]. rewrite (get_split w i o G), flat_map_app.
  apply in_or_app. right. cbn [flat_map]. apply in_or_app. left. rewrite E, holds_pos by exact N. left. reflexivity.
Qed.

Lemma step_inv o w L k : winv w L k -> careful1 o w = true ->
  let (w', k') := step orc o w k in exists L', winv w' L' k' /\ (all_close -> L' = L).
Proof.
  intros I C.
  assert (ND : winv w L k -> exists L', winv w L' k /\ (all_close -> L' = L)) by (exists L; auto).
  destruct o; cbn [step careful1] in *; try discriminate C; unfold bind.
  - pose proof (s_new_inv _ _ _ (proj2 I)) as S. destruct (s_new orc k) as [s k']. exists L. split; [|reflexivity].
    apply add_inv; [apply I| |]; apply S.
  - exists L. split; [|reflexivity]. apply add_inv; [apply I|intros X; discriminate X|apply I].
  - exists L. split; [|reflexivity]. apply add_inv; [apply I|exact Logic.I|apply I].
  - pose proof (connect_sock_inv ips port _ _ _ (proj2 I)) as S. destruct (connect_sock orc ips port k) as [fd k']. exists L. split; [|reflexivity].
    apply add_inv; [apply I|exact Logic.I|]. cbn [oheld]. destruct S as [[-> S]|[P S]]; [exact S|rewrite holds_pos by exact P; exact S].
  - pose proof (client_inv 2 ips port timeout _ _ _ (proj2 I)) as S. destruct (get_connection orc 2 ips port timeout k) as [r k']. exists L. split; [|reflexivity].
    apply add_opt_inv; [apply I|exact S].
  - destruct (get w i) as [[s|v|fd|fd]|] eqn:G; try exact (ND I).
    + destruct (take _ _ _ _ _ G I) as [W J]. pose proof (s_connect_inv ips port s _ _ _ (conj W J)) as S. destruct (s_connect orc ips port s k) as [[b s'] k'].
      exists L. split; [|reflexivity]. eapply give; [exact G|exact I|apply S|apply S].
    + destruct (take _ _ _ _ _ G I) as [W J]. unfold m_connect. pose proof (m_take_inv (connect_sock orc ips port) fd _ L k (fun H k => connect_sock_inv ips port H L k) J) as S.
      destruct (m_take orc (connect_sock orc ips port) fd k) as [[b fd'] k']. exists L. split; [|reflexivity]. eapply give; [exact G|exact I|exact Logic.I|apply S].
  - destruct (get w i) as [[s|v|fd|fd]|] eqn:G; try exact (ND I).
    destruct (take _ _ _ _ _ G I) as [W J]. pose proof (s_shutdown_inv s _ _ _ (conj W J)) as S. destruct (s_shutdown orc s k) as [[b s'] k'].
    exists L. split; [|reflexivity]. eapply give; [exact G|exact I|apply S|apply S].
  - destruct (get w i) as [[s|v|fd|fd]|] eqn:G; try exact (ND I); destruct (take _ _ _ _ _ G I) as [W J].
    + pose proof (s_io_inv s _ _ _ (conj W J)) as S. destruct (s_io orc s k) as [s' k'].
      exists L. split; [|reflexivity]. eapply give; [exact G|exact I|apply S|apply S].
    + pose proof (on_inv _ _ _ KIo fd (touch_holds _ _) J) as S. destruct (sys_on orc KIo fd k) as [b k'].
      exists L. split; [|reflexivity]. eapply keep; [exact G|exact I|exact S].
  - destruct (get w i) as [[s|v|fd|fd]|] eqn:G; try exact (ND I); destruct (take _ _ _ _ _ G I) as [W J].
    + pose proof (s_option_inv s _ _ _ (conj W J)) as S. destruct (s_option orc s k) as [b k'].
      exists L. split; [|reflexivity]. eapply keep; [exact G|exact I|apply S].
    + pose proof (v_timeout_inv v _ _ _ (conj W J)) as S. destruct (v_timeout orc v k) as [b k'].
      exists L. split; [|reflexivity]. eapply keep; [exact G|exact I|apply S].
    + pose proof (m_option_inv fd _ _ _ (touch_holds _ _) J) as S. destruct (m_option orc fd k) as [b k'].
      exists L. split; [|reflexivity]. eapply keep; [exact G|exact I|exact S].
  - destruct (get w i) as [[s|v|fd|fd]|] eqn:G; try exact (ND I); destruct (take _ _ _ _ _ G I) as [W J].
    + apply negb_true_iff in C. pose proof (v_create_inv port backlog v _ _ _ C (conj W J)) as S. destruct (v_create orc port backlog v k) as [[b v'] k'].
      exists L. split; [|reflexivity]. eapply give; [exact G|exact I|apply S|apply S].
    + unfold m_listen. pose proof (m_take_inv (listen_sock orc port backlog) fd _ L k (fun H k => listen_sock_inv port backlog H L k) J) as S.
      destruct (m_take orc (listen_sock orc port backlog) fd k) as [[b fd'] k']. exists L. split; [|reflexivity]. eapply give; [exact G|exact I|exact Logic.I|apply S].
  - destruct (get w i) as [[s|v|fd|fd]|] eqn:G; try exact (ND I); destruct (take _ _ _ _ _ G I) as [W J].
    + pose proof (v_close_inv v _ _ _ (conj W J)) as S. destruct (v_close orc v k) as [[b v'] k']. destruct S as [S1 S2].
      exists L. split; [|reflexivity]. eapply give; [exact G|exact I| |]; cbn [owf oheld]; unfold vwf, vheld; rewrite S2; [discriminate|exact S1].
    + pose proof (m_close_inv fd _ _ _ J) as S. destruct (m_close orc fd k) as [[b fd'] k']. destruct S as [S1 S2].
      exists L. split; [|reflexivity]. eapply give; [exact G|exact I|exact Logic.I|]. cbn [oheld]. rewrite holds_neg by exact S2. exact S1.
  - destruct (get w i) as [[s|v|fd|fd]|] eqn:G; try exact (ND I). destruct (take _ _ _ _ _ G I) as [W J].
    pose proof (v_accept_inv addr port v _ _ _ (conj W J)) as S. destruct (v_accept orc addr port v k) as [r k']. destruct S as (L' & E & S).
    exists L'. split; [|exact E].
    assert (P : Permutation (vheld v ++ rest w i) (flat_map oheld (objs w))).
    { change (vheld v) with (oheld (Some (OServer v))). rewrite <- held_perm. unfold put. cbn [objs]. rewrite <- (get_split w i _ G). reflexivity. }
    destruct r as [s|]; cbn [ret].
    + apply add_inv; [apply I|apply S|]. eapply inv_perm; [|apply S]. apply Permutation_app_head, P.
    + split; [apply I|]. eapply inv_perm; [exact P|exact S].
  - destruct (get w i) as [[s|v|fd|fd]|] eqn:G; try exact (ND I).
    pose proof (serve_inv timeout fd _ _ _ (touch_held w i _ fd G eq_refl) (proj2 I)) as S. destruct (serve orc timeout fd k) as [r k'].
    exists L. split; [|reflexivity]. apply add_opt_inv; [apply I|exact S].
  - destruct (get w i) as [[s|v|fd|fd]|] eqn:G; try exact (ND I); destruct (take _ _ _ _ _ G I) as [W J].
    + pose proof (s_delete_inv n s _ _ _ (conj W J)) as S. destruct (s_delete orc n s k) as [b k'].
      exists L. split; [|reflexivity]. eapply give; [exact G|exact I|exact Logic.I|exact S].
    + pose proof (v_close_inv v _ _ _ (conj W J)) as S. destruct (v_close orc v k) as [[b v'] k'].
      exists L. split; [|reflexivity]. eapply give; [exact G|exact I|exact Logic.I|apply S].
    + pose proof (m_close_inv fd _ _ _ J) as S. destruct (m_close orc fd k) as [[b fd'] k'].
      exists L. split; [|reflexivity]. eapply give; [exact G|exact I|exact Logic.I|apply S].
    + pose proof (o_delete_inv fd _ _ _ J) as S. destruct (o_delete orc fd k) as [b k'].
      exists L. split; [|reflexivity]. eapply give; [exact G|exact I|exact Logic.I|exact S].
  - destruct (get w i) as [[s|v|fd|fd]|] eqn:G; try exact (ND I).
Qed.
Lemma run_inv p : forall w L k, winv w L k -> careful orc p w k = true ->
  let (w', k') := run orc p w k in exists L', winv w' L' k' /\ (all_close -> L' = L).
Proof.
  induction p as [|o p IH]; intros w L k I C; cbn [run careful] in *; [exists L; auto|].
  apply andb_true_iff in C. destruct C as [C1 C2]. unfold bind. pose proof (step_inv o w L k I C1) as S. destruct (step orc o w k) as [w' k'].
  destruct S as (L' & S & E). specialize (IH w' L' k' S C2). destruct (run orc p w' k') as [w2 k2]. destruct IH as (L2 & I2 & E2).
  exists L2. split; [exact I2|]. intros Y. rewrite (E2 Y). exact (E Y).
Qed.
Lemma winv_start : winv empty [] start.
Proof. split; [constructor|apply inv_start]. Qed.
Lemma run_proper p w k : careful orc p empty start = true -> run orc p empty start = (w, k) -> proper (log k).
Proof.
  intros C E. pose proof (run_inv p empty [] start winv_start C) as R. rewrite E in R. destruct R as (L & (_ & I) & _). unfold proper. destruct I as (A & _). rewrite A. discriminate.
Qed.
Lemma run_released p w k : careful orc p empty start = true -> all_close -> run orc p empty start = (w, k) ->
  Forall (fun o => o = None) (objs w) -> released (log k).
Proof.
  intros C Y E N. pose proof (run_inv p empty [] start winv_start C) as R. rewrite E in R. destruct R as (L & (_ & I) & Q). rewrite (Q Y) in I.
  destruct I as (A & B & _ & P). unfold released. rewrite A. f_equal.
  assert (F : flat_map oheld (objs w) = []) by (clear - N; induction N as [|o l -> N IH]; [reflexivity|exact IH]).
  rewrite F in P. cbn in P. symmetry in P. apply Permutation_nil in P. exact P.
Qed.
End Kernel.

(** * What the calls are *)
Section Calls.
Context (orc : nat -> ans).
Lemma on_log c fd k b k' : sys_on orc c fd k = (b, k') -> log k' = log k ++ [On c fd b].
Proof. unfold sys_on. cbn. intros [= <- <-]. reflexivity. Qed.
Lemma try_log fd ips port : forall k r k', try_all orc fd ips port k = (r, k') ->
  match r with
  | Some ip => exists pre post, ips = pre ++ ip :: post /\ log k' = log k ++ map (fun a => On (KConnect a port) fd false) pre ++ [On (KConnect ip port) fd true]
  | None => log k' = log k ++ map (fun a => On (KConnect a port) fd false) ips
  end.
Proof.
  induction ips as [|ip ips IH]; intros k r k'; cbn [try_all].
  - intros [= <- <-]. cbn. rewrite app_nil_r. reflexivity.
  - unfold bind. destruct (sys_on orc (KConnect ip port) fd k) as [b k1] eqn:E. apply on_log in E. destruct b.
    + intros [= <- <-]. exists [], ips. split; [reflexivity|exact E].
    + intros T. specialize (IH _ _ _ T). destruct r as [ip'|].
      * destruct IH as (pre & post & -> & L). exists (ip :: pre), post. split; [reflexivity|]. rewrite L, E, <- app_assoc. reflexivity.
      * rewrite IH, E, <- app_assoc. reflexivity.
Qed.
Lemma s_close_dead s k : let '(b, s', k') := s_close orc s k in (sconn s = true -> 0 <= ssock s) -> ssock s' < 0 /\ sconn s' = false.
Proof.
  unfold s_close. destruct (Z.ltb_spec (ssock s) 0) as [N|N].
  - cbn. intros W. split; [exact N|]. destruct (sconn s); [specialize (W eq_refl); lia|reflexivity].
  - unfold bind. destruct (sys_close orc (ssock s) k) as [[|] k']; cbn; intros _; split; auto; lia.
Qed.
Lemma connect_log ips port s k b s' k' : (sconn s = true -> 0 <= ssock s) -> s_connect orc ips port s k = (b, s', k') ->
  if b then exists ip pre post lg, ips = pre ++ ip :: post /\ s' = mkS true (ssock s') ip port /\ 0 <= ssock s' /\
    log k' = lg ++ map (fun a => On (KConnect a port) (ssock s') false) pre ++ [On (KConnect ip port) (ssock s') true]
  else ssock s' < 0 /\ sconn s' = false.
Proof.
  intros W. unfold s_connect. destruct (Z.ltb_spec (ssock s) 0) as [N|N].
  - intros [= <- <- <-]. split; [exact N|]. destruct (sconn s); [specialize (W eq_refl); lia|reflexivity].
  - set (go := fun s0 : stream => bind (try_all orc (ssock s0) ips port) (fun r => match r with Some ip => ret (true, mkS true (ssock s0) ip port)
      | None => bind (s_close orc s0) (fun '(_, s1) => ret (false, s1)) end)).
    assert (G : forall s k, 0 <= ssock s -> go s k = (b, s', k') ->
      if b then exists ip pre post lg, ips = pre ++ ip :: post /\ s' = mkS true (ssock s') ip port /\ 0 <= ssock s' /\
        log k' = lg ++ map (fun a => On (KConnect a port) (ssock s') false) pre ++ [On (KConnect ip port) (ssock s') true]
      else ssock s' < 0 /\ sconn s' = false).
    { clear. intros s k N. unfold go, bind. destruct (try_all orc (ssock s) ips port k) as [[ip|] k1] eqn:E.
      - intros [= <- <- <-]. apply try_log in E. destruct E as (pre & post & E1 & E2). cbn [ssock]. exists ip, pre, post, (log k). auto.
      - pose proof (s_close_dead s k1) as D. destruct (s_close orc s k1) as [[c s1] k2]. intros [= <- <- <-]. apply D. intros _; exact N. }
    destruct (sconn s) eqn:C; [|apply G; exact N].
    unfold bind at 1. pose proof (s_close_dead s k) as D. destruct (s_close orc s k) as [[c s1] k1]. specialize (D (fun _ => N)).
    destruct c; cbn [negb]; [|intros [= <- <- <-]; exact D].
    unfold bind at 1, s_open. destruct (Z.leb_spec 0 (ssock s1)); [lia|].
    unfold bind at 1. destruct (sys_socket orc k1) as [fd k2]. destruct (Z.ltb_spec fd 0); cbn [ret].
    + cbn [negb]. intros [= <- <- <-]. cbn. split; [lia|apply D].
    + cbn [negb]. apply G. cbn. lia.
Qed.
Lemma dead_connect ips port s k : ssock s < 0 -> s_connect orc ips port s k = (false, s, k).
Proof. intros N. unfold s_connect. destruct (Z.ltb_spec (ssock s) 0); [reflexivity|lia]. Qed.
Lemma dead_shutdown s k : ssock s < 0 -> s_shutdown orc s k = (false, s, k).
Proof. intros N. unfold s_shutdown, s_close, bind, ret. destruct (Z.ltb_spec (ssock s) 0); [reflexivity|lia]. Qed.
Lemma create_log port backlog v k b v' k' : v_create orc port backlog v k = (b, v', k') ->
  if b then vconn v' = true /\ (port <> 0 -> vport v' = port) /\ exists fd, vsock v' = fd /\
    log k' = log k ++ [Gave fd; On KReuse fd true; On (KBind port) fd true; On KLinger fd true; On (KListen backlog) fd true] ++ (if port =? 0 then [On KName fd true] else [])
  else vconn v' = vconn v /\ vport v' = vport v.
Proof.
  unfold v_create. unfold bind at 1. destruct (sys_socket orc k) as [fd k0] eqn:E0.
  destruct (Z.ltb_spec fd 0) as [N|N]; [intros [= <- <- <-]; split; reflexivity|].
  assert (L0 : log k0 = log k ++ [Gave fd]).
  { revert E0. unfold sys_socket, next. destruct (yes (orc (calls k))); intros [= <- <-]; [reflexivity|lia]. }
  unfold bind at 1.
  assert (S : let (r, k2) := v_setup orc fd port backlog k0 in forall p, r = Some p -> (port <> 0 -> p = port) /\
    log k2 = log k0 ++ [On KReuse fd true; On (KBind port) fd true; On KLinger fd true; On (KListen backlog) fd true] ++ (if port =? 0 then [On KName fd true] else [])).
  { unfold v_setup.
    assert (F : forall k, let (r, k') := bind (sys_close orc fd) (fun _ => ret (@None Z)) k in r = None) by (intros k1; unfold bind; destruct (sys_close orc fd k1); reflexivity).
    assert (F' : forall k (P : Z -> kern -> Prop), let (r, k') := bind (sys_close orc fd) (fun _ => ret (@None Z)) k in forall p, r = Some p -> P p k')
      by (intros k1 P; specialize (F k1); destruct (bind _ _ k1) as [r k2]; subst r; discriminate).
    unfold bind at 1. destruct (sys_on orc KReuse fd k0) as [[|] k1] eqn:E1; [|apply F']. apply on_log in E1. cbn [negb].
    unfold bind at 1. destruct (sys_on orc (KBind port) fd k1) as [[|] k2] eqn:E2; [|apply F']. apply on_log in E2. cbn [negb].
    unfold bind at 1. destruct (sys_on orc KLinger fd k2) as [[|] k3] eqn:E3; [|apply F']. apply on_log in E3. cbn [negb].
    unfold bind at 1. destruct (sys_on orc (KListen backlog) fd k3) as [[|] k4] eqn:E4; [|apply F']. apply on_log in E4. cbn [negb].
    assert (L4 : log k4 = log k0 ++ [On KReuse fd true; On (KBind port) fd true; On KLinger fd true; On (KListen backlog) fd true]).
    { rewrite E4, E3, E2, E1, <- !app_assoc. reflexivity. }
    destruct (Z.eqb_spec port 0) as [->|P]; cbn [negb].
    - unfold bind at 1. destruct (sys_name orc fd k4) as [[[|] q] k5] eqn:E5; [|apply F']. cbn [negb ret].
      assert (L5 : log k5 = log k4 ++ [On KName fd true]) by (revert E5; unfold sys_name; cbn; intros [= E <- <-]; cbn; rewrite E; reflexivity).
      intros p [= <-]. split; [congruence|]. rewrite L5, L4, <- app_assoc. reflexivity.
    - cbn [ret]. intros p [= <-]. split; [reflexivity|]. rewrite app_nil_r. exact L4. }
  destruct (v_setup orc fd port backlog k0) as [[p|] k1]; intros [= <- <- <-]; [|split; reflexivity].
  destruct (S p eq_refl) as [S1 S2]. cbn [vconn vport vsock]. split; [reflexivity|]. split; [exact S1|]. exists fd. split; [reflexivity|].
  rewrite S2, L0, <- app_assoc. reflexivity.
Qed.
End Calls.
