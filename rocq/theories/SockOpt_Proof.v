(** Proofs for C125. *)
From Verif Require Import Common CommonLemmas Thread_Spec Thread_Model Thread_Proof Timeout_Spec Timeout_Model Timeout_Proof SockOpt_Spec SockOpt_Model.
From Coq Require Import QArith.
Local Open Scope Z_scope.

(** one call that the system can carry out *)
Lemma call_ok level name v s o' b s' : sets level name v (fst s) = Some o' -> setsockopt level name v s = Ok (b, s') ->
  exists used, snd s = used ++ snd s' /\ ((b = true /\ fst s' = o' /\ ~ In Failed used) \/ (b = false /\ fst s' = fst s /\ In Failed used)).
Proof.
  unfold setsockopt. destruct s as [o l], s' as [o2 l2]. cbn [fst snd]. intros S. induction l as [|a l IH]; cbn [no_intr]; [discriminate|]. destruct a.
  - intros E. destruct (IH E) as (u & -> & H). exists (Intr :: u). split; [reflexivity|]. cbn [In]. intuition discriminate.
  - intros [= <- <- <-]. exists [Failed]. split; [reflexivity|]. right. cbn. auto.
  - rewrite S. intros [= <- <- <-]. exists [Done]. split; [reflexivity|]. left. cbn. intuition discriminate.
Qed.
Lemma call_done level name v o o' l : sets level name v o = Some o' -> setsockopt level name v (o, Done :: l) = Ok (true, (o', l)).
Proof. intros S. unfold setsockopt. cbn [fst snd no_intr]. now rewrite S. Qed.

Theorem nodelay_ok fd on s b s' : 0 <= fd -> set_nodelay fd on s = Ok (b, s') ->
  exists used, snd s = used ++ snd s' /\ (b = true <-> ~ In Failed used) /\
    (b = true -> nodelay (fst s') = on /\ keepalive (fst s') = on) /\ (b = false -> keepalive (fst s') = keepalive (fst s)) /\
    defer_accept (fst s') = defer_accept (fst s) /\ reuseaddr (fst s') = reuseaddr (fst s) /\ linger (fst s') = linger (fst s) /\
    recv_timeout (fst s') = recv_timeout (fst s) /\ send_timeout (fst s') = send_timeout (fst s).
Proof.
  intros Hf. unfold set_nodelay. rewrite (proj2 (Z.ltb_ge _ _) Hf). destruct s as [[nd ka da ra li rt st_] l]. set (o := mkO nd ka da ra li rt st_).
  assert (S1 : sets 6 1 (Int (if on then 1 else 0)) o = Some (mkO on ka da ra li rt st_)) by now destruct on.
  destruct (setsockopt 6 1 _ _) as [[b1 s1]| | |] eqn:E1; try discriminate. cbn [obind]. destruct (call_ok _ _ _ (o, l) _ _ _ S1 E1) as (u1 & L1 & C1). cbn [fst snd] in *.
  destruct C1 as [(-> & F1 & N1)|(-> & F1 & N1)]; cbn [negb].
  - intros E2. assert (S2 : sets 1 9 (Int (if on then 1 else 0)) (fst s1) = Some (mkO on on da ra li rt st_)) by (rewrite F1; now destruct on).
    destruct (call_ok _ _ _ s1 _ _ _ S2 E2) as (u2 & L2 & C2). exists (u1 ++ u2). rewrite L1, L2, app_assoc. split; [reflexivity|].
    destruct C2 as [(-> & F2 & N2)|(-> & F2 & N2)]; rewrite F2, ?F1; cbn; rewrite in_app_iff; intuition (auto; discriminate).
  - intros [= <- <-]. exists u1. rewrite F1. cbn. intuition (auto; discriminate).
Qed.

Lemma timeo_ok ck rnd fd name q t s b s' : 0 <= fd -> name = 20 \/ name = 21 -> Timeout_Model.set_timeo rnd (Fin q) = Ok (Some t) -> Timeout_Model.set_timeout_sockopt rnd (Fin q) = Ok (Some t) -> well_formed 1000000 t ->
  set_timeo ck rnd fd name (Fin q) s = Ok (b, s') ->
  exists used, snd s = used ++ snd s' /\
    ((b = true /\ fst s' = (let 'mkO nd ka da ra li rt st_ := fst s in if name =? 20 then mkO nd ka da ra li t st_ else mkO nd ka da ra li rt t) /\ ~ In Failed used) \/
     (b = false /\ fst s' = fst s /\ In Failed used)).
Proof.
  intros Hf Hn T1 T2 W. unfold set_timeo. rewrite (proj2 (Z.ltb_ge _ _) Hf). replace (if ck then _ else _) with (Ok (Some t)) by (destruct ck; congruence). cbn [obind]. destruct t as [a c]. intros E.
  refine (call_ok _ _ _ s _ _ _ _ E). unfold well_formed in W. cbn [fst snd] in W. destruct (fst s) as [nd ka da ra li rt st_]. unfold sets.
  rewrite (proj2 (Z.leb_le 0 c)), (proj2 (Z.ltb_lt c _)) by lia. destruct Hn as [->| ->]; reflexivity.
Qed.
Theorem timeout_ok ck rnd fd q t s b s' : 0 <= fd -> Timeout_Model.set_timeo rnd (Fin q) = Ok (Some t) -> Timeout_Model.set_timeout_sockopt rnd (Fin q) = Ok (Some t) -> well_formed 1000000 t ->
  set_timeout ck rnd fd (Fin q) s = Ok (b, s') ->
  exists used, snd s = used ++ snd s' /\ (b = true <-> ~ In Failed used) /\ (b = true -> recv_timeout (fst s') = t /\ send_timeout (fst s') = t) /\ same_but_timeouts (fst s) (fst s').
Proof.
  intros Hf T1 T2 W. unfold set_timeout. destruct (set_timeo ck rnd fd 20 (Fin q) s) as [[b1 s1]| | |] eqn:E1; try discriminate. cbn [obind].
  destruct (timeo_ok ck rnd fd 20 q t s _ _ Hf (or_introl eq_refl) T1 T2 W E1) as (u1 & L1 & C1). destruct s as [[nd ka da ra li rt st_] l]. cbn [fst snd] in *. unfold same_but_timeouts.
  destruct C1 as [(-> & F1 & N1)|(-> & F1 & N1)]; cbn [negb].
  - intros E2. destruct (timeo_ok ck rnd fd 21 q t s1 _ _ Hf (or_intror eq_refl) T1 T2 W E2) as (u2 & L2 & C2). exists (u1 ++ u2). rewrite L1, L2, app_assoc. split; [reflexivity|]. rewrite F1 in C2. cbn in C2.
    destruct C2 as [(-> & F2 & N2)|(-> & F2 & N2)]; rewrite F2; cbn; rewrite in_app_iff; intuition (auto; discriminate).
  - intros [= <- <-]. exists u1. rewrite F1. cbn. intuition (auto; discriminate).
Qed.
Theorem listen_ok bind_ok s b s' : prepare_listen bind_ok s = Ok (b, s') ->
  exists used, snd s = used ++ snd s' /\ (b = true <-> bind_ok = true /\ ~ In Failed used) /\ (b = true -> reuseaddr (fst s') = true /\ linger (fst s') = None) /\
    nodelay (fst s') = nodelay (fst s) /\ keepalive (fst s') = keepalive (fst s) /\ defer_accept (fst s') = defer_accept (fst s) /\
    recv_timeout (fst s') = recv_timeout (fst s) /\ send_timeout (fst s') = send_timeout (fst s).
Proof.
  unfold prepare_listen. destruct s as [[nd ka da ra li rt st_] l]. set (o := mkO nd ka da ra li rt st_).
  assert (S1 : sets 1 2 (Int 1) o = Some (mkO nd ka da true li rt st_)) by reflexivity.
  destruct (setsockopt 1 2 _ _) as [[b1 s1]| | |] eqn:E1; try discriminate. cbn [obind]. destruct (call_ok _ _ _ (o, l) _ _ _ S1 E1) as (u1 & L1 & C1). cbn [fst snd] in *.
  destruct C1 as [(-> & F1 & N1)|(-> & F1 & N1)]; cbn [negb].
  - destruct bind_ok; cbn [negb].
    + intros E2. assert (S2 : sets 1 13 (Linger 0 0) (fst s1) = Some (mkO nd ka da true None rt st_)) by now rewrite F1.
      destruct (call_ok _ _ _ s1 _ _ _ S2 E2) as (u2 & L2 & C2). exists (u1 ++ u2). rewrite L1, L2, app_assoc. split; [reflexivity|].
      destruct C2 as [(-> & F2 & N2)|(-> & F2 & N2)]; rewrite F2, ?F1; cbn; rewrite in_app_iff; intuition (auto; discriminate).
    + intros [= <- <-]. exists u1. rewrite F1. cbn. intuition (auto; discriminate).
  - intros [= <- <-]. exists u1. rewrite F1. cbn. intuition (auto; discriminate).
Qed.
