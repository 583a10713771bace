(** C125: options of sockets, for all options set before, all signals and all failures. *)
From Verif Require Import Common Thread_Spec Thread_Model Thread_Proof Timeout_Spec Timeout_Model Timeout_Proof Timeout_Props SockOpt_Spec SockOpt_Model SockOpt_Proof.
From Coq Require Import QArith.
Local Open Scope Z_scope.

(** set_nodelay of an open socket succeeds exactly if no call fails (signals do not matter), and then TCP_NODELAY is what was wanted.  It never changes whether accepting is deferred, nor
    the options of addresses, lingering and timeouts. *)
Theorem C125_nodelay fd on s b s' : 0 <= fd -> set_nodelay fd on s = Ok (b, s') ->
  exists used, snd s = used ++ snd s' /\ (b = true <-> ~ In Failed used) /\ (b = true -> nodelay (fst s') = on) /\
    defer_accept (fst s') = defer_accept (fst s) /\ reuseaddr (fst s') = reuseaddr (fst s) /\ linger (fst s') = linger (fst s) /\
    recv_timeout (fst s') = recv_timeout (fst s) /\ send_timeout (fst s') = send_timeout (fst s).
Proof. intros H E. destruct (nodelay_ok _ _ _ _ _ H E) as (u & H1 & H2 & H3 & _ & H4). exists u. intuition. Qed.
(** What a user expects is that nothing else changes.  But TCP_DEFER_ACCEPT at the level SOL_SOCKET is SO_KEEPALIVE: it is turned on or off with TCP_NODELAY, whatever it was. *)
Theorem C125_keepalive_refuted fd on s s' : 0 <= fd -> set_nodelay fd on s = Ok (true, s') ->
  keepalive (fst s') = on /\ (keepalive (fst s) <> on -> ~ same_but_nodelay (fst s) (fst s')).
Proof.
  intros H E. destruct (nodelay_ok _ _ _ _ _ H E) as (u & _ & _ & H3 & _). destruct (H3 eq_refl) as (_ & K). split; [exact K|]. intros N (S & _). congruence.
Qed.
Theorem C125_keepalive_expected_refuted : ~ (forall fd on s s', 0 <= fd -> set_nodelay fd on s = Ok (true, s') -> same_but_nodelay (fst s) (fst s')).
Proof. intros H. specialize (H 3 true (fresh, [Done; Done]) (mkO true true false false None (0, 0) (0, 0), []) ltac:(lia) eq_refl). destruct H as (H & _). discriminate H. Qed.
(** Timeouts from 0 to 2^31 seconds: set_timeout of an open socket of either library succeeds exactly if no call fails, and then both timeouts are the wanted one up to a microsecond. *)
Theorem C125_timeout_partial checked rnd fd q s b s' : rounding rnd -> representable q -> (0 <= q)%Q -> (q < inject_Z (2 ^ 31))%Q -> 0 <= fd -> set_timeout checked rnd fd (Fin q) s = Ok (b, s') ->
  exists t, well_formed 1000000 t /\ stands_for 1000000 t q (1 # 1000000) /\
  exists used, snd s = used ++ snd s' /\ (b = true <-> ~ In Failed used) /\ (b = true -> recv_timeout (fst s') = t /\ send_timeout (fst s') = t) /\ same_but_timeouts (fst s) (fst s').
Proof.
  intros R Rq H0 H1 Hf E. destruct (C109_socket_partial rnd q R Rq H0 H1) as (t & T1 & T2 & W & S). exists t. split; [exact W|]. split; [exact S|]. exact (timeout_ok checked rnd fd q t s b s' Hf T1 T2 W E).
Qed.
(** What a user expects of a call that returns false is that the timeouts are as before.  They are not: the one for receiving stays. *)
Theorem C125_half_refuted checked : ~ (forall rnd fd sec s s', set_timeout checked rnd fd sec s = Ok (false, s') -> recv_timeout (fst s') = recv_timeout (fst s)).
Proof.
  intros H. specialize (H (fun q => q) 3 (Fin 5) (fresh, [Done; Failed]) (mkO false false false false None (5, 0) (0, 0), [])). discriminate H. destruct checked; vm_compute; reflexivity.
Qed.
(** A server keeps the timeout for its connections exactly if it could be set. *)
Theorem C125_server rnd connected old sec s b kept s' : server_set_timeout rnd connected old sec s = Ok (b, kept, s') -> kept = (if b then sec else old) /\ (connected = false -> b = false /\ s' = s).
Proof.
  unfold server_set_timeout. destruct connected; cbn [negb]; [|intros [= <- <- <-]; auto]. destruct (set_timeout true rnd 0 sec s) as [[ok s1]| | |]; try discriminate. cbn [obind]. intros [= <- <- <-]. split; [reflexivity|discriminate].
Qed.
(** A socket that listens has SO_REUSEADDR and does not linger, and no other option is touched. *)
Theorem C125_listen bind_ok s b s' : prepare_listen bind_ok s = Ok (b, s') ->
  exists used, snd s = used ++ snd s' /\ (b = true <-> bind_ok = true /\ ~ In Failed used) /\ (b = true -> reuseaddr (fst s') = true /\ linger (fst s') = None) /\
    nodelay (fst s') = nodelay (fst s) /\ keepalive (fst s') = keepalive (fst s) /\ defer_accept (fst s') = defer_accept (fst s) /\
    recv_timeout (fst s') = recv_timeout (fst s) /\ send_timeout (fst s') = send_timeout (fst s).
Proof. exact (listen_ok bind_ok s b s'). Qed.
(** A socket without a descriptor refuses everything. *)
Theorem C125_closed checked rnd fd on sec s : fd < 0 -> set_nodelay fd on s = Ok (false, s) /\ set_timeout checked rnd fd sec s = Ok (false, s).
Proof. intros H. unfold set_nodelay, set_timeout, set_timeo. rewrite (proj2 (Z.ltb_lt _ _) H). now split. Qed.

Example C125_nonvacuous : set_nodelay 3 true (fresh, [Intr; Done; Intr; Intr; Done]) = Ok (true, (mkO true true false false None (0, 0) (0, 0), [])) /\
  set_nodelay 3 true (fresh, [Done; Failed]) = Ok (false, (mkO true false false false None (0, 0) (0, 0), [])) /\
  set_timeout true (fun q => q) 3 (Fin (5 # 2)) (fresh, [Done; Intr; Done]) = Ok (true, (mkO false false false false None (2, 500000) (2, 500000), [])) /\
  server_set_timeout (fun q => q) true (Fin 0) (Fin (5 # 2)) (fresh, [Done; Failed]) = Ok (false, Fin 0, (mkO false false false false None (2, 500000) (0, 0), [])) /\
  prepare_listen true (fresh, [Done; Done]) = Ok (true, (mkO false false false true None (0, 0) (0, 0), [])).
Proof. repeat split; vm_compute; reflexivity. Qed.

Print Assumptions C125_nodelay.
Print Assumptions C125_keepalive_refuted.
Print Assumptions C125_keepalive_expected_refuted.
Print Assumptions C125_timeout_partial.
Print Assumptions C125_half_refuted.
Print Assumptions C125_server.
Print Assumptions C125_listen.
Print Assumptions C125_closed.
