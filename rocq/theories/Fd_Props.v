(** C95: every descriptor which the socket classes get is closed exactly once, by its owner. *)
From Verif Require Import Common Fd_Spec Fd_Model Fd_Proof.
Local Open Scope Z_scope.

(** Whatever a program does with the sockets, and whatever the kernel and the rest of the process do: no call touches a descriptor
    that the classes do not hold.  The program is careful (it copies no socket, does not call create on a server_socket that is
    alive, and does not stop mprpc's server while one of its threads is about to accept), and no ::close is interrupted. *)
Theorem C95_owner_partial orc p w k : (forall n, intrs (orc n) = []) -> careful orc p empty start = true ->
  run orc p empty start = (w, k) -> proper (log k).
Proof. intros C. exact (run_proper orc C p w k). Qed.

(** ... and if ::close does not fail, all descriptors have been closed when all objects are gone. *)
Theorem C95_released_partial orc p w k : (forall n, intrs (orc n) = []) -> (forall n, shut (orc n) = true) ->
  careful orc p empty start = true -> run orc p empty start = (w, k) -> Forall (fun o => o = None) (objs w) -> released (log k).
Proof. intros C S P. exact (run_released orc C p w k P S). Qed.

(** a kernel that gives 3, 4, ... in turn; the n-th call fails if it is listed *)
Definition nice (fails : list nat) (n : nat) : ans := mkA [] [] (negb (existsb (Nat.eqb n) fails)) true (3 + Z.of_nat n).
(** a server with an accepted connection, a client, mprpc's both sides *)
Definition both : list op :=
  [NewServer; Listen 0 80 9; Accept 0 1 2; NewStream; Connect 2 [1; 2] 80; Io 2; Io 1; Shutdown 2; NewSock; Listen 3 81 9; Serve 3 true;
   Client [1] 81 true; Io 5; Delete 0 0; Delete 1 2; Delete 2 1; Delete 3 0; Delete 4 0; Delete 5 0].
Example C95_owner_partial_nonvacuous :
  exists w k, careful (nice [11%nat; 13%nat]) both empty start = true /\ run (nice [11%nat; 13%nat]) both empty start = (w, k) /\
  length (log k) = 42%nat /\ proper (log k) /\ released (log k) /\ Forall (fun o => o = None) (objs w).
Proof. eexists _, _. split; [vm_compute; reflexivity|]. split; [vm_compute; reflexivity|]. split; [reflexivity|]. split; [vm_compute; discriminate|]. split; [reflexivity|]. cbn. repeat constructor. Qed.
(** and the notion of a proper sequence of calls does not admit everything *)
Example C95_case_improper : ~ proper [Gave 3; Close 3 true; Close 3 true] /\ ~ proper [On KIo 3 true] /\ ~ released [Gave 3; Close 3 false].
Proof. repeat split; vm_compute; congruence. Qed.

(** stream_socket::connect tries the addresses in order until one answers, and remembers that one; otherwise it closes the socket. *)
Theorem C95_connect orc ips port s k b s' k' : (sconn s = true -> 0 <= ssock s) -> s_connect orc ips port s k = (b, s', k') ->
  if b then exists ip pre post lg, ips = pre ++ ip :: post /\ s' = mkS true (ssock s') ip port /\ 0 <= ssock s' /\
    log k' = lg ++ map (fun a => On (KConnect a port) (ssock s') false) pre ++ [On (KConnect ip port) (ssock s') true]
  else ssock s' < 0 /\ sconn s' = false.
Proof. exact (connect_log orc ips port s k b s' k'). Qed.
Example C95_connect_nonvacuous :
  exists k', s_connect (nice [0%nat]) [7; 8; 9] 80 (mkS false 3 0 0) (mkK 0 [3] [] [Gave 3]) = (true, mkS true 3 8 80, k') /\
  log k' = [Gave 3; On (KConnect 7 80) 3 false; On (KConnect 8 80) 3 true].
Proof. eexists. split; [vm_compute; reflexivity|reflexivity]. Qed.

(** A stream_socket that failed to connect, or lost its connection, is dead: connect and shutdown fail without any system call.
    (One would expect that connect can be tried again.) *)
Theorem C95_retry_refuted orc s k : ssock s < 0 ->
  (forall ips port, s_connect orc ips port s k = (false, s, k)) /\ s_shutdown orc s k = (false, s, k).
Proof. intros N. split; [intros; apply dead_connect|apply dead_shutdown]; exact N. Qed.
Example C95_retry_refuted_case :
  exists s k, run (nice [1%nat]) [NewStream; Connect 0 [7] 80] empty start = (mkW [Some (OStream s)] (-1), k) /\ ssock s = -1.
Proof. eexists _, _. split; [vm_compute; reflexivity|reflexivity]. Qed.

(** server_socket::create succeeds only if socket, bind and listen have, and then port() is the port asked for; a failing
    create leaves alive and port as they were. *)
Theorem C95_create orc port backlog v k b v' k' : v_create orc port backlog v k = (b, v', k') ->
  if b then vconn v' = true /\ (port <> 0 -> vport v' = port) /\ exists fd, vsock v' = fd /\
    log k' = log k ++ [Gave fd; On KReuse fd true; On (KBind port) fd true; On KLinger fd true; On (KListen backlog) fd true] ++ (if port =? 0 then [On KName fd true] else [])
  else vconn v' = vconn v /\ vport v' = vport v.
Proof. exact (create_log orc port backlog v k b v' k'). Qed.
Example C95_create_nonvacuous :
  exists k', v_create (nice []) 0 5 v_new start = (true, mkV 3 true 8, k') /\ length (log k') = 6%nat.
Proof. eexists. split; [vm_compute; reflexivity|reflexivity]. Qed.

(** Without the guards the claim fails.  An interrupted ::close is repeated although the descriptor has been released: another
    thread's descriptor gets closed (all is well until the object is deleted). *)
Definition interrupted (n : nat) : ans := mkA [] (if (n =? 1)%nat then [(true, [3])] else []) true true 3.
Theorem C95_interrupted_refuted :
  exists w k, careful interrupted [NewStream; Delete 0 0] empty start = true /\ run interrupted [NewStream; Delete 0 0] empty start = (w, k) /\
  log k = [Gave 3; Close 3 true; Close 3 true] /\ ~ proper (log k).
Proof. eexists _, _. split; [reflexivity|]. split; [vm_compute; reflexivity|]. split; [reflexivity|vm_compute; congruence]. Qed.
(** A copy of a socket closes the descriptor a second time. *)
Theorem C95_copy_refuted :
  exists w k, run (nice []) [NewStream; Copy 0; Delete 0 0; Delete 1 0] empty start = (w, k) /\ ~ proper (log k).
Proof. eexists _, _. split; [vm_compute; reflexivity|vm_compute; congruence]. Qed.
(** create for a server_socket that is alive forgets the descriptor it has ... *)
Theorem C95_create_leak_refuted :
  exists w k, run (nice []) [NewServer; Listen 0 80 5; Listen 0 81 5; Delete 0 0] empty start = (w, k) /\
  Forall (fun o => o = None) (objs w) /\ proper (log k) /\ replay [] (log k) = Some [3].
Proof. eexists _, _. split; [vm_compute; reflexivity|]. split; [repeat constructor|]. split; [vm_compute; discriminate|reflexivity]. Qed.
(** ... and if it fails, the descriptor it had is lost and the new one is closed twice. *)
Theorem C95_create_twice_refuted :
  exists w k, run (nice [7%nat]) [NewServer; Listen 0 80 5; Listen 0 80 5; Delete 0 0] empty start = (w, k) /\ ~ proper (log k).
Proof. eexists _, _. split; [vm_compute; reflexivity|vm_compute; congruence]. Qed.
(** accept loses the new connection if closing the fresh object's own socket fails. *)
Definition close_fails (n : nat) : ans := mkA [] [] true (negb (n =? 7)%nat) (3 + Z.of_nat n).
Theorem C95_accept_leak_refuted :
  exists w k, careful close_fails [NewServer; Listen 0 80 5; Accept 0 1 2; Delete 1 0; Delete 0 0] empty start = true /\
  run close_fails [NewServer; Listen 0 80 5; Accept 0 1 2; Delete 1 0; Delete 0 0] empty start = (w, k) /\
  Forall (fun o => o = None) (objs w) /\ replay [] (log k) = Some [8].
Proof. eexists _, _. split; [reflexivity|]. split; [vm_compute; reflexivity|]. split; [repeat constructor|reflexivity]. Qed.
(** When mprpc's server is stopped between reading the descriptor and ::accept, a thread accepts on a descriptor that is closed, and
    may belong to somebody else by then. *)
Definition reused (n : nat) : ans := mkA (if (n =? 7)%nat then [3] else []) [] true true (3 + Z.of_nat n).
Theorem C95_stop_refuted :
  exists w k, run reused [NewSock; Listen 0 80 5; Fetch 0; CloseOp 0; ServeAt false] empty start = (w, k) /\
  In (On KAccept 3 true) (log k) /\ ~ proper (log k).
Proof. eexists _, _. split; [vm_compute; reflexivity|]. split; [cbn; tauto|vm_compute; congruence]. Qed.

Print Assumptions C95_owner_partial.
Print Assumptions C95_released_partial.
Print Assumptions C95_connect.
Print Assumptions C95_retry_refuted.
Print Assumptions C95_create.
Print Assumptions C95_interrupted_refuted.
Print Assumptions C95_copy_refuted.
Print Assumptions C95_create_leak_refuted.
Print Assumptions C95_create_twice_refuted.
Print Assumptions C95_accept_leak_refuted.
Print Assumptions C95_stop_refuted.
