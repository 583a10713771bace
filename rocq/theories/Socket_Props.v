(** C30, C31: the socket's buffers and the byte stream. *)
From Verif Require Import Common CommonLemmas Socket_Spec Socket_Model Socket_Proof.
Local Open Scope Z_scope.

(** C30, sending: after any calls the bytes written are those given to the kernel, then (only if the connection broke and some
    call said so) some lost ones, then those still buffered; whatever the kernel answers. *)
Theorem C30_sent rc sc cs inb n : bytes inb ->
  exists rs x', run rc sc cs (fresh inb n) = Ok (rs, x') /\ (length (wb (fst x')) < 8192)%nat /\
  exists lost, flat_map written cs = kout (snd x') ++ lost ++ wb (fst x') /\
  (conn (fst x') = true \/ Forall2 success cs rs -> lost = []).
Proof. exact (sent_fresh rc sc cs inb n). Qed.

(** C30, sending: after a flush all bytes written have been given to the kernel in order. *)
Theorem C30_flushed rc sc cs inb n : bytes inb ->
  exists rs x', run rc sc (cs ++ [Flush]) (fresh inb n) = Ok (rs, x') /\
  (conn (fst x') = true \/ Forall2 success (cs ++ [Flush]) rs -> kout (snd x') = flat_map written cs).
Proof. exact (flush_sends rc sc cs inb n). Qed.

(** C30, sending: a write that returns less than its size has lost the connection, and nothing but the bytes before and the
    bytes it counts has been sent. *)
Theorem C30_short_write rc sc cs d inb n rs w x x' : bytes inb ->
  run rc sc cs (fresh inb n) = Ok (rs, x) -> do_call rc sc (Write d) x = Ok (RNum w, x') ->
  0 <= w <= Z.of_nat (length d) /\
  (w < Z.of_nat (length d) -> conn (fst x') = false /\ wb (fst x') = [] /\
    exists t, kout (snd x') ++ t = kout (snd x) ++ wb (fst x) ++ firstn (Z.to_nat w) d).
Proof. exact (short_write rc sc cs d inb n rs w x x'). Qed.

(** C30, receiving: the bytes the calls return, with the line ends that getline swallows, are the bytes received, in order and
    once; the rest is still to be read. *)
Theorem C30_received rc sc cs inb n : bytes inb ->
  exists rs x' ds, run rc sc cs (fresh inb n) = Ok (rs, x') /\ Forall3 took cs rs ds /\
  inb = concat ds ++ rb (fst x') ++ kin (snd x').
Proof. exact (received_fresh rc sc cs inb n). Qed.

(** C30, receiving: a call gets less than it asked for only at the end of the connection; if the kernel never fails, only when
    every byte of the peer has been delivered. *)
Theorem C30_received_all rc sc cs c inb n : bytes inb ->
  exists rs r x' ds d, run rc sc (cs ++ [c]) (fresh inb n) = Ok (rs ++ [r], x') /\ Forall3 took cs rs ds /\ took c r d /\
  inb = concat ds ++ d ++ rb (fst x') ++ kin (snd x') /\
  (cut_short c r d -> conn (fst x') = false /\ rb (fst x') = [] /\
    ((forall i, 0 < rc i) /\ (forall i, 0 < sc i) -> inb = concat ds ++ d)).
Proof. exact (last_cut rc sc cs c inb n). Qed.

(** C30: as long as the kernel does not fail the socket stays connected until the peer has sent everything. *)
Theorem C30_stays_connected rc sc cs inb n : bytes inb -> (forall i, 0 < rc i) -> (forall i, 0 < sc i) ->
  exists rs x', run rc sc cs (fresh inb n) = Ok (rs, x') /\ (conn (fst x') = false -> kin (snd x') = []).
Proof. exact (stays rc sc cs inb n). Qed.

(** Three bytes of the peer per ::recv, two bytes per ::send. *)
Example C30_case_segments :
  exists x', run (fun _ => 3) (fun _ => 2)
    [Write (str "abc"); Getline (-1); Read 2; Puts (str "de"); Getc; Flush; Getline 2; Getline (-1); Getc] (fresh (str "hello" ++ [13; 10] ++ str "xyzlast") 0)
    = Ok ([RNum 3; RLine (Some (str "hello")); RBytes (str "xy"); RBool true; RNum 122; RNum (-1); RLine (Some (str "la"));
           RLine (Some (str "st")); RNum (-1)], x') /\ kout (snd x') = str "abcde" /\ kin (snd x') = [].
Proof. eexists. split; [vm_compute; reflexivity|]. split; reflexivity. Qed.
(** The buffer overflows in the first write: 8192 bytes go out, the rest is buffered. *)
Example C30_case_overflow :
  exists rs x', run (fun _ => 1) (fun _ => 5000) [Write (repeat 7 9000%nat); Write (repeat 8 9000%nat)] (fresh [] 0) = Ok (rs, x') /\
  rs = [RNum 9000; RNum 9000] /\ length (kout (snd x')) = 16384%nat /\ length (wb (fst x')) = 1616%nat.
Proof. eexists _, _. split; [vm_compute; reflexivity|]. vm_compute. repeat split. Qed.
(** The kernel fails after 8200 bytes: the second write is told. *)
Example C30_short_write_nonvacuous :
  exists rs x x', run (fun _ => 1) (fun i => if (i =? 0)%nat then 100 else 0) [Write (repeat 7 50%nat)] (fresh [] 0) = Ok (rs, x) /\
  do_call (fun _ => 1) (fun i => if (i =? 0)%nat then 100 else 0) (Write (repeat 8 9000%nat)) x = Ok (RNum 50, x') /\
  kout (snd x') = repeat 7 50%nat ++ repeat 8 50%nat.
Proof. eexists _, _, _. split; [vm_compute; reflexivity|]. split; vm_compute; reflexivity. Qed.
(** The end of the stream in the middle of a read. *)
Example C30_received_all_nonvacuous :
  exists x', run (fun _ => 2) (fun _ => 1) ([Getc] ++ [Read 5]) (fresh [1; 2; 3] 0) = Ok ([RNum 1] ++ [RBytes [2; 3]], x') /\
  cut_short (Read 5) (RBytes [2; 3]) [2; 3].
Proof. eexists. split; [vm_compute; reflexivity|]. cbn. lia. Qed.

(** C31 fails: connect keeps both buffers.  A byte written for the first peer is sent to the second one. *)
Theorem C31_reconnect_refuted :
  exists rs x x' rs' x'',
  run (fun _ => 9) (fun _ => 9) [Write (str "a"); Getc] (fresh (str "xy") 0) = Ok (rs, x) /\
  connect true true [true] (str "z") x = (true, x') /\
  run (fun _ => 9) (fun _ => 9) [Write (str "b"); Flush; Getc] x' = Ok (rs', x'') /\
  kout (snd x'') = str "ab" /\ rs' = [RNum 1; RNum (-1); RNum 121].
Proof. eexists _, _, _, _, _. split; [vm_compute; reflexivity|]. split; [vm_compute; reflexivity|]. split; [vm_compute; reflexivity|]. split; reflexivity. Qed.

(** What holds: after a successful connect the peer gets exactly what was left in the write buffer and then what is written
    now, and the calls return exactly what was left in the read buffer and then what the new peer sends.  So the socket starts
    clean if both buffers are empty, as they are after a flush and reading to the end.  Missing: connect does not empty them. *)
Theorem C31_reconnect_partial rc sc cs inb n rs s k closed opened oks inb' x' cs' : bytes inb -> bytes inb' ->
  run rc sc cs (fresh inb n) = Ok (rs, (s, k)) -> connect closed opened oks inb' (s, k) = (true, x') ->
  exists rs' x'' ds lost, run rc sc cs' x' = Ok (rs', x'') /\ Forall3 took cs' rs' ds /\
  rb s ++ inb' = concat ds ++ rb (fst x'') ++ kin (snd x'') /\
  wb s ++ flat_map written cs' = kout (snd x'') ++ lost ++ wb (fst x'').
Proof. exact (reconnect rc sc cs inb n rs s k closed opened oks inb' x' cs'). Qed.
Example C31_reconnect_partial_nonvacuous :
  exists rs s k x', run (fun _ => 9) (fun _ => 9) [Write (str "a"); Flush; Getc] (fresh (str "x") 0) = Ok (rs, (s, k)) /\
  rb s = [] /\ wb s = [] /\ connect true true [false; true] (str "z") (s, k) = (true, x').
Proof. eexists _, _, _, _. split; [vm_compute; reflexivity|]. split; [|split]; reflexivity. Qed.
Print Assumptions C30_sent.
Print Assumptions C30_flushed.
Print Assumptions C30_short_write.
Print Assumptions C30_received.
Print Assumptions C30_received_all.
Print Assumptions C30_stays_connected.
Print Assumptions C31_reconnect_refuted.
Print Assumptions C31_reconnect_partial.
