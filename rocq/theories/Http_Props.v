(** C26 to C29: HTTP headers and bodies. *)
From Verif Require Import Common CommonLemmas Socket_Spec Socket_Model Http_Spec Http_Model Http_Proof.
Local Open Scope Z_scope.

(** C26: after any operations a header is the map with case-insensitive names: iteration lists the names in the order of
    insertion, each once, with their values; has_key, get and both [] answer as the map does. *)
Theorem C26_header_map ops k : let h := fold_left apply_op ops [] in let p := rev ops in
  h = map (fun n => (n, orempty (value p n))) (names p) /\ NoDup (map lower (names p)) /\
  has_key h k = (match value p k with Some _ => true | None => false end) /\
  const_ref h k = orempty (value p k) /\ snd (get h k) = orempty (value p k).
Proof. exact (header_map ops k). Qed.
Example C26_header_map_nonvacuous :
  let h := fold_left apply_op [HSet (str "Host") (str "a"); HSet (str "X-Y") (str "1"); HSet (str "hOST") (str "b");
    HErase (str "x-y"); HSet (str "A") (str "2"); HGet (str "Q"); HSet (str "x-Y") (str "3")] [] in
  h = [(str "Host", str "b"); (str "A", str "2"); (str "Q", []); (str "x-Y", str "3")] /\
  has_key h (str "HOST") = true /\ has_key h (str "z") = false /\ snd (get h (str "X-y")) = str "3".
Proof. vm_compute. repeat split. Qed.

(** C27, sending: what send and flush give to the kernel is the wire format of the list. *)
Theorem C27_send rc sc cs inb n rs x h : bytes inb -> (forall i, 0 < sc i) ->
  run rc sc cs (fresh inb n) = Ok (rs, x) -> conn (fst x) = true ->
  exists x1 x2, send_header sc h x = Ok x1 /\ flush sc x1 = Ok (-1, x2) /\
  kout (snd x2) = kout (snd x) ++ wb (fst x) ++ wire h.
Proof. exact (send_trip rc sc cs inb n rs x h). Qed.
Example C27_send_nonvacuous :
  exists x1 x2, send_header (fun _ => 3) [(str "Host", str "a b"); (str "B", [])] (fresh [] 0) = Ok x1 /\
  flush (fun _ => 3) x1 = Ok (-1, x2) /\ kout (snd x2) = str "Host: a b" ++ [13; 10] ++ str "B: " ++ [13; 10; 13; 10].
Proof. eexists _, _. split; [vm_compute; reflexivity|]. split; vm_compute; reflexivity. Qed.

(** C27, reading: the wire format followed by any bytes is read back as the same list, and the following bytes are still
    there; for every segmentation by the kernel and after any calls on the socket.  Missing for the full claim: values that
    start with a blank, and lines of more than 4094 bytes. *)
Theorem C27_read_partial rc sc cs inb n rs x h s : bytes inb -> (forall i, 0 < rc i) -> (forall i, 0 < sc i) ->
  run rc sc cs (fresh inb n) = Ok (rs, x) -> rb (fst x) ++ kin (snd x) = wire h ++ s ->
  Forall field_ok h -> NoDup (map (fun g => lower (fst g)) h) ->
  exists x', header_from rc x = Ok (h, x') /\ rb (fst x') ++ kin (snd x') = s.
Proof. exact (wire_trip rc sc cs inb n rs x h s). Qed.
Example C27_read_partial_nonvacuous :
  let h := [(str "Host", str "a: b "); (str "B", [])] in
  Forall field_ok h /\ NoDup (map (fun g => lower (fst g)) h) /\
  exists x', header_from (fun _ => 3) (fresh (wire h ++ str "body") 0) = Ok (h, x') /\ rb (fst x') ++ kin (snd x') = str "body".
Proof.
  split; [|split; [|eexists; split; vm_compute; reflexivity]].
  - assert (Ht : forall s, s <> [] -> forallb (fun c => (33 <=? c) && (c <=? 126) && negb (c =? 34) && negb (existsb (Z.eqb c) (str "()<>@,;:\/[]?={}"))) s = true -> token s).
    { intros s Hn Hf. split; [auto|]. rewrite forallb_forall in Hf. apply Forall_forall. intros c Hc. specialize (Hf c Hc).
      repeat (apply andb_true_iff in Hf; destruct Hf as [Hf ?]). unfold token_char. split; [lia|]. split; [|lia].
      intros Hi. rewrite negb_true_iff in H. assert (existsb (Z.eqb c) (str "()<>@,;:\/[]?={}") = true); [|congruence].
      apply existsb_exists. exists c. split; [auto|lia]. }
    constructor; [|constructor; [|constructor]].
    + split; [apply Ht; [discriminate|reflexivity]|]. split; [|split; [|vm_compute; lia]].
      * split; [|split; intros H; cbn in H; vm_compute in H; intuition discriminate]. apply bytesb_spec; reflexivity.
      * intros c v H. cbn in H. injection H as <- _. unfold blank, chr. vm_compute. intuition congruence.
    + split; [apply Ht; [discriminate|reflexivity]|]. split; [|split; [|vm_compute; lia]].
      * split; [constructor|]. split; intros [].
      * discriminate.
  - vm_compute. repeat constructor; cbn; intuition discriminate.
Qed.
(** Continuation lines are folded, blanks before the colon are dropped, the last value wins. *)
Example C27_case_folding :
  exists x', header_from (fun _ => 5) (fresh (str "A : 1" ++ [13; 10] ++ str "  2" ++ [13; 10] ++ str "b:x" ++ [13; 10] ++ str "a:3" ++ [13; 10; 13; 10]) 0)
  = Ok ([(str "A", str "3"); (str "b", str "x")], x').
Proof. eexists. vm_compute. reflexivity. Qed.
(** C27 fails for a value with a blank at the front. *)
Theorem C27_read_refuted :
  exists h x', single_line (snd h) /\ fst h = str "A" /\
  header_from (fun _ => 1) (fresh (wire [h]) 0) = Ok ([(str "A", str "x")], x') /\ snd h <> str "x".
Proof.
  exists (str "A", str " x"). eexists. split; [|split; [reflexivity|split; [vm_compute; reflexivity|discriminate]]].
  split; [|split; intros H; vm_compute in H; intuition discriminate]. apply bytesb_spec; reflexivity.
Qed.
(** C27 fails for a line of more than 4094 bytes: the rest of it becomes another field. *)
Theorem C27_long_line_refuted :
  exists x', header_from (fun _ => 9999) (fresh (wire [(str "B", repeat 97 4094%nat)]) 0)
  = Ok ([(str "B", repeat 97 4093%nat); (str "a", [])], x').
Proof. eexists. vm_compute. reflexivity. Qed.

(** C28: a body without the byte 255, cut into chunks in any way, with extensions and a trailer, reaches any reader as it is,
    then comes the end of file; once that has been seen, the connection is exactly behind the body.  Missing for the full
    claim: the byte 255. *)
Theorem C28_chunked_partial rc sc cs inb n rs x body t s ops : bytes inb -> (forall i, 0 < rc i) -> (forall i, 0 < sc i) ->
  run rc sc cs (fresh inb n) = Ok (rs, x) -> rb (fst x) ++ kin (snd x) = t ++ s ->
  chunked_body body t -> Forall (fun c => c <> 255) body ->
  exists res b' x', run_body (chunked_step rc) ops (chunked_init, x) = Ok (res, (b', x')) /\
  map delivered res = reads ops body /\ (In None (reads ops body) -> rb (fst x') ++ kin (snd x') = s).
Proof. exact (chunked_trip rc sc cs inb n rs x body t s ops). Qed.
Definition example_chunks : list Z :=
  str "2;ext" ++ [13; 10] ++ str "ab" ++ [13; 10] ++ str "1" ++ [13; 10; 200; 13; 10] ++ str "00" ++ [13; 10] ++ str "T: x" ++ [13; 10; 13; 10].
Example C28_chunked_partial_nonvacuous : chunked_body (str "ab" ++ [200] ++ []) example_chunks.
Proof.
  change example_chunks with ((((str "2" ++ str ";ext" ++ [13; 10]) ++ str "ab" ++ [13; 10])) ++
    ((str "1" ++ [] ++ [13; 10]) ++ [200] ++ [13; 10]) ++
    ((str "00" ++ [] ++ [13; 10]) ++ flat_map (fun t => t ++ [13; 10]) [str "T: x"] ++ [13; 10])).
  assert (Hx : forall c v, hexdigit c v -> hexnum [c] v) by (intros; now constructor).
  assert (Hd : forall c v, nth (Z.to_nat v) (str "0123456789abcdef") 0 = c -> 0 <= v < 16 -> hexdigit c v) by (intros; split; auto).
  apply cb_chunk; [|apply cb_chunk; [|apply cb_end]].
  - constructor; [discriminate|vm_compute; reflexivity|]. constructor; [apply Hx, Hd; [reflexivity|vm_compute; split; congruence]| |vm_compute; lia].
    split; [apply bytesb_spec; reflexivity|]. split; [|split; [|now left]]; intros H; vm_compute in H; intuition discriminate.
  - constructor; [discriminate|vm_compute; reflexivity|]. constructor; [apply Hx, Hd; [reflexivity|vm_compute; split; congruence]| |vm_compute; lia].
    split; [constructor|]. split; [intros []|split; [intros []|exact I]].
  - constructor; [change 0 with (16 * 0 + 0); change (str "00") with (str "0" ++ [48]); constructor; [apply Hx|]; apply Hd; [reflexivity|lia|reflexivity|lia]| |vm_compute; lia].
    split; [constructor|]. split; [intros []|split; [intros []|exact I]].
  - constructor; [|constructor]. split; [discriminate|]. split; [vm_compute; lia|].
    split; [apply bytesb_spec; reflexivity|]. split; intros H; vm_compute in H; intuition discriminate.
Qed.
Example C28_case_run :
  exists b' x', run_body (chunked_step (fun _ => 4)) [Next; Peek; Next; Next; Next; Next] (chunked_init, fresh (example_chunks ++ str "more") 0)
  = Ok ([97; 98; 98; -56; -1; -1], (b', x')) /\ rb (fst x') ++ kin (snd x') = str "more".
Proof. eexists _, _. split; vm_compute; reflexivity. Qed.
(** C28 fails for the byte 255: underflow returns it as a signed char, which is EOF. *)
Theorem C28_chunked_refuted :
  exists b' x', run_body (chunked_step (fun _ => 4)) [Peek; Next; Next; Next]
    (chunked_init, fresh (str "3" ++ [13; 10; 97; 255; 98; 13; 10] ++ str "0" ++ [13; 10; 13; 10]) 0) = Ok ([97; 97; -1; 98], (b', x')).
Proof. eexists _, _. vm_compute. reflexivity. Qed.

(** C29: for n > 0 any reader gets exactly the next n bytes of the connection (or all there are) and then the end of file; the
    bytes behind them are never taken off the connection, and after n bytes it is exactly there.  Missing for the full claim:
    n = 0. *)
Theorem C29_content_length_partial rc sc cs inb k rs x n ops : bytes inb -> (forall i, 0 < rc i) -> (forall i, 0 < sc i) ->
  run rc sc cs (fresh inb k) = Ok (rs, x) -> 0 < n ->
  exists res b' x', run_body (sized_step rc) ops (sized_init n, x) = Ok (res, (b', x')) /\
  map delivered res = reads ops (firstn (Z.to_nat n) (rb (fst x) ++ kin (snd x))) /\
  (exists t, rb (fst x') ++ kin (snd x') = t ++ skipn (Z.to_nat n) (rb (fst x) ++ kin (snd x))) /\
  (unread ops (firstn (Z.to_nat n) (rb (fst x) ++ kin (snd x))) = [] ->
   rb (fst x') ++ kin (snd x') = skipn (Z.to_nat n) (rb (fst x) ++ kin (snd x))).
Proof. exact (sized_trip rc sc cs inb k rs x n ops). Qed.
Example C29_content_length_partial_nonvacuous :
  exists b' x', run_body (sized_step (fun _ => 1)) [Peek; Next; Next; Next] (sized_init 2, fresh [1; 255; 3] 0) = Ok ([1; 1; 255; -1], (b', x')) /\
  rb (fst x') ++ kin (snd x') = [3].
Proof. eexists _, _. split; vm_compute; reflexivity. Qed.
(** C29 fails for n = 0: the stream delivers the bytes that follow, without end. *)
Theorem C29_zero_length_refuted :
  exists b' x', run_body (sized_step (fun _ => 9)) [Next; Next; Next] (sized_init 0, fresh (str "GET") 0) = Ok (str "GET", (b', x')).
Proof. eexists _, _. vm_compute. reflexivity. Qed.

(** C27-C29: whatever the peer sends and however the kernel answers, reading headers, a sized body, or a chunked body without
    a minus sign on the connection ends normally or by an exception; never in undefined behaviour. *)
Theorem C28_readers_end rc sc cs inb k rs x n ops : bytes inb -> run rc sc cs (fresh inb k) = Ok (rs, x) ->
  (exists r, header_from rc x = Ok r \/ header_from rc x = Throw) /\
  (exists r, run_body (sized_step rc) ops (sized_init n, x) = Ok r \/ run_body (sized_step rc) ops (sized_init n, x) = Throw) /\
  (~ In 45 inb -> exists r, run_body (chunked_step rc) ops (chunked_init, x) = Ok r \/ run_body (chunked_step rc) ops (chunked_init, x) = Throw).
Proof. exact (readers_any rc sc cs inb k rs x n ops). Qed.
(** A negative chunk size is taken as it is: memcpy gets a size near 2^64. *)
Theorem C28_negative_size_refuted :
  run_body (chunked_step (fun _ => 100)) [Next] (chunked_init, fresh (str "-1" ++ [13; 10] ++ str "x") 0) = UB.
Proof. vm_compute. reflexivity. Qed.
Print Assumptions C26_header_map.
Print Assumptions C27_send.
Print Assumptions C27_read_partial.
Print Assumptions C27_read_refuted.
Print Assumptions C27_long_line_refuted.
Print Assumptions C28_chunked_partial.
Print Assumptions C28_chunked_refuted.
Print Assumptions C29_content_length_partial.
Print Assumptions C29_zero_length_refuted.
Print Assumptions C28_readers_end.
Print Assumptions C28_negative_size_refuted.
