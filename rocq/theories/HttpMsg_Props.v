(** C80 and C81: HTTP messages and socket streams. *)
From Verif Require Import Common CommonLemmas NumText_Model Socket_Spec Socket_Model Socket_Proof Http_Spec Http_Model Http_Proof HttpMsg_Spec HttpMsg_Model HttpMsg_Proof.
From Verif Require Uri_Model.
Local Open Scope Z_scope.

(** C80, sending: the peer gets what was left in the write buffer and then the text of the message, with the length of the
    body in its header; nothing stays in the buffer.  For every segmentation by the kernel and after any calls on the socket. *)
Theorem C80_request_sent rc sc cs inb n rs x m u ma mi h body : bytes inb -> (forall i, 0 < sc i) ->
  run rc sc cs (fresh inb n) = Ok (rs, x) -> conn (fst x) = true -> Forall (fun g => same (fst g) (str "Content-Length") = false) h ->
  exists x', send_request sc m u ma mi h body x = Ok x' /\ wb (fst x') = [] /\
  kout (snd x') = kout (snd x) ++ wb (fst x) ++ message (request_line m (Uri_Model.print u) ma mi) (with_length h body) body.
Proof.
  intros Hb Hsc Hr Hc Hh. unfold send_request. rewrite request_line_text.
  destruct (send_message_live sc Hsc (request_line m (Uri_Model.print u) ma mi) h body x (has_key_none h _ Hh) (reached_ok rc sc cs inb n rs x Hb Hr) Hc) as (x' & E1 & _ & _ & E2 & E3 & _).
  exists x'. split; [exact E1|]. split; [exact E2|]. rewrite E3. unfold wout. now rewrite <- app_assoc.
Qed.
Theorem C80_response_sent rc sc cs inb n rs x ma mi code reason h body : bytes inb -> (forall i, 0 < sc i) ->
  run rc sc cs (fresh inb n) = Ok (rs, x) -> conn (fst x) = true -> Forall (fun g => same (fst g) (str "Content-Length") = false) h ->
  exists x', send_response sc ma mi code reason h body x = Ok x' /\ wb (fst x') = [] /\
  kout (snd x') = kout (snd x) ++ wb (fst x) ++ message (status_line ma mi code reason) (with_length h body) body.
Proof.
  intros Hb Hsc Hr Hc Hh. unfold send_response. rewrite status_line_text.
  destruct (send_message_live sc Hsc (status_line ma mi code reason) h body x (has_key_none h _ Hh) (reached_ok rc sc cs inb n rs x Hb Hr) Hc) as (x' & E1 & _ & _ & E2 & E3 & _).
  exists x'. split; [exact E1|]. split; [exact E2|]. rewrite E3. unfold wout. now rewrite <- app_assoc.
Qed.

(** C80, receiving: a message with a body is received with its first line, its fields, and its body; the body stream ends
    behind the body, and there the connection stands.  Missing for the full claim: a URI that is not read back from its own
    text (C24), lines of more than 4094 bytes and the other restrictions of C27, the header as it was sent. *)
Theorem C80_request_received_partial rc sc cs inb n rs x m t u ma mi h body s ops : bytes inb -> (forall i, 0 < rc i) -> (forall i, 0 < sc i) ->
  run rc sc cs (fresh inb n) = Ok (rs, x) -> rb (fst x) ++ kin (snd x) = message (request_line m t ma mi) (with_length h body) body ++ s ->
  word_ok m -> word_ok t -> Uri_Model.uri t = Ok u -> int ma -> int mi -> (length (request_line m t ma mi) <= 4094)%nat -> fields_ok h ->
  body <> [] -> Z.of_nat (length body) < 2 ^ 63 ->
  exists b x', recv_request rc x = Ok (mkRec (m, u, (ma, mi)) (with_length h body ++ [(str "Transfer-Encoding", [])]) b, x') /\
  exists res x'', read_body rc b ops x' = Ok (res, x'') /\ map delivered res = reads ops body /\
  (unread ops body = [] -> rb (fst x'') ++ kin (snd x'') = s).
Proof.
  intros Hb H1 H2 Hr Hs Hm Ht Hu Ha Hi Hl Hf Hd Hz. destruct (with_length_ok h body Hf Hz) as [F N].
  destruct (request_at rc H1 m t u ma mi _ _ _ body s x (reached_alive rc sc cs inb n rs x Hb H1 H2 Hr) Hm Ht Ha Hi Hl Hu F N (choose_ok h body Hf Hz) Hs) as (x' & E1 & E2 & E3).
  exists (kind body), x'. split.
  - rewrite E1. unfold head_received, with_length. destruct body as [|c l]; [congruence|]. rewrite <- app_assoc. reflexivity.
  - destruct (sized_part rc H1 body s x' ops Hd E2 E3) as (res & x'' & G1 & G2 & G3). exists res, x''. auto.
Qed.
Theorem C80_response_received_partial rc sc cs inb n rs x junk ma mi code reason h body s ops : bytes inb -> (forall i, 0 < rc i) -> (forall i, 0 < sc i) ->
  run rc sc cs (fresh inb n) = Ok (rs, x) -> rb (fst x) ++ kin (snd x) = message (status_line ma mi code reason) (with_length h body) body ++ s ->
  int ma -> int mi -> int code -> reason_ok reason -> (length (status_line ma mi code reason) <= 4094)%nat -> fields_ok h ->
  body <> [] -> Z.of_nat (length body) < 2 ^ 63 ->
  exists b x', recv_response rc junk x = Ok (mkRec ((ma, mi), code, reason) (with_length h body ++ [(str "Transfer-Encoding", [])]) b, x') /\
  exists res x'', read_body rc b ops x' = Ok (res, x'') /\ map delivered res = reads ops body /\
  (unread ops body = [] -> rb (fst x'') ++ kin (snd x'') = s).
Proof.
  intros Hb H1 H2 Hr Hs Ha Hi Hc Hp Hl Hf Hd Hz. destruct (with_length_ok h body Hf Hz) as [F N].
  destruct (response_at rc H1 junk ma mi code reason _ _ _ body s x (reached_alive rc sc cs inb n rs x Hb H1 H2 Hr) Ha Hi Hc Hp Hl F N (choose_ok h body Hf Hz) Hs) as (x' & E1 & E2 & E3).
  exists (kind body), x'. split.
  - rewrite E1. unfold head_received, with_length. destruct body as [|c l]; [congruence|]. rewrite <- app_assoc. reflexivity.
  - destruct (sized_part rc H1 body s x' ops Hd E2 E3) as (res & x'' & G1 & G2 & G3). exists res, x''. auto.
Qed.
(** A message without a body: its fields and two empty ones; what the body stream delivers is what follows on the connection. *)
Theorem C80_bodiless_received_partial rc sc cs inb n rs x junk m t u ma mi code reason h s ops : bytes inb -> (forall i, 0 < rc i) -> (forall i, 0 < sc i) ->
  run rc sc cs (fresh inb n) = Ok (rs, x) -> int ma -> int mi -> fields_ok h ->
  (rb (fst x) ++ kin (snd x) = message (request_line m t ma mi) h [] ++ s ->
   word_ok m -> word_ok t -> Uri_Model.uri t = Ok u -> (length (request_line m t ma mi) <= 4094)%nat ->
   exists b x', recv_request rc x = Ok (mkRec (m, u, (ma, mi)) (h ++ [(str "Transfer-Encoding", []); (str "Content-Length", [])]) b, x') /\
   rb (fst x') ++ kin (snd x') = s /\ exists res x'', read_body rc b ops x' = Ok (res, x'') /\ map delivered res = reads ops s) /\
  (rb (fst x) ++ kin (snd x) = message (status_line ma mi code reason) h [] ++ s ->
   int code -> reason_ok reason -> (length (status_line ma mi code reason) <= 4094)%nat ->
   exists b x', recv_response rc junk x = Ok (mkRec ((ma, mi), code, reason) (h ++ [(str "Transfer-Encoding", []); (str "Content-Length", [])]) b, x') /\
   rb (fst x') ++ kin (snd x') = s /\ exists res x'', read_body rc b ops x' = Ok (res, x'') /\ map delivered res = reads ops s).
Proof.
  intros Hb H1 H2 Hr Ha Hi Hf. destruct (with_length_ok h [] Hf eq_refl) as [F N]. pose proof (reached_alive rc sc cs inb n rs x Hb H1 H2 Hr) as A. split.
  - intros Hs Hm Ht Hu Hl. destruct (request_at rc H1 m t u ma mi _ _ _ [] s x A Hm Ht Ha Hi Hl Hu F N (choose_ok h [] Hf eq_refl) Hs) as (x' & E1 & E2 & E3).
    exists (kind []), x'. split; [exact E1|]. split; [exact E3|]. exact (raw_part rc H1 s x' ops E2 E3).
  - intros Hs Hc Hp Hl. destruct (response_at rc H1 junk ma mi code reason _ _ _ [] s x A Ha Hi Hc Hp Hl F N (choose_ok h [] Hf eq_refl) Hs) as (x' & E1 & E2 & E3).
    exists (kind []), x'. split; [exact E1|]. split; [exact E3|]. exact (raw_part rc H1 s x' ops E2 E3).
Qed.
(** A message whose body is sent in chunks, as the field Transfer-Encoding says: the header is the one sent. *)
Theorem C80_chunked_received_partial rc sc cs inb n rs x junk m t u ma mi code reason h v body w s ops : bytes inb -> (forall i, 0 < rc i) -> (forall i, 0 < sc i) ->
  run rc sc cs (fresh inb n) = Ok (rs, x) -> int ma -> int mi ->
  Forall field_ok h -> NoDup (map (fun g => lower (fst g)) h) -> In (str "Transfer-Encoding", v) h -> lower v = str "chunked" ->
  bytes body -> chunked_body body w -> Forall (fun c => c <> 255) body ->
  (rb (fst x) ++ kin (snd x) = message (request_line m t ma mi) h w ++ s ->
   word_ok m -> word_ok t -> Uri_Model.uri t = Ok u -> (length (request_line m t ma mi) <= 4094)%nat ->
   exists b x', recv_request rc x = Ok (mkRec (m, u, (ma, mi)) h b, x') /\
   exists res x'', read_body rc b ops x' = Ok (res, x'') /\ map delivered res = reads ops body /\ (In None (reads ops body) -> rb (fst x'') ++ kin (snd x'') = s)) /\
  (rb (fst x) ++ kin (snd x) = message (status_line ma mi code reason) h w ++ s ->
   int code -> reason_ok reason -> (length (status_line ma mi code reason) <= 4094)%nat ->
   exists b x', recv_response rc junk x = Ok (mkRec ((ma, mi), code, reason) h b, x') /\
   exists res x'', read_body rc b ops x' = Ok (res, x'') /\ map delivered res = reads ops body /\ (In None (reads ops body) -> rb (fst x'') ++ kin (snd x'') = s)).
Proof.
  intros Hb H1 H2 Hr Ha Hi F N Hv Hl Hy Hc Hn. pose proof (reached_alive rc sc cs inb n rs x Hb H1 H2 Hr) as A.
  assert (C : choose_body h = Ok (h, Chunked)).
  { assert (K : has_key h TE = true /\ const_ref h TE = v); [|exact (choose_chunked h v (proj1 K) (proj2 K) Hl)].
    clear - Hv N. induction h as [|[a w] h IH]; [contradiction Hv|]. cbn [has_key const_ref map fst] in *. destruct Hv as [E|Hv].
    - injection E as -> ->. replace (cicmp (str "Transfer-Encoding") TE) with true by reflexivity. auto.
    - inversion N as [|? ? N1 N2]; subst. rewrite cicmp_same. unfold same. destruct (list_eq_dec Z.eq_dec (lower a) (lower TE)) as [E|E]; [|auto].
      exfalso. apply N1. rewrite E. apply in_map_iff. exists (TE, v). auto. }
  assert (B : Forall (fun c => is_byte c /\ c <> 255) body).
  { apply Forall_forall. intros c I. unfold bytes in Hy. rewrite Forall_forall in Hy, Hn. split; auto. }
  split.
  - intros Hs Hm Ht Hu L. destruct (request_at rc H1 m t u ma mi _ _ _ w s x A Hm Ht Ha Hi L Hu F N C Hs) as (x' & E1 & E2 & E3).
    exists Chunked, x'. split; [exact E1|]. exact (chunked_part rc H1 body w s x' ops E2 Hc B E3).
  - intros Hs Hd Hp L. destruct (response_at rc H1 junk ma mi code reason _ _ _ w s x A Ha Hi Hd Hp L F N C Hs) as (x' & E1 & E2 & E3).
    exists Chunked, x'. split; [exact E1|]. exact (chunked_part rc H1 body w s x' ops E2 Hc B E3).
Qed.
(** Whatever the peer sends and however the kernel answers, receiving a response ends normally or by an exception. *)
Theorem C80_response_ends rc sc cs inb n rs x junk : bytes inb -> run rc sc cs (fresh inb n) = Ok (rs, x) ->
  (exists r, recv_response rc junk x = Ok r) \/ recv_response rc junk x = Throw.
Proof.
  intros Hb Hr. pose proof (response_ends rc junk x (reached_ok rc sc cs inb n rs x Hb Hr)) as H. destruct (recv_response rc junk x); try contradiction; eauto.
Qed.
Definition nl (s : String.string) : list Z := str s ++ [13; 10].
Example C80_case_request : exists x' x'',
  send_request (fun _ => 3) (str "POST") (Uri_Model.mkC (str "http") [] (str "h") [] (str "/a") (str "q") []) 1 0 [(str "Host", str "h")] (str "hello") (fresh [] 0) = Ok x' /\
  kout (snd x') = nl "POST http://h/a?q HTTP/1.0" ++ nl "Host: h" ++ nl "Content-Length: 5" ++ nl "" ++ str "hello" /\
  recv_request (fun _ => 7) (fresh (kout (snd x') ++ str "GET") 0) =
    Ok (mkRec (str "POST", Uri_Model.mkC (str "http") [] (str "h") [] (str "/a") (str "q") [], (1, 0))
      [(str "Host", str "h"); (str "Content-Length", str "5"); (str "Transfer-Encoding", [])] (Sized 5), x'').
Proof. eexists _, _. split; [vm_compute; reflexivity|]. split; vm_compute; reflexivity. Qed.
Example C80_case_response : exists x' x'',
  send_response (fun _ => 2) 1 1 404 (str "Not Found") [(str "X", str "y z")] [] (fresh [] 0) = Ok x' /\
  kout (snd x') = nl "HTTP/1.1 404 Not Found" ++ nl "X: y z" ++ nl "" /\
  recv_response (fun _ => 1) 77 (fresh (kout (snd x')) 0) =
    Ok (mkRec ((1, 1), 404, str "Not Found") [(str "X", str "y z"); (str "Transfer-Encoding", []); (str "Content-Length", [])] Raw, x'').
Proof. eexists _, _. split; [vm_compute; reflexivity|]. split; vm_compute; reflexivity. Qed.
Example C80_nonvacuous : word_ok (str "POST") /\ reason_ok (str "Not Found") /\ reason_ok [] /\ int 404 /\ fields_ok [(str "Host", str "h"); (str "X", str "y z")] /\ Uri_Model.uri (str "/a?q") <> Throw.
Proof.
  assert (T : forall s, s <> [] -> forallb (fun c => (97 <=? c) && (c <=? 122) || (65 <=? c) && (c <=? 90)) s = true -> token s).
  { intros s Hn Hf. split; [exact Hn|]. rewrite forallb_forall in Hf. apply Forall_forall. intros c Hc. specialize (Hf c Hc). unfold token_char.
    split; [lia|]. split; [|lia]. intros K. vm_compute in K. lia. }
  split; [split; [discriminate|]; apply Forall_forall; intros c K; vm_compute in K; unfold blank; lia|]. split; [split; [intros K; vm_compute in K; lia|change (~ blank 78); unfold blank; lia]|]. split; [split; [intros []|exact I]|].
  split; [unfold int; lia|]. split; [|vm_compute; discriminate]. split; [|split].
  - assert (O : forall k c v, k <> [] -> forallb (fun c => (97 <=? c) && (c <=? 122) || (65 <=? c) && (c <=? 90)) k = true ->
      forallb (fun c => (32 <=? c) && (c <=? 126)) (c :: v) = true -> c <> 32 -> (length k + length (c :: v) <= 4092)%nat -> field_ok (k, c :: v)).
    { intros k c v H1 H2 H3 H4 H5. rewrite forallb_forall in H3. unfold field_ok. cbn [fst snd]. split; [now apply T|]. split; [|split; [|exact H5]].
      - split; [apply Forall_forall; intros a Ka; specialize (H3 a Ka); unfold is_byte; lia|]. split; intros Ka; specialize (H3 _ Ka); discriminate H3.
      - intros a w E. injection E as <- <-. specialize (H3 c (or_introl eq_refl)). unfold blank. lia. }
    constructor; [|constructor; [|constructor]]; apply O; try discriminate; try reflexivity; vm_compute; lia.
  - repeat constructor; cbn; intuition discriminate.
  - repeat constructor.
Qed.
(** The received header is not the one sent: asking for a missing field puts it there. *)
Theorem C80_header_refuted : exists x' r x'', send_response (fun _ => 9) 1 1 200 (str "OK") [(str "X", str "y")] (str "b") (fresh [] 0) = Ok x' /\
  recv_response (fun _ => 9) 0 (fresh (kout (snd x')) 0) = Ok (r, x'') /\
  has_key (with_length [(str "X", str "y")] (str "b")) (str "Transfer-Encoding") = false /\ has_key (head r) (str "Transfer-Encoding") = true.
Proof. eexists _, _, _. split; [vm_compute; reflexivity|]. split; [vm_compute; reflexivity|]. split; reflexivity. Qed.
(** The body of a request without one is the next request. *)
Theorem C80_empty_body_refuted : exists r x' x'' res, recv_request (fun _ => 99) (fresh (nl "GET / HTTP/1.1" ++ nl "" ++ nl "GET /b HTTP/1.1" ++ nl "") 0) = Ok (r, x') /\
  read_body (fun _ => 99) (bodyof r) (repeat Next 5) x' = Ok (res, x'') /\ res = str "GET /".
Proof. eexists _, _, _, _. split; [vm_compute; reflexivity|]. split; vm_compute; reflexivity. Qed.
(** The code of a status line without one is whatever was in memory. *)
Theorem C80_junk_code_refuted : forall junk, exists h b x', recv_response (fun _ => 99) junk (fresh (nl "HTTP/1.1" ++ nl "") 0) = Ok (mkRec ((1, 1), junk, []) h b, x').
Proof. intros junk. eexists _, _, _. vm_compute. reflexivity. Qed.
(** A request line can lead to undefined behaviour (C25). *)
Theorem C80_request_ends_refuted : recv_request (fun _ => 99) (fresh (nl "GET //a%41b HTTP/1.1" ++ nl "") 0) = UB.
Proof. vm_compute. reflexivity. Qed.

(** C81, writing: after any operations on the stream, in any order, the bytes put into it are those given to the kernel, in
    order, and those still in the write buffer; nothing is lost if the connection stands or all operations report success. *)
Theorem C81_written rc sc ops inb n : bytes inb ->
  exists rs b x', run_stream rc sc ops (-1, fresh inb n) = Ok (rs, (b, x')) /\ (Z.of_nat (length (wb (fst x'))) < 8192) /\
  exists lost, flat_map swritten ops = kout (snd x') ++ lost ++ wb (fst x') /\
  (conn (fst x') = true \/ Forall2 sdone ops rs -> lost = []).
Proof.
  intros Hb. destruct (stream_calls rc sc ops (-1) (fresh inb n) (okst_fresh inb n Hb)) as (rs & b & x' & cs & crs & E1 & E2 & E3 & E4).
  destruct (sent_fresh rc sc cs inb n Hb) as (rs' & x2 & F1 & F2 & lost & F3 & F4). rewrite E2 in F1. injection F1 as <- <-.
  exists rs, b, x'. split; [exact E1|]. split; [change 8192 with (Z.of_nat (Z.to_nat 8192)); apply Nat2Z.inj_lt; exact F2|]. exists lost. rewrite <- E3. split; [exact F3|]. intros [K|K]; apply F4; auto.
Qed.
(** After a successful sync everything has been given to the kernel. *)
Theorem C81_synced rc sc ops inb n rs b x' : bytes inb -> run_stream rc sc (ops ++ [SSync]) (-1, fresh inb n) = Ok (rs, (b, x')) ->
  wb (fst x') = [] /\ (conn (fst x') = true \/ Forall2 sdone (ops ++ [SSync]) rs -> kout (snd x') = flat_map swritten ops).
Proof.
  intros Hb Hr. assert (W : wb (fst x') = []).
  { destruct (stream_calls rc sc ops (-1) (fresh inb n) (okst_fresh inb n Hb)) as (rs1 & b1 & x1 & cs & crs & E1 & E2 & _ & _).
    assert (Hx : okst x1) by (exact (reached_ok rc sc cs inb n crs x1 Hb E2)).
    rewrite run_stream_app, E1 in Hr. cbn [obind run_stream stream_step] in Hr. unfold sync in Hr. cbn [fst snd] in Hr.
    destruct (flush_spec rc sc x1 (ok_open _ Hx)) as (k & x2 & F1 & _ & _ & F2 & _). rewrite F1 in Hr. cbn [obind] in Hr. injection Hr as _ _ <-. exact F2. }
  split; [exact W|]. intros K. destruct (C81_written rc sc (ops ++ [SSync]) inb n Hb) as (rs' & b' & x2 & E1 & _ & lost & E2 & E3). rewrite Hr in E1. injection E1 as <- <- <-.
  rewrite (E3 K), W, flat_map_app in E2. cbn [flat_map swritten app] in E2. rewrite !app_nil_r in E2. symmetry. exact E2.
Qed.
(** C81, reading: among any operations, the reading ones deliver the bytes of the peer, in order, then the end of file; as
    long as the kernel does not fail. *)
Theorem C81_read rc sc ops inb n : bytes inb -> (forall i, 0 < rc i) -> (forall i, 0 < sc i) ->
  exists rs s, run_stream rc sc ops (-1, fresh inb n) = Ok (rs, s) /\ map delivered (sresults ops rs) = reads (sreads ops) inb.
Proof.
  intros Hb H1 H2. destruct (C81_written rc sc ops inb n Hb) as (rs & b & x' & E & _). exists rs, (b, x'). split; [exact E|].
  assert (A : alive (fresh inb n)) by exact (reached_alive rc sc [] inb n [] (fresh inb n) Hb H1 H2 eq_refl).
  apply (stream_reads rc sc H1 H2 ops (-1) (fresh inb n) inb [] rs b x' (okst_fresh inb n Hb)); [|exact E].
  change (rrep (-1) (fresh inb n) (stream (fresh inb n)) []). now constructor.
Qed.
Example C81_case : exists x', run_stream (fun _ => 2) (fun _ => 1) [SPut 65; SRead Peek; SWrite (str "bc"); SRead Next; SSync; SRead Next; SPut 255; SRead Peek] (-1, fresh [255; 0] 0)
  = Ok ([0; 255; 2; 255; 0; 0; 0; -1], (-1, x')) /\ kout (snd x') = str "Abc" /\ wb (fst x') = [255].
Proof. eexists. split; [vm_compute; reflexivity|]. split; reflexivity. Qed.
(** The kernel fails: sync says so. *)
Example C81_case_failure : exists x', run_stream (fun _ => 2) (fun _ => -1) [SPut 65; SSync; SSync] (-1, fresh [] 0) = Ok ([0; -1; 0], (-1, x')) /\ kout (snd x') = [] /\ conn (fst x') = false.
Proof. eexists. split; [vm_compute; reflexivity|]. split; reflexivity. Qed.

Print Assumptions C80_request_sent.
Print Assumptions C80_response_sent.
Print Assumptions C80_request_received_partial.
Print Assumptions C80_response_received_partial.
Print Assumptions C80_bodiless_received_partial.
Print Assumptions C80_chunked_received_partial.
Print Assumptions C80_response_ends.
Print Assumptions C80_header_refuted.
Print Assumptions C80_empty_body_refuted.
Print Assumptions C80_junk_code_refuted.
Print Assumptions C80_request_ends_refuted.
Print Assumptions C81_written.
Print Assumptions C81_synced.
Print Assumptions C81_read.
