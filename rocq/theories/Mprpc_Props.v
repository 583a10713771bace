(** Property C58: mprpc writes are complete and replies matched by id; property C75: mprpc calls return what the remote function returns. *)
From Verif Require Import Common CommonLemmas Mprpc_Spec Mprpc_Model Mprpc_Proof.
Local Open Scope Z_scope.

(** Whatever the system calls do, what was taken is a beginning of the data, and success means all of it, once. *)
Theorem C58_write_no_loss : forall data evs,
  let '(sent, res, _) := os_write data evs in exists rest, data = sent ++ rest /\ (forall v, res = WDone v -> sent = data /\ v = int_of (Z.of_nat (length data))).
Proof.
  intros data evs. unfold os_write. assert (H := write_loop_prefix (Z.of_nat (length data)) evs data). destruct (write_loop (Z.of_nat (length data)) data evs) as [[s r] e].
  destruct H as [q [H1 H2]]. exists q. split; [exact H1|]. intros v Hv. destruct (H2 v Hv) as [-> ->]. rewrite app_nil_r in H1. auto.
Qed.
(** Short writes, EINTR, and EAGAIN before the timeout only delay: once the kernel has taken as many bytes as there are, the call has succeeded. *)
Theorem C58_write_complete : forall data evs, Forall benign_w evs -> Z.of_nat (length data) <= taken evs ->
  exists evs', os_write data evs = (data, WDone (int_of (Z.of_nat (length data))), evs').
Proof. intros data evs H1 H2. apply os_write_all. split; assumption. Qed.
Example C58_write_nonvacuous :
  os_write [1; 2; 3; 4; 5] [Took 2; WErr EINTR true; WErr EAGAIN false; Took 1; Took 9; Took 7] = ([1; 2; 3; 4; 5], WDone 5, [Took 7]) /\
  os_write [1; 2; 3] [Took 1; WErr EAGAIN true] = ([1], WTimeout, []) /\ os_write [1; 2; 3] [Took 1; WErr EOTHER false] = ([1], WFail, []) /\ os_write [1; 2; 3] [Took 0] = ([], WFail, []).
Proof. vm_compute. auto. Qed.

(** The msgpack format is a codec. *)
Theorem C58_msgpack_codec : forall depth, codec_ok (msgpack depth).
Proof. exact msgpack_ok. Qed.
Example C58_msgpack_nonvacuous : let o := OArr [OInt (-5); OInt 300; ORaw [1; 2; 3]; OMap [OBool true; ONil]; OInt (- 2 ^ 40)] in
  mp_good 2 o /\ mp_parse 2 (mp_pack o ++ [7]) = Got o [7] /\ mp_parse 1 (mp_pack o) = Bad.
Proof. split; [cbn; repeat split; try lia; try (exists 1%nat; lia)|]. vm_compute. auto. Qed.

(** Objects are read in the order in which they were sent, however the bytes are cut. *)
Theorem C58_read_in_order : forall c, codec_ok c -> forall o os evs buf, Forall benign_r evs -> good c o -> buf ++ incoming evs = wire c (o :: os) ->
  exists buf' evs', os_read c evs buf = (RObj o, buf', evs') /\ Forall benign_r evs' /\ buf' ++ incoming evs' = wire c os.
Proof. intros c HC o os evs buf Hb Hg E. exact (read_benign c HC evs buf o _ Hb Hg E). Qed.
Example C58_read_nonvacuous : os_read (msgpack 1) [RData [148; 1]; RErr EAGAIN false; RData [2; 3; 4; 5]; RData [6]] [] = (RObj (OArr [OInt 1; OInt 2; OInt 3; OInt 4]), [5], [RData [6]]).
Proof. vm_compute. reflexivity. Qed.

(** join gives nothing but the reply asked for. *)
Theorem C58_join_sound : forall c id evs buf i e r buf' evs', join_ c id evs buf = (JGot i e r, buf', evs') -> i = id.
Proof. intros c id evs buf i e r buf' evs'. unfold join_. apply join_id. Qed.
(** join gives it behind any number of other messages; what comes after it stays. *)
Theorem C58_join_finds : forall c, codec_ok c -> forall noise id e r rest evs buf, Forall (good c) noise -> Forall (other id) noise -> good c (response id e r) -> 0 <= id < 2 ^ 32 ->
  Forall benign_r evs -> buf ++ incoming evs = wire c (noise ++ response id e r :: rest) ->
  exists buf' evs', join_ c id evs buf = (JGot id e r, buf', evs') /\ Forall benign_r evs' /\ buf' ++ incoming evs' = wire c rest.
Proof. intros c HC noise id e r rest evs buf. intros. now apply join_find_ with (noise := noise). Qed.
(** A message whose kind is no uint8_t or whose id is no uint32_t makes join give up. *)
Theorem C58_join_range : forall c, codec_ok c -> forall noise id k i a b rest evs buf, Forall (good c) noise -> Forall (other id) noise -> good c (message k i a b) ->
  ~ (0 <= k < 256 /\ 0 <= i < 2 ^ 32) -> Forall benign_r evs -> buf ++ incoming evs = wire c (noise ++ message k i a b :: rest) ->
  exists buf' evs', join_ c id evs buf = (JFalse, buf', evs') /\ buf' ++ incoming evs' = wire c rest.
Proof.
  intros c HC noise id k i a b rest evs buf Hg Ho Hr Hn Hb E. apply join_range with (noise := noise) (k := k) (i := i) (a := a) (b := b); try assumption.
  assert (HL := wire_len c noise HC Hg). apply (f_equal (@length Z)) in E. rewrite app_length in E. unfold wire in E at 1. rewrite map_app, concat_app, app_length in E. fold (wire c noise) in E. lia.
Qed.
Example C58_join_range_nonvacuous : join_ (msgpack 2) 1 [RData (mp_pack (message (-1) 1 ONil ONil))] [] = (JFalse, [], []) /\
  join_ (msgpack 2) 1 [RData (mp_pack (message 1 (2 ^ 32 + 1) ONil ONil))] [] = (JFalse, [], []).
Proof. vm_compute. auto. Qed.
Example C58_join_nonvacuous :
  let r7 := mp_pack (response 7 ONil (ORaw [104; 105])) in let r6 := mp_pack (response 6 ONil ONil) in let q := mp_pack (request 7 [102] []) in
  join_ (msgpack 2) 7 [RData r6; RData (firstn 3 q); RErr EINTR false; RData (skipn 3 q ++ r7 ++ [1])] [] = (JGot 7 ONil (ORaw [104; 105]), [1], []).
Proof. vm_compute. reflexivity. Qed.
(** Replies that come in the order in which they are joined all arrive.  Missing for the full claim: any other order, which is false, see below. *)
Theorem C58_joins_in_order_partial : forall c, codec_ok c -> forall (rs : list (list obj * (Z * obj * obj))) rest evs buf,
  Forall (fun x => let '(noise, (id, e, r)) := x in Forall (good c) noise /\ Forall (other id) noise /\ good c (response id e r) /\ 0 <= id < 2 ^ 32) rs -> Forall benign_r evs ->
  buf ++ incoming evs = wire c (concat (map (fun x => let '(noise, (id, e, r)) := x in noise ++ [response id e r]) rs) ++ rest) ->
  joins c (map (fun x => fst (fst (snd x))) rs) evs buf = Some (map (fun x => (snd (fst (snd x)), snd (snd x))) rs).
Proof. exact joins_in_order. Qed.
Example C58_joins_in_order_nonvacuous :
  joins (msgpack 2) [3; 4] [RData (mp_pack (response 3 ONil (OInt 30))); RData (mp_pack (response 2 ONil (OInt 20)) ++ mp_pack (response 4 ONil (OInt 40)))] [] = Some [(ONil, OInt 30); (ONil, OInt 40)].
Proof. vm_compute. reflexivity. Qed.
(** The ids of up to 2^32 requests one after the other are different; then they come again. *)
Fixpoint ids (n : nat) (seqid : Z) : list Z := match n with O => [] | S n' => fst (next_id seqid) :: ids n' (snd (next_id seqid)) end.
Lemma ids_in n : forall s i, 0 <= s < 2 ^ 32 -> In i (ids n s) -> exists k, 0 <= k < Z.of_nat n /\ i = (s + k) mod 2 ^ 32.
Proof.
  induction n as [|n IH]; intros s i Hs H; [contradiction H|]. cbn [ids next_id fst snd] in H. destruct H as [<-|H].
  - exists 0. split; [lia|]. rewrite Z.add_0_r. symmetry. now apply Z.mod_small.
  - destruct (IH ((s + 1) mod 2 ^ 32) i) as (k & Hk & ->); [apply Z.mod_pos_bound; lia|exact H|]. exists (k + 1). split; [lia|]. rewrite Zplus_mod_idemp_l. f_equal. lia.
Qed.
Theorem C58_ids_distinct : forall n s, 0 <= s < 2 ^ 32 -> Z.of_nat n <= 2 ^ 32 -> NoDup (ids n s).
Proof.
  induction n as [|n IH]; intros s Hs Hn; [constructor|]. cbn [ids next_id fst snd]. assert (M : 0 <= (s + 1) mod 2 ^ 32 < 2 ^ 32) by (apply Z.mod_pos_bound; lia).
  constructor; [|apply IH; [exact M|lia]]. intros H. apply ids_in in H; [|exact M]. destruct H as (k & Hk & E). rewrite Zplus_mod_idemp_l in E.
  pose proof (Z.div_mod (s + 1 + k) (2 ^ 32) ltac:(lia)). assert (0 < 1 + k < 2 ^ 32) by lia. assert (D : (s + 1 + k) / 2 ^ 32 = 0 \/ (s + 1 + k) / 2 ^ 32 = 1).
  { assert (0 <= (s + 1 + k) / 2 ^ 32 < 2); [|lia]. split; [apply Z.div_pos; lia|apply Z.div_lt_upper_bound; lia]. }
  destruct D as [D|D]; rewrite D in *; lia.
Qed.
Example C58_ids_nonvacuous : ids 3 (2 ^ 32 - 2) = [2 ^ 32 - 2; 2 ^ 32 - 1; 0].
Proof. reflexivity. Qed.
(** False of the code: joining the later of two replies drops the earlier one; its caller waits for ever. *)
Theorem C58_reply_dropped_refuted : forall c, codec_ok c -> forall i j e r e' r' evs buf, 0 <= i < 2 ^ 32 -> 0 <= j < 2 ^ 32 -> i <> j -> good c (response i e r) -> good c (response j e' r') ->
  Forall benign_r evs -> buf ++ incoming evs = wire c [response i e r; response j e' r'] ->
  exists buf' evs', join_ c j evs buf = (JGot j e' r', buf', evs') /\ join_ c i evs' buf' = (JBlocked, [], []).
Proof.
  intros c HC i j e r e' r' evs buf Hi Hj Hij G1 G2 Hb E.
  destruct (join_find_ c [response i e r] j e' r' [] evs buf HC) as [buf' [evs' [F1 [F2 F3]]]]; try assumption; [repeat constructor; assumption| |].
  - constructor; [|constructor]. exists 1, i, e, r. repeat split; lia || reflexivity || (right; assumption).
  - exists buf', evs'. split; [exact F1|]. now apply join_waits with (o := response i e r).
Qed.
Example C58_reply_dropped_nonvacuous :
  match join_ (msgpack 2) 1 [RData (mp_pack (response 0 ONil (OInt 30)) ++ mp_pack (response 1 ONil (OInt 31)))] [] with
  | (JGot _ _ r, buf, evs) => r = OInt 31 /\ join_ (msgpack 2) 0 evs buf = (JBlocked, [], [])
  | _ => False
  end.
Proof. vm_compute. auto. Qed.

(** * Calls *)
(** The function gets exactly the arguments, the caller exactly its result. *)
Theorem C75_call_returns_result_partial : forall c funcs t id name l w1 cut1 w2 cut2 v r, codec_ok c -> 0 <= id < 2 ^ 32 ->
  bound funcs name v -> length l = length (types v) -> Forall (fun p => fst p (snd p) = true) (combine (types v) l) -> fn v l = FVal r -> t r = true ->
  good c (request id name l) -> good c (response id ONil r) -> Z.of_nat (length (pack c (request id name l))) < 2 ^ 31 ->
  delivers (Z.of_nat (length (pack c (request id name l)))) w1 -> pieces cut1 -> delivers (Z.of_nat (length (pack c (response id ONil r)))) w2 -> pieces cut2 ->
  call c funcs t id name l w1 cut1 w2 cut2 = Returns (CValue r).
Proof.
  intros c funcs t id name l w1 cut1 w2 cut2 v r HC Hi Hf Hl Ht Hr Htr G1 G2 Hs W1 C1 W2 C2. rewrite call_served by assumption. rewrite serve_request, (find_bound _ _ _ Hf), convert_all, Hr by assumption.
  destruct (reply_arrives c id ONil r w2 cut2 HC Hi G2 W2 C2) as [w' [-> [b [ev ->]]]]. cbn [interpret]. now rewrite Htr.
Qed.
(** A name nobody registered: method_not_found with that name. *)
Theorem C75_method_not_found : forall c funcs t id name l w1 cut1 w2 cut2, codec_ok c -> 0 <= id < 2 ^ 32 -> unbound funcs name ->
  good c (request id name l) -> good c (response id (OInt 1) (ORaw name)) -> Z.of_nat (length (pack c (request id name l))) < 2 ^ 31 ->
  delivers (Z.of_nat (length (pack c (request id name l)))) w1 -> pieces cut1 -> delivers (Z.of_nat (length (pack c (response id (OInt 1) (ORaw name))))) w2 -> pieces cut2 ->
  call c funcs t id name l w1 cut1 w2 cut2 = Returns (CNotFound (ORaw name)).
Proof.
  intros c funcs t id name l w1 cut1 w2 cut2 HC Hi Hf G1 G2 Hs W1 C1 W2 C2. rewrite call_served by assumption. rewrite serve_request, find_unbound by assumption.
  destruct (reply_arrives c id (OInt 1) (ORaw name) w2 cut2 HC Hi G2 W2 C2) as [w' [-> [b [ev ->]]]]. reflexivity.
Qed.
(** An argument of the wrong type: rpc_type_error, the function is not run. *)
Theorem C75_type_mismatch : forall c funcs t id name l w1 cut1 w2 cut2 v, codec_ok c -> 0 <= id < 2 ^ 32 -> bound funcs name v -> mistyped (types v) l ->
  good c (request id name l) -> good c (response id (OInt 2) ONil) -> Z.of_nat (length (pack c (request id name l))) < 2 ^ 31 ->
  delivers (Z.of_nat (length (pack c (request id name l)))) w1 -> pieces cut1 -> delivers (Z.of_nat (length (pack c (response id (OInt 2) ONil)))) w2 -> pieces cut2 ->
  call c funcs t id name l w1 cut1 w2 cut2 = Returns CTypeError.
Proof.
  intros c funcs t id name l w1 cut1 w2 cut2 v HC Hi Hf Hm G1 G2 Hs W1 C1 W2 C2. rewrite call_served by assumption. rewrite serve_request, (find_bound _ _ _ Hf), convert_mistyped by assumption.
  destruct (reply_arrives c id (OInt 2) ONil w2 cut2 HC Hi G2 W2 C2) as [w' [-> [b [ev ->]]]]. reflexivity.
Qed.
(** An exception of the function: rpc_error with its text. *)
Theorem C75_exception_reported : forall c funcs t id name l w1 cut1 w2 cut2 v what, codec_ok c -> 0 <= id < 2 ^ 32 ->
  bound funcs name v -> length l = length (types v) -> Forall (fun p => fst p (snd p) = true) (combine (types v) l) -> fn v l = FExn what ->
  good c (request id name l) -> good c (response id (ORaw what) ONil) -> Z.of_nat (length (pack c (request id name l))) < 2 ^ 31 ->
  delivers (Z.of_nat (length (pack c (request id name l)))) w1 -> pieces cut1 -> delivers (Z.of_nat (length (pack c (response id (ORaw what) ONil)))) w2 -> pieces cut2 ->
  call c funcs t id name l w1 cut1 w2 cut2 = Returns (CError (ORaw what)).
Proof.
  intros c funcs t id name l w1 cut1 w2 cut2 v what HC Hi Hf Hl Ht Hr G1 G2 Hs W1 C1 W2 C2. rewrite call_served by assumption. rewrite serve_request, (find_bound _ _ _ Hf), convert_all, Hr by assumption.
  destruct (reply_arrives c id (ORaw what) ONil w2 cut2 HC Hi G2 W2 C2) as [w' [-> [b [ev ->]]]]. reflexivity.
Qed.
(** False of the code: a function failing with an rpc_error (say, of a call of its own) is never answered. *)
Theorem C75_rpc_error_unanswered_refuted : forall c funcs t id name l w1 cut1 w2 cut2 v, codec_ok c -> 0 <= id < 2 ^ 32 ->
  bound funcs name v -> length l = length (types v) -> Forall (fun p => fst p (snd p) = true) (combine (types v) l) -> fn v l = FRpcError ->
  good c (request id name l) -> Z.of_nat (length (pack c (request id name l))) < 2 ^ 31 -> delivers (Z.of_nat (length (pack c (request id name l)))) w1 -> pieces cut1 ->
  call c funcs t id name l w1 cut1 w2 cut2 = Hangs.
Proof.
  intros c funcs t id name l w1 cut1 w2 cut2 v HC Hi Hf Hl Ht Hr G1 Hs W1 C1. rewrite call_served by assumption. now rewrite serve_request, (find_bound _ _ _ Hf), convert_all, Hr by assumption.
Qed.
(** False of the code: too few arguments are not noticed; the function runs with indeterminate ones. *)
Theorem C75_short_arguments_refuted : forall c funcs t id name l w1 cut1 w2 cut2 v, codec_ok c -> 0 <= id < 2 ^ 32 ->
  bound funcs name v -> (length l < length (types v))%nat -> Forall (fun p => fst p (snd p) = true) (combine (types v) l) ->
  good c (request id name l) -> Z.of_nat (length (pack c (request id name l))) < 2 ^ 31 -> delivers (Z.of_nat (length (pack c (request id name l)))) w1 -> pieces cut1 ->
  call c funcs t id name l w1 cut1 w2 cut2 = RunsShort.
Proof.
  intros c funcs t id name l w1 cut1 w2 cut2 v HC Hi Hf Hl Ht G1 Hs W1 C1. rewrite call_served by assumption. rewrite serve_request, (find_bound _ _ _ Hf) by assumption.
  assert (E : convert (types v) l = Short). { clear - Hl Ht. revert l Hl Ht. induction (types v) as [|ty ts IH]; intros [|o l] Hl Ht; cbn [length convert combine] in *; try lia; [reflexivity|]. inversion Ht; subst. cbn [fst snd] in *. rewrite H1, IH by (assumption || lia). reflexivity. }
  now rewrite E.
Qed.
(** What a caller makes of an error in a reply, whoever sent it: 1 and 2 are told apart by their low 32 bits, everything else is handed on. *)
Theorem C75_error_kinds : forall t e r, e <> ONil ->
  (forall k, 0 <= k -> e = OInt (k * 2 ^ 32 + 1) -> interpret t e r = CNotFound r) /\ (forall k, 0 <= k -> e = OInt (k * 2 ^ 32 + 2) -> interpret t e r = CTypeError) /\
  ((forall k, 0 <= k -> e <> OInt (k * 2 ^ 32 + 1) /\ e <> OInt (k * 2 ^ 32 + 2)) -> interpret t e r = CError e).
Proof.
  intros t e r N. assert (M : forall k x, 0 <= k -> 0 < x < 3 -> error_code (OInt (k * 2 ^ 32 + x)) = x).
  { intros k x K X. unfold error_code. replace (0 <=? k * 2 ^ 32 + x) with true by lia. rewrite Z.add_comm, Z.mod_add by lia. apply Z.mod_small. lia. }
  split; [|split].
  - intros k K ->. unfold interpret. rewrite (M k 1 K ltac:(lia)). reflexivity.
  - intros k K ->. unfold interpret. rewrite (M k 2 K ltac:(lia)). reflexivity.
  - intros H. assert (G : error_code e <> 1 /\ error_code e <> 2).
    { destruct e as [| | z | | | | |]; try (split; discriminate). unfold error_code. destruct (Z.leb_spec 0 z) as [Z0|]; [|split; discriminate].
      destruct (H (z / 2 ^ 32) ltac:(apply Z.div_pos; lia)) as [H1 H2]. pose proof (Z.div_mod z (2 ^ 32) ltac:(lia)) as D.
      split; intros E; [apply H1|apply H2]; f_equal; rewrite E in D; lia. }
    destruct G as [G1 G2]. apply Z.eqb_neq in G1, G2. destruct e; try congruence; unfold interpret; now rewrite G1, G2.
Qed.
Example C75_error_kinds_nonvacuous : interpret (fun _ => true) (OInt (2 ^ 32 + 1)) ONil = CNotFound ONil /\ interpret (fun _ => true) (OInt (-1)) ONil = CError (OInt (-1)) /\ interpret (fun _ => true) (OInt 3) ONil = CError (OInt 3).
Proof. repeat split. Qed.
(** False of the code: a request whose method is not a string ends the server. *)
Theorem C75_bad_request_kills_refuted : forall funcs id m p, 0 <= id < 2 ^ 32 -> (forall s, m <> ORaw s) -> serve1 funcs (message 0 id m p) = SDie.
Proof. intros funcs id m p Hi Hm. unfold serve1. rewrite to_msg_message by lia. cbn [Z.eqb negb]. destruct m; try reflexivity. exfalso. now apply (Hm s). Qed.
Example C75_bad_request_nonvacuous : mp_good 1 (message 0 1 ONil ONil) /\ serve1 [] (message 0 1 ONil ONil) = SDie.
Proof. split; [cbn; lia|reflexivity]. Qed.

Definition ex_funcs : list (list Z * invoker) :=
  [([97; 100; 100], mkInv [fun o => match o with OInt _ => true | _ => false end; fun o => match o with OInt _ => true | _ => false end]
      (fun l => match l with [OInt a; OInt b] => FVal (OInt (a + b)) | _ => FThrow end));
   ([98; 97; 100], mkInv [] (fun _ => FExn [111; 104])); ([114; 112; 99], mkInv [] (fun _ => FRpcError))].
Definition ex_cut (b : list Z) : list rev := map (fun x => RData [x]) b.
Example C75_calls_nonvacuous :
  let run name l := call (msgpack 3) ex_funcs (fun o => match o with OInt _ => true | _ => false end) 7 name l [Took 1; WErr EINTR false; Took 100] ex_cut [Took 3; Took 100] ex_cut in
  run [97; 100; 100] [OInt 3; OInt 4] = Returns (CValue (OInt 7)) /\ run [97; 100; 100] [OInt 3; ONil] = Returns CTypeError /\ run [97; 100; 100] [OInt 3] = RunsShort /\
  run [98; 97; 100] [] = Returns (CError (ORaw [111; 104])) /\ run [120] [] = Returns (CNotFound (ORaw [120])) /\ run [114; 112; 99] [] = Hangs.
Proof. vm_compute. repeat split. Qed.
Example C75_names_nonvacuous : exists v, bound ex_funcs [98; 97; 100] v /\ unbound ex_funcs [120] /\ exists w, bound ex_funcs [97; 100; 100] w /\ mistyped (types w) [OInt 3; ONil].
Proof.
  eexists. split; [exists (firstn 1 ex_funcs); eexists; split; [reflexivity|cbn; intros [E|[]]; discriminate]|]. split; [cbn; intros [E|[E|[E|[]]]]; discriminate|].
  eexists. split; [exists []; eexists; split; [reflexivity|intros []]|]. cbn [types]. eexists [_], _, [], [OInt 3], ONil, []. repeat split. repeat constructor.
Qed.
Example C75_assumptions_nonvacuous : pieces ex_cut /\ delivers 5 [Took 2; WErr EAGAIN false; Took 3].
Proof.
  split.
  - intros b. unfold ex_cut, incoming. induction b as [|x b [I1 I2]]; cbn [map concat]; [split; [constructor|reflexivity]|]. split; [constructor; [discriminate|exact I1]|]. cbn [app]. now rewrite I2.
  - split; [repeat constructor|cbn; lia].
Qed.

Print Assumptions C58_write_no_loss.
Print Assumptions C58_write_complete.
Print Assumptions C58_msgpack_codec.
Print Assumptions C58_read_in_order.
Print Assumptions C58_join_sound.
Print Assumptions C58_join_finds.
Print Assumptions C58_joins_in_order_partial.
Print Assumptions C58_ids_distinct.
Print Assumptions C58_reply_dropped_refuted.
Print Assumptions C75_call_returns_result_partial.
Print Assumptions C75_method_not_found.
Print Assumptions C75_type_mismatch.
Print Assumptions C75_exception_reported.
Print Assumptions C75_rpc_error_unanswered_refuted.
Print Assumptions C75_short_arguments_refuted.
Print Assumptions C75_bad_request_kills_refuted.
Print Assumptions C58_join_range.
Print Assumptions C75_error_kinds.
