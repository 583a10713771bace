(** C128: a connection of the RPC server when writes fail or time out. *)
From Verif Require Import Common Socket_Spec Socket_Model Socket_Proof RpcWrite_Spec RpcWrite_Model RpcWrite_Proof.
Local Open Scope Z_scope.

(** Whatever the kernel does and whatever the client sends: the requests carried out are those at the beginning of what was sent, in
    order; the client gets a prefix of their answers; and all of them but the last are answered completely - so nothing is carried
    out after an answer that did not go out, nor after a request that ends the connection. *)
Theorem C128_prefix rc sc always whole inb n : sound whole -> bytes inb ->
  exists log g x, serve rc sc always whole (S (length inb)) [] (true, fresh inb n) = Ok (log, g, x) /\
    (exists rest, inb = flat_map fst log ++ rest) /\ Forall (fun e => exists stop, whole (fst e) = Some (snd e, stop)) log /\
    prefix (kout (snd x)) (wanted log) /\ (forall a e, log = a ++ [e] -> prefix (wanted a) (kout (snd x))) /\
    (forall a e b, log = a ++ e :: b -> whole (fst e) = Some (snd e, true) -> b = []) /\ wb (fst x) = [].
Proof.
  intros S B. destruct (serve_ok rc sc always whole S (Datatypes.S (length inb)) [] (true, fresh inb n)) as (log & g & x & E & (W & D1 & D2) & R & F & _ & _ & T).
  - cbn. lia.
  - constructor; cbn; auto. + apply buf_pos. + constructor.
  - split; [reflexivity|]. split; [now exists []|]. intros a e Q. destruct a; discriminate Q.
  - reflexivity.
  - exists log, g, x. auto 9.
Qed.
(** If the kernel takes what it is given, everything carried out is answered. *)
Theorem C128_all rc sc always whole inb n : sound whole -> bytes inb -> (forall i, 0 < rc i) -> (forall i, 0 < sc i) ->
  exists log g x, serve rc sc always whole (S (length inb)) [] (true, fresh inb n) = Ok (log, g, x) /\ kout (snd x) = wanted log.
Proof.
  intros S B R1 S1. destruct (serve_ok rc sc always whole S (Datatypes.S (length inb)) [] (true, fresh inb n)) as (log & g & x & E & _ & _ & _ & L & _).
  - cbn. lia.
  - constructor; cbn; auto. + apply buf_pos. + constructor.
  - split; [reflexivity|]. split; [now exists []|]. intros a e Q. destruct a; discriminate Q.
  - reflexivity.
  - exists log, g, x. split; [exact E|]. apply L; auto. split; assumption.
Qed.
(** A stream that has failed sends nothing more, whatever is put. *)
Theorem C128_silent sc always ops x : wb (fst x) = [] -> reply sc always ops (false, x) = Ok (false, x).
Proof.
  intros W. induction ops as [|o ops IH]; [reflexivity|]. cbn [reply]. replace (do_op sc always o (false, x)) with (Ok (false, x)); [exact IH|].
  destruct o; cbn [do_op put push]; [reflexivity|]. destruct (false || always); [|reflexivity]. unfold flush. rewrite W. reflexivity.
Qed.

(** Requests of one byte: b is answered by b times b in two parts; 255 also ends the connection. *)
Definition bytewise : protocol := fun q =>
  match q with [] => None | b :: _ => Some ([Put [b]; Put (repeat b (Z.to_nat b - 1)); Push], b =? 255) end.
Lemma C128_bytewise : sound bytewise.
Proof. split; [reflexivity|]. intros [|b q] ops stop E; [discriminate E|]. exists [Put [b]; Put (repeat b (Z.to_nat b - 1))]. unfold bytewise in E. cbn [app]. congruence. Qed.
(** The second answer is cut, and the third request is not carried out, though it has been received. *)
Example C128_nonvacuous : exists g x,
  serve (fun _ => 100) (fun i => if (i <? 3)%nat then 2 else -1) true bytewise 5 [] (true, fresh [2; 3; 4] 0) = Ok ([([2], [Put [2]; Put [2]; Push]); ([3], [Put [3]; Put [3; 3]; Push])], g, x) /\
  kout (snd x) = [2; 2; 3; 3] /\ conn (fst x) = false /\ rb (fst x) = [4].
Proof. eexists _, _. split; [vm_compute; reflexivity|]. repeat split. Qed.
Example C128_stop : exists g x, serve (fun _ => 100) (fun _ => 300) true bytewise 5 [] (true, fresh [1; 255; 1] 0) = Ok ([([1], [Put [1]; Put []; Push]); ([255], [Put [255]; Put (repeat 255 254); Push])], g, x).
Proof. eexists _, _. vm_compute. reflexivity. Qed.
Example C128_all_nonvacuous : exists log g x, serve (fun _ => 1) (fun _ => 1) false bytewise 5 [] (true, fresh [1; 2; 1] 0) = Ok (log, g, x) /\ kout (snd x) = [1; 2; 2; 1].
Proof. eexists _, _, _. split; [vm_compute; reflexivity|reflexivity]. Qed.

Print Assumptions C128_prefix.
Print Assumptions C128_all.
Print Assumptions C128_silent.
