(** C127: replies of an RPC server that are cut. *)
From Verif Require Import Common NumText_Model Archive_Model Archive_Spec Archive_Proof Rpc_Spec Rpc_Model RpcCut_Spec RpcCut_Model RpcCut_Proof.
Local Open Scope Z_scope.

(** A reply with a result of which not all bytes arrive is an error to the caller, wherever it is cut; nothing is taken for the result.
    Missing are results that are sets of numbers (C12). *)
Theorem C127_result_partial ret v p : no_arith_set ret = true -> has_type ret v -> cut_of p (wstr (str "OK") ++ write ret v) ->
  exists m, take_reply ret p = Ok (Error m).
Proof. apply take_cut_result. Qed.
(** The whole reply gives the result. *)
Theorem C127_whole ret v rest : has_type ret v -> take_reply ret (wstr (str "OK") ++ write ret v ++ rest) = Ok (Value v).
Proof. apply take_whole. Qed.
(** A message that is cut is never taken for a result either. *)
Theorem C127_message ret msg p x : small msg -> cut_of p (wstr msg) -> take_reply ret p = Ok x -> forall v, x <> Value v.
Proof.
  intros Hs (q & Hq & E). assert (Ep : p = firstn (length p) (wstr msg)).
  { rewrite E, firstn_app, firstn_all, Nat.sub_diag. cbn [firstn]. now rewrite app_nil_r. }
  assert (L : (length p < 4 + length msg)%nat).
  { apply (f_equal (@length Z)) in E. unfold wstr in E. cbn [write] in E. rewrite !app_length, wsize_len in E. destruct q; [congruence|cbn in E; lia]. }
  rewrite Ep, take_cut by assumption. apply gen_no_value.
Qed.
(** But a method that was not found is reported under another name, *)
Theorem C127_name_refuted ret name j : no_space name -> small (str "NotFound " ++ name) -> (j < length name)%nat ->
  take_reply ret (firstn (13 + j) (wstr (str "NotFound " ++ name))) = Ok (Not_found (firstn j name ++ repeat 0 (length name - j))).
Proof. apply not_found_cut. Qed.
(** of a version mismatch that is cut in front of the numbers uninitialised numbers are reported, *)
Theorem C127_uninitialised_refuted ret nums : small (str "VersionMismatch " ++ nums) -> nums <> [] ->
  take_reply ret (firstn 20 (wstr (str "VersionMismatch " ++ nums))) = UB.
Proof. apply mismatch_cut. Qed.
(** and of one that is cut in the numbers wrong ones. *)
Theorem C127_number_refuted : exists msg k, msg = str "VersionMismatch " ++ show_int 1 ++ str " " ++ show_int 12 /\
  (k < length (wstr msg))%nat /\ forall ret, take_reply ret (firstn k (wstr msg)) = Ok (Mismatch 1 1).
Proof. exists (str "VersionMismatch 1 12"), 23%nat. split; [reflexivity|]. split; [vm_compute; lia|]. intros ret. vm_compute. reflexivity. Qed.

Example C127_nonvacuous : has_type (TNum 4 true) (VN 7) /\ no_arith_set (TNum 4 true) = true /\
  cut_of [2;0;0;0;79;75;7;0] (wstr (str "OK") ++ write (TNum 4 true) (VN 7)) /\
  take_reply (TNum 4 true) [2;0;0;0;79;75;7;0] = Ok (Error (str "cannot recv return value")) /\
  take_reply (TNum 4 true) [2;0;0;0;79;75;7;0;0;0] = Ok (Value (VN 7)) /\
  take_reply (TNum 4 true) [2;0;0;0;79] = Ok (Error [79; 0]).
Proof.
  split; [split; [lia|]; exists 7; split; [reflexivity|cbn; lia]|]. split; [reflexivity|]. split; [exists [0; 0]; split; [discriminate|reflexivity]|].
  split; [|split]; vm_compute; reflexivity.
Qed.
Example C127_name_nonvacuous : no_space (str "add") /\ take_reply TBool (firstn 14 (wstr (str "NotFound add"))) = Ok (Not_found [97; 0; 0]).
Proof. split; [|vm_compute; reflexivity]. apply Forall_forall. intros c Hc. vm_compute in Hc. lia. Qed.

Print Assumptions C127_result_partial.
Print Assumptions C127_whole.
Print Assumptions C127_message.
Print Assumptions C127_name_refuted.
Print Assumptions C127_uninitialised_refuted.
Print Assumptions C127_number_refuted.
