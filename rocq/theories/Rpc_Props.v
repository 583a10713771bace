(** C57: RPC calls. *)
From Verif Require Import Common CommonLemmas Archive_Model Archive_Spec Cast_Spec Rpc_Spec Rpc_Model Rpc_Proof.
Local Open Scope Z_scope.

(** Any number of clients up to the number of workers, any sequence of calls by them, any registered
    functions that return: every call gives what the function gives on exactly those arguments (and
    the application's state develops as if the functions were called locally), an unknown name or a
    wrong version gives its exception with the name or both versions, and the server goes on. *)
Theorem C57_calls_partial : forall (A : Type) ver (svc : service A) n a rs, int32 ver ->
  (forall name f, registered svc name f -> returns f) -> Forall (fun r => (r_client r < n)%nat /\ proper svc r) rs ->
  exists xs w, calls ver svc rs (start a n) = Ok (xs, w) /\ answers_all ver svc a rs (astate w) xs /\ live w = true.
Proof.
  intros A ver svc n a rs Hv Hr Hrs. destruct (calls_ok ver svc n Hv Hr rs (start a n) (inv_start n a) Hrs) as (xs & w & E & Ha & Hi).
  exists xs, w. split; [exact E|]. split; [exact Ha|apply Hi].
Qed.
(** The specification leaves no choice. *)
Theorem C57_answers_unique : forall (A : Type) ver (svc : service A) a r a1 x1 a2 x2,
  answers ver svc a r a1 x1 -> answers ver svc a r a2 x2 -> a1 = a2 /\ x1 = x2.
Proof.
  intros A ver svc a r a1 x1 a2 x2 H1 H2. destruct H1 as [f a1 v1 R1 V1 B1|N1|f R1 V1], H2 as [g a2 v2 R2 V2 B2|N2|g R2 V2];
    try (now (exfalso; eapply N1; eassumption)); try (now (exfalso; eapply N2; eassumption)); try congruence; try easy.
  apply lookup_registered in R1, R2. assert (f = g) by congruence. subst g. rewrite B1 in B2. now injection B2 as -> ->.
Qed.

(** A counter with "add" (int32) -> int32 and "echo" (string, vector<string>) -> string. *)
Definition ex_svc : service Z := [
  (str "add", {| f_args := [TNum 4 true]; f_ret := TNum 4 true;
     f_body := fun a vs => match vs with [VN z] => let a' := (a + z) mod 2 ^ 16 in (a', Ret (VN a')) | _ => (a, Ret (VN 0)) end |});
  (str "echo", {| f_args := [TStr; TSeq TStr]; f_ret := TStr;
     f_body := fun a vs => match vs with [VS s; VL _] => (a, Ret (VS s)) | _ => (a, Ret (VS [])) end |})].
Definition ex_add c v z := {| r_client := c; r_ver := v; r_name := str "add"; r_args := [TNum 4 true]; r_ret := TNum 4 true; r_vals := [VN z] |}.
Definition ex_echo c v := {| r_client := c; r_ver := v; r_name := str "echo"; r_args := [TStr; TSeq TStr]; r_ret := TStr; r_vals := [VS (str "hi"); VL [VS []]] |}.
Definition ex_none c v := {| r_client := c; r_ver := v; r_name := str "nope"; r_args := []; r_ret := TBool; r_vals := [] |}.
Lemma ex_proper r : forallb (fun c => negb (Cast_Model.isspace c)) (r_name r) = true -> forallb (fun c => (0 <=? c) && (c <? 256)) (r_name r) = true ->
  (length (r_name r) < 100)%nat -> ~ In (r_name r) reserved -> -100 < r_ver r < 100 -> Forall2 has_type (r_args r) (r_vals r) ->
  match lookup ex_svc (r_name r) with Some f => f_args f = r_args r /\ f_ret f = r_ret r | None => True end -> proper ex_svc r.
Proof.
  intros H1 H2 H3 H4 H5 H6 H7. split; [now apply bytes_b|]. split; [lia|]. split; [exact H4|]. split; [unfold int32; lia|]. split; [exact H6|]. split.
  - intros f Hf%lookup_registered. now rewrite Hf in H7.
  - intros _. now apply noblank_b.
Qed.
Lemma ex_add_proper c v z : -100 < v < 100 -> -100 < z < 100 -> proper ex_svc (ex_add c v z).
Proof.
  intros Hv Hz. apply ex_proper; [reflexivity|reflexivity|cbn; lia|cbn; intros [Q|[Q|[]]]; discriminate|exact Hv| |].
  - constructor; [|constructor]. split; [lia|]. exists z. split; [reflexivity|]. cbn. lia.
  - split; reflexivity.
Qed.
Lemma ex_echo_proper c v : -100 < v < 100 -> proper ex_svc (ex_echo c v).
Proof.
  intros Hv. apply ex_proper; [reflexivity|reflexivity|cbn; lia|cbn; intros [Q|[Q|[]]]; discriminate|exact Hv| |].
  - constructor; [|constructor; [|constructor]].
    + exists (str "hi"). split; [reflexivity|]. split; [now apply bytes_b|unfold small; cbn; lia].
    + exists [VS []]. split; [reflexivity|]. split; [unfold small; cbn; lia|]. constructor; [|constructor].
      exists []. split; [reflexivity|]. split; [constructor|unfold small; cbn; lia].
  - split; reflexivity.
Qed.
Lemma ex_none_proper c v : -100 < v < 100 -> proper ex_svc (ex_none c v).
Proof.
  intros Hv. apply ex_proper; [reflexivity|reflexivity|cbn; lia|cbn; intros [Q|[Q|[]]]; discriminate|exact Hv|constructor|exact I].
Qed.
Example C57_calls_nonvacuous : (forall name f, registered ex_svc name f -> returns f) /\
  Forall (fun r => (r_client r < 2)%nat /\ proper ex_svc r) [ex_add 0 (-3) 5; ex_none 0 (-3); ex_echo 1 (-3); ex_add 1 7 1; ex_add 1 (-3) 6; ex_add 0 (-3) 1].
Proof.
  split.
  - intros name f (pre & post & E & _). assert (I : In (name, f) ex_svc) by (rewrite E; apply in_elt). clear E.
    destruct I as [I|[I|[]]]; injection I as <- <-; intros a vs H; cbn [f_args] in H.
    + inversion H as [|t0 v0 l0 l1 Hv H']; subst. destruct Hv as (_ & z & -> & Hz). inversion H'; subst. cbn [f_body f_ret].
      eexists _, _. split; [reflexivity|]. split; [lia|]. eexists. split; [reflexivity|]. unfold in_range. cbn [negb].
      pose proof (Z.mod_pos_bound (a + z) (2 ^ 16) eq_refl). change (2 ^ (8 * Z.of_nat 4 - 1)) with (2 ^ 31). lia.
    + inversion H as [|t0 v0 l0 l1 Hv H']; subst. destruct Hv as (s & -> & Hb & Hs). inversion H' as [|t1 v1 l2 l3 Hv' H'']; subst. destruct Hv' as (l & -> & Hl). inversion H''; subst.
      eexists _, _. split; [reflexivity|]. now exists s.
  - repeat apply Forall_cons; try apply Forall_nil; (split; [cbn; lia|]);
      first [apply ex_add_proper; lia|apply ex_echo_proper; lia|apply ex_none_proper; lia].
Qed.
Example C57_case : omap fst (calls (-3) ex_svc [ex_add 0 (-3) 5; ex_none 0 (-3); ex_echo 1 (-3); ex_add 1 7 1; ex_add 1 (-3) 6; ex_add 0 (-3) 1] (start 0 2)) =
  Ok [Value (VN 5); Not_found (str "nope"); Value (VS (str "hi")); Mismatch (-3) 7; Value (VN 11); Value (VN 12)].
Proof. vm_compute. reflexivity. Qed.

(** ** Where the statement fails *)

(** The name in method_not_found stops at the first white space. *)
Theorem C57_name_truncated_refuted : forall (A : Type) ver (svc : service A) n a r w1 b rest, (r_client r < n)%nat ->
  r_name r = w1 ++ b :: rest -> bytes (r_name r) -> Z.of_nat (length (r_name r)) < 2 ^ 32 - 9 -> ~ In (r_name r) reserved ->
  (forall f, ~ registered svc (r_name r) f) -> Forall (fun c => ~ blank c) w1 -> w1 <> [] -> blank b ->
  exists w, call ver svc r (start a n) = Ok (Not_found w1, w).
Proof. intros. now apply (call_truncated ver svc n r (start a n) w1 b rest (inv_start n a)). Qed.
Example C57_name_truncated_nonvacuous : omap fst (call 0 ex_svc
  {| r_client := 0; r_ver := 0; r_name := str "no such"; r_args := []; r_ret := TBool; r_vals := [] |} (start 0 1)) = Ok (Not_found (str "no")).
Proof. vm_compute. reflexivity. Qed.

(** If the function throws an rpc_error the server sends no answer and the caller waits for ever. *)
Theorem C57_rpc_error_unanswered_refuted : forall (A : Type) ver (svc : service A) n a r f a', int32 ver -> (r_client r < n)%nat ->
  proper svc r -> registered svc (r_name r) f -> r_ver r = ver -> f_body f a (r_vals r) = (a', Rpc_error) ->
  exists w, call ver svc r (start a n) = Ok (Hangs, w) /\ astate w = a'.
Proof. intros A ver svc n a r f a' Hv Hc Hp Hf Ev Hb. exact (call_unanswered ver svc n r f (start a n) a' Hv (inv_start n a) Hc Hp (conj Hf Ev) Hb). Qed.
Definition ex_throw (x : fres) : service Z := [(str "f", {| f_args := []; f_ret := TBool; f_body := fun a _ => (a + 1, x) |})].
Definition ex_f c := {| r_client := c; r_ver := 0; r_name := str "f"; r_args := []; r_ret := TBool; r_vals := [] |}.
Lemma ex_f_proper x c : proper (ex_throw x) (ex_f c) /\ exists f, registered (ex_throw x) (str "f") f /\ f_body f 0 [] = (1, x).
Proof.
  split.
  - split; [apply bytes_b; reflexivity|]. split; [cbn; lia|]. split; [cbn; intros [Q|[Q|[]]]; discriminate|]. split; [unfold int32; cbn; lia|].
    split; [constructor|]. split; [|intros _; apply noblank_b; reflexivity]. intros f Hf%lookup_registered. 
    assert (E : lookup (ex_throw x) (r_name (ex_f c)) = Some {| f_args := []; f_ret := TBool; f_body := fun a _ => (a + 1, x) |}) by reflexivity.
    rewrite E in Hf. injection Hf as <-. now split.
  - eexists. split; [apply lookup_registered; reflexivity|reflexivity].
Qed.
Example C57_rpc_error_nonvacuous : exists f, proper (ex_throw Rpc_error) (ex_f 0) /\ registered (ex_throw Rpc_error) (r_name (ex_f 0)) f /\
  f_body f 0 (r_vals (ex_f 0)) = (1, Rpc_error).
Proof. destruct (ex_f_proper Rpc_error 0) as (Hp & f & Hf & Hb). now exists f. Qed.

(** Any other exception leaves the worker's thread and ends the process: the caller gets an rpc_error
    with no text, and no later call of anyone finds a server. *)
Theorem C57_exception_kills_refuted : forall (A : Type) ver (svc : service A) n a r f a' rs, int32 ver -> (r_client r < n)%nat ->
  proper svc r -> registered svc (r_name r) f -> r_ver r = ver -> f_body f a (r_vals r) = (a', Other_exn) ->
  exists w, calls ver svc (r :: rs) (start a n) = Ok (Error [] :: map (fun _ => No_connection) rs, w).
Proof.
  intros A ver svc n a r f a' rs Hv Hc Hp Hf Ev Hb. destruct (call_kills ver svc n r f (start a n) a' Hv (inv_start n a) Hc Hp (conj Hf Ev) Hb) as (w & E & Hd).
  destruct (dead_calls ver svc rs w Hd) as (w2 & E2). exists w2. cbn [calls]. rewrite E. cbn [obind]. now rewrite E2.
Qed.
Example C57_exception_nonvacuous : exists f, proper (ex_throw Other_exn) (ex_f 0) /\ registered (ex_throw Other_exn) (r_name (ex_f 0)) f /\
  f_body f 0 (r_vals (ex_f 0)) = (1, Other_exn).
Proof. destruct (ex_f_proper Other_exn 0) as (Hp & f & Hf & Hb). now exists f. Qed.

(** A function registered under one of the protocol's own names cannot be called. *)
Theorem C57_reserved_names_refuted : exists (svc : service Z) r f, registered svc (r_name r) f /\ returns f /\ r_ver r = 0 /\
  r_args r = f_args f /\ r_ret r = f_ret f /\ Forall2 has_type (f_args f) (r_vals r) /\
  omap (fun p => (fst p, astate (snd p))) (call 0 svc r (start 0 1)) = Ok (Error (str "<<<PONG>>>"), 0).
Proof.
  set (f := {| f_args := [TBool]; f_ret := TBool; f_body := fun (a : Z) _ => (a + 1, Ret (VB true)) |}).
  exists [(str "<<<PING>>>", f)], {| r_client := 0; r_ver := 0; r_name := str "<<<PING>>>"; r_args := [TBool]; r_ret := TBool; r_vals := [VB true] |}, f.
  split; [apply lookup_registered; reflexivity|]. split; [intros a vs _; eexists _, _; split; [reflexivity|now exists true]|].
  repeat (split; [reflexivity|]). split; [repeat constructor; now exists true|]. vm_compute. reflexivity.
Qed.

(** A client keeps its connection, and with it a worker: with as many idle clients as workers the next
    client waits. *)
Theorem C57_workers_exhausted_refuted : omap fst (calls 0 ex_svc [ex_add 0 0 5; ex_add 1 0 5; ex_add 0 0 5] (start 0 1)) =
  Ok [Value (VN 5); Hangs; Value (VN 10)].
Proof. vm_compute. reflexivity. Qed.

(** A request that ends behind the name of a function without arguments runs the function, though no
    version has been received. *)
Theorem C57_unversioned_call_refuted : forall (A : Type) ver (svc : service A) a name f a' v, bytes name -> small name -> ~ In name reserved ->
  registered svc name f -> f_args f = [] -> f_body f a [] = (a', Ret v) ->
  serve (turns (wstr name)) true ver svc a (wstr name, true) = Ok (a', [], Closed).
Proof. intros. eapply serve_unversioned; eassumption. Qed.
Example C57_unversioned_nonvacuous : exists f, registered (ex_throw (Ret (VB true))) (str "f") f /\ f_body f 0 [] = (1, Ret (VB true)).
Proof. destruct (ex_f_proper (Ret (VB true)) 0) as (_ & f & Hf & Hb). now exists f. Qed.

Print Assumptions C57_calls_partial.
Print Assumptions C57_answers_unique.
Print Assumptions C57_name_truncated_refuted.
Print Assumptions C57_rpc_error_unanswered_refuted.
Print Assumptions C57_exception_kills_refuted.
Print Assumptions C57_reserved_names_refuted.
Print Assumptions C57_workers_exhausted_refuted.
Print Assumptions C57_unversioned_call_refuted.
