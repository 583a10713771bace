(** C123: remote procedure calls to a server with a timeout (RpcTime_Model.v), for all services, clients and calls, and all histories of calls in time,
    calls that are cut off at any byte, and connections that are quiet for too long. *)
From Verif Require Import Common Archive_Model Archive_Spec Rpc_Spec Rpc_Model Rpc_Proof Rpc_Props RpcTime_Spec RpcTime_Model RpcTime_Proof.
Local Open Scope Z_scope.

(** Connections that the server closes between calls cost nothing, and every call is answered as it should be or, if it was cut off, with an error; the
    server goes on. *)
Theorem C123_histories_partial : forall (A : Type) ver (svc : service A) n a ts, int32 ver -> (forall name f, registered svc name f -> returns f) -> Forall (fine n svc) ts ->
  exists xs w, acts ver svc ts (start a n) = Ok (xs, w) /\ served_all ver svc a ts (astate w) xs /\ live w = true.
Proof.
  intros A ver svc n a ts Hv Hr Hts. destruct (acts_ok ver svc n Hv Hr ts (start a n) (inv_start n a) Hts) as (xs & w & E & Hs & Hi). exists xs, w. repeat split; auto. apply Hi.
Qed.
(** A call that has arrived in full is answered as if there were no timeout. *)
Theorem C123_arrived : forall (A : Type) ver (svc : service A) n a ts j r, int32 ver -> (forall name f, registered svc name f -> returns f) -> Forall (fine n svc) ts -> fine n svc (Late j r) ->
  (length (wstr (r_name r) ++ wint (r_ver r) ++ write_args (r_args r) (r_vals r)) <= j)%nat ->
  exists xs w x w', acts ver svc ts (start a n) = Ok (xs, w) /\ late ver svc j r w = Ok (x, w') /\ answers ver svc (astate w) r (astate w') x.
Proof.
  intros A ver svc n a ts j r Hv Hr Hts Hf Hj. destruct (acts_ok ver svc n Hv Hr ts (start a n) (inv_start n a) Hts) as (xs & w & E & _ & Hi).
  destruct (late_ok ver svc n j r w Hv Hr Hi Hf) as (x & w' & E' & _ & _ & Ha). exists xs, w, x, w'. auto.
Qed.
(** What a caller expects: a call that failed with an error was not run.  A function without arguments is run when its name has arrived, whatever the version,
    and the caller is told that there was an error. *)
Theorem C123_run_refuted : forall (A : Type) ver (svc : service A) n a r f, int32 ver -> (forall name f, registered svc name f -> returns f) -> fine n svc (Late (length (wstr (r_name r))) r) ->
  registered svc (r_name r) f -> f_args f = [] ->
  exists a' v w, f_body f a [] = (a', Ret v) /\ late ver svc (length (wstr (r_name r))) r (start a n) = Ok (Error [], w) /\ astate w = a'.
Proof.
  intros A ver svc n a r f Hver Hret Hfine Hreg Hargs. destruct Hfine as (Hc & (Hb & Hlen & Hres & Hv & Ht & Hr & Hblank) & Hna). assert (Hsm : small (r_name r)) by (unfold small; lia).
  destruct (Hret _ _ Hreg a []) as (a' & v & Eb & _); [rewrite Hargs; constructor|]. exists a', v.
  destruct (connection_ok ver svc (r_client r) n (start a n) Hc (inv_start n a)) as (w1 & E & Ha & Hi1 & Hs1). cbn [start astate] in Ha.
  assert (F : fate ver svc (astate w1) (wstr (r_name r)) a' []).
  { rewrite Ha. apply (fate_after ver svc a _ a a' [] [] (wstr (r_name r))).
    - apply waits_all; [|reflexivity]. rewrite <- (app_nil_r (wstr (r_name r))). rewrite serve1_name by assumption. rewrite (proj2 (lookup_registered _ _ _) Hreg). reflexivity.
    - now apply (serve_unversioned ver svc a (r_name r) f a' v). }
  destruct (fate_run ver svc (r_client r) w1 _ _ _ Hs1 (proj1 Hi1) F) as (w3 & E3 & A3 & L3 & F3 & S3 & O3).
  exists (left_ spent (r_client r) w3). split; [exact Eb|]. split; [|exact A3]. unfold late. rewrite E. cbn [obind]. unfold is_good. rewrite Hs1. cbn [ready good negb]. cbv zeta.
  rewrite firstn_app, Nat.sub_diag, firstn_all. cbn [firstn]. rewrite app_nil_r.
  destruct (send ver svc (r_client r) (wstr (r_name r)) w1) as [w2| | |]; cbn [obind] in *; try discriminate. rewrite E3. cbn [obind]. rewrite (send_lost ver svc _ _ _ _ S3 eq_refl). cbn [obind]. now apply reply_nothing.
Qed.

(** A counter with "next" () -> int32, and "add" of Rpc_Props. *)
Definition t_svc : service Z := (str "next", {| f_args := []; f_ret := TNum 4 true; f_body := fun a _ => ((a + 1) mod 2 ^ 16, Ret (VN ((a + 1) mod 2 ^ 16))) |}) :: ex_svc.
Definition t_next c v := {| r_client := c; r_ver := v; r_name := str "next"; r_args := []; r_ret := TNum 4 true; r_vals := [] |}.
Lemma t_returns : forall name f, registered t_svc name f -> returns f.
Proof.
  intros name f (pre & post & E & Hn). destruct pre as [|x pre].
  - injection E as <- <- _. intros a vs _. eexists _, _. split; [reflexivity|]. split; [lia|]. eexists. split; [reflexivity|]. unfold in_range. cbn [negb].
    pose proof (Z.mod_pos_bound (a + 1) (2 ^ 16) eq_refl). change (2 ^ (8 * Z.of_nat 4 - 1)) with (2 ^ 31). lia.
  - injection E as _ E. apply (proj1 C57_calls_nonvacuous name f). exists pre, post. split; [exact E|]. intros I. apply Hn. now right.
Qed.
Lemma t_proper r : forallb (fun c => negb (Cast_Model.isspace c)) (r_name r) = true -> forallb (fun c => (0 <=? c) && (c <? 256)) (r_name r) = true ->
  (length (r_name r) < 100)%nat -> ~ In (r_name r) reserved -> -100 < r_ver r < 100 -> Forall2 has_type (r_args r) (r_vals r) ->
  match lookup t_svc (r_name r) with Some f => f_args f = r_args r /\ f_ret f = r_ret r | None => True end -> proper t_svc r.
Proof.
  intros H1 H2 H3 H4 H5 H6 H7. split; [now apply bytes_b|]. split; [lia|]. split; [exact H4|]. split; [unfold int32; lia|]. split; [exact H6|]. split.
  - intros f Hf%lookup_registered. now rewrite Hf in H7.
  - intros _. now apply noblank_b.
Qed.
Definition t_acts : list act := [Call (ex_add 0 (-3) 5); Quiet 0; Call (ex_add 0 (-3) 1); Late 3 (ex_add 1 (-3) 7); Late 14 (ex_add 1 (-3) 7); Call (ex_add 1 (-3) 1); Late 9 (t_next 1 5);
  Late 99 (t_next 0 (-3)); Quiet 1; Call (t_next 1 5)].
Example C123_histories_nonvacuous : Forall (fine 2 t_svc) t_acts /\
  omap fst (acts (-3) t_svc t_acts (start 0 2)) = Ok [Value (VN 5); Value (VN 6); Error []; Error []; Value (VN 7); Error []; Value (VN 9); Mismatch (-3) 5].
Proof.
  assert (N : forall c v, -100 < v < 100 -> proper t_svc (t_next c v)).
  { intros c v Hv. apply t_proper; [reflexivity|reflexivity|cbn; lia|cbn; intros [Q|[Q|[]]]; discriminate|exact Hv|constructor|]. split; reflexivity. }
  assert (D : forall c v z, -100 < v < 100 -> -100 < z < 100 -> proper t_svc (ex_add c v z)).
  { intros c v z Hv Hz. apply t_proper; [reflexivity|reflexivity|cbn; lia|cbn; intros [Q|[Q|[]]]; discriminate|exact Hv| |split; reflexivity].
    constructor; [|constructor]. split; [lia|]. exists z. split; [reflexivity|]. cbn. lia. }
  split; [|vm_compute; reflexivity]. repeat apply Forall_cons; try apply Forall_nil; cbn [fine];
    first [lia|split; [cbn; lia|first [apply N; lia|apply D; lia]]|split; [cbn; lia|split; [first [apply N; lia|apply D; lia]|repeat constructor]]].
Qed.
Example C123_arrived_nonvacuous : fine 2 t_svc (Late 99 (t_next 0 (-3))) /\ (length (wstr (str "next") ++ wint (-3) ++ write_args [] []) <= 99)%nat.
Proof.
  split; [|cbn; lia]. split; [cbn; lia|]. split; [|constructor]. apply t_proper; [reflexivity|reflexivity|cbn; lia|cbn; intros [Q|[Q|[]]]; discriminate|cbn; lia|constructor|]. split; reflexivity.
Qed.
(** The wrong version, and nothing said about it: the counter has moved on. *)
Example C123_run_nonvacuous : omap (fun x => (fst x, astate (snd x))) (late (-3) t_svc 8 (t_next 0 5) (start 41 1)) = Ok (Error [], 42).
Proof. vm_compute. reflexivity. Qed.

Print Assumptions C123_histories_partial.
Print Assumptions C123_arrived.
Print Assumptions C123_run_refuted.
