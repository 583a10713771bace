(** C109: Timeouts handed to the system *)
From Verif Require Import Common Thread_Spec Thread_Model Thread_Proof Timeout_Spec Timeout_Model Timeout_Proof.
From Coq Require Import QArith Qround.
Local Open Scope Z_scope.

(** A timeout of less than 2^31 seconds is handed to setsockopt as a proper time, which is the wanted one up to a microsecond. *)
Theorem C109_socket_partial rnd q : rounding rnd -> representable q -> (0 <= q)%Q -> (q < inject_Z (2 ^ 31))%Q ->
  exists t, set_timeo rnd (Fin q) = Ok (Some t) /\ set_timeout_sockopt rnd (Fin q) = Ok (Some t) /\
    well_formed 1000000 t /\ stands_for 1000000 t q (1 # 1000000).
Proof.
  intros R Rq H0 H1. destruct (timeval_pos rnd q R Rq H0 H1) as (t & E & W & S). exists t. unfold set_timeo, set_timeout_sockopt.
  destruct (less0 (Fin q)) eqn:L; [apply less0_neg in L; exfalso; apply (Qlt_not_le _ _ L H0)|]. rewrite E. now repeat split; try apply W; try apply S.
Qed.
(** stream_socket and server_socket refuse a negative timeout and leave the socket alone. *)
Theorem C109_refused rnd q : (q < 0)%Q -> set_timeo rnd (Fin q) = Ok None /\ set_timeo rnd (Inf true) = Ok None.
Proof. intros H. apply less0_neg in H. unfold set_timeo. rewrite H. now split. Qed.
(** The socket of mprpc does not: it then waits for ever, or the conversion is undefined. *)
Theorem C109_mprpc_negative_refuted rnd q : rounding rnd -> representable q -> (q < 0)%Q ->
  ((- (2147) <= q)%Q -> exists t, set_timeout_sockopt rnd (Fin q) = Ok (Some t) /\ forever t) /\
  ((q <= - (2148))%Q -> set_timeout_sockopt rnd (Fin q) = UB).
Proof.
  intros R Rq H. unfold set_timeout_sockopt. split; intros L.
  - rewrite (timeval_neg rnd q R Rq L H). now exists (0, 0).
  - now rewrite (timeval_very_neg rnd q R Rq L).
Qed.
(** A timeout that is not zero but below a microsecond is none: calls wait for ever. *)
Theorem C109_tiny_refuted rnd q : rounding rnd -> (0 <= q)%Q -> (q <= 1 / inject_Z (2 ^ 20))%Q ->
  exists t, set_timeo rnd (Fin q) = Ok (Some t) /\ set_timeout_sockopt rnd (Fin q) = Ok (Some t) /\ forever t.
Proof.
  intros R H0 H1. exists (0, 0). unfold set_timeo, set_timeout_sockopt. destruct (less0 (Fin q)) eqn:L; [apply less0_neg in L; exfalso; apply (Qlt_not_le _ _ L H0)|].
  rewrite (timeval_tiny rnd q R H0 H1). now repeat split.
Qed.
(** From 2^31 seconds on, and for infinity and NaN, the conversion to int is undefined. *)
Theorem C109_long_refuted rnd :
  (forall q, (inject_Z (2 ^ 31) <= q)%Q -> set_timeo rnd (Fin q) = UB /\ set_timeout_sockopt rnd (Fin q) = UB) /\
  set_timeo rnd (Inf false) = UB /\ set_timeout_sockopt rnd (Inf false) = UB /\ set_timeo rnd NaN = UB /\ set_timeout_sockopt rnd NaN = UB.
Proof.
  split; [|now repeat split]. intros q H. unfold set_timeo, set_timeout_sockopt. rewrite (timeval_long rnd q H).
  destruct (less0 (Fin q)) eqn:L; [|now split]. apply less0_neg in L. exfalso. apply (Qlt_not_le _ _ L). eapply Qle_trans; [|exact H]. discriminate.
Qed.
(** The deadline of a timed wait is the clock plus the wanted time, up to three microseconds, whether that lies ahead or behind
    (up to the year 2106). *)
Theorem C109_deadline_partial rnd s u q : rounding rnd -> 0 <= s <= 2 ^ 32 - 4 -> 0 <= u < 1000000 ->
  (1 <= inject_Z s + q)%Q -> (inject_Z s + q <= inject_Z (2 ^ 32 - 4))%Q ->
  exists t, deadline rnd s u (Fin q) = Ok t /\ well_formed 1000000000 t /\
    stands_for 1000000000 t (inject_Z s + (u # 1000000) + q) (3 # 1000000).
Proof. apply deadline_close. Qed.
(** A wait for very long is undefined. *)
Theorem C109_deadline_refuted rnd s u : rounding rnd -> 0 <= s <= 2 ^ 32 - 4 -> 0 <= u < 1000000 ->
  (forall q, (inject_Z (2 ^ 63) <= q)%Q -> deadline rnd s u (Fin q) = UB) /\
  (forall neg, deadline rnd s u (Inf neg) = UB) /\ deadline rnd s u NaN = UB.
Proof. intros R Hs Hu. split; [|now split]. intros q. now apply deadline_long. Qed.

Lemma exact_rounding : rounding (fun q => q).
Proof. split; [auto|reflexivity]. Qed.
Lemma half_rep : representable (3 # 2).
Proof. exists 3, 1073. now vm_compute. Qed.
Example C109_socket_nonvacuous :
  set_timeo (fun q => q) (Fin (3 # 2)) = Ok (Some (1, 500000)) /\ well_formed 1000000 (1, 500000) /\ stands_for 1000000 (1, 500000) (3 # 2) 0 /\
  (exists t, set_timeo (fun q => q) (Fin (3 # 2)) = Ok (Some t) /\ set_timeout_sockopt (fun q => q) (Fin (3 # 2)) = Ok (Some t) /\
    well_formed 1000000 t /\ stands_for 1000000 t (3 # 2) (1 # 1000000)).
Proof.
  split; [reflexivity|]. split; [unfold well_formed; cbn; lia|]. split; [split; vm_compute; discriminate|].
  apply C109_socket_partial; [apply exact_rounding|apply half_rep|discriminate|reflexivity].
Qed.
Example C109_refused_nonvacuous : set_timeo (fun q => q) (Fin (- 3 # 2)) = Ok None /\ set_timeout_sockopt (fun q => q) (Fin (- 3 # 2)) = Ok (Some (0, 0)) /\
  set_timeout_sockopt (fun q => q) (Fin (- 3000 # 1)) = UB.
Proof. now repeat split. Qed.
Example C109_tiny_nonvacuous : set_timeo (fun q => q) (Fin (1 # 2000000)) = Ok (Some (0, 0)) /\ set_timeo (fun q => q) (Fin (1 # 500000)) = Ok (Some (0, 2)).
Proof. now split. Qed.
Example C109_long_nonvacuous : set_timeo (fun q => q) (Fin (2147483648 # 1)) = UB /\ set_timeo (fun q => q) (Fin (2147483647 # 1)) = Ok (Some (2147483647, 0)).
Proof. now split. Qed.
Example C109_deadline_nonvacuous :
  deadline (fun q => q) 1000000000 999999 (Fin (1 # 2)) = Ok (1000000001, 499999000) /\ deadline (fun q => q) 1000000000 0 (Fin (- 5 # 1)) = Ok (999999995, 0) /\
  deadline (fun q => q) 1000000000 0 (Fin (9223372036854775808 # 1)) = UB.
Proof. now repeat split. Qed.

Print Assumptions C109_socket_partial.
Print Assumptions C109_refused.
Print Assumptions C109_mprpc_negative_refuted.
Print Assumptions C109_tiny_refuted.
Print Assumptions C109_long_refuted.
Print Assumptions C109_deadline_partial.
Print Assumptions C109_deadline_refuted.
