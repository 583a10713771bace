(** C90: memory and load of the system. *)
From Verif Require Import Common CommonLemmas Cast_Spec Config_Model Double_Spec Double_Model Sysstat_Spec Sysstat_Model Sysstat_Proof.
Local Open Scope Z_scope.

Lemma no_colon (s : list Z) : existsb (Z.eqb 58) s = false -> ~ In 58 s.
Proof. intros H I. rewrite <- not_true_iff_false in H. apply H. apply existsb_exists. now exists 58. Qed.
(** Total memory is found in any meminfo that has the field, or is 0 without; a unit counts as 1000 bytes, though it is 1024 (see below). *)
Theorem C90_total_partial : forall fs t k, meminfo fs t -> value (str "MemTotal") fs k -> k < 2 ^ 64 / 1000 -> get_total_memory t = Ok (1000 * k).
Proof.
  intros fs t k M V B. assert (0 <= k) by (destruct V as [|a f b]; [lia|]; apply (meminfo_nonneg _ _ f M), in_or_app; right; now left).
  change (2 ^ 64 / 1000) with 18446744073709551 in B. unfold get_total_memory. rewrite total_pass, (pass_value _ _ fs _ k).
  - rewrite (proj2 (Z.ltb_lt _ _)) by (change (64 - 1) with 63; lia).
    now rewrite Z.mod_small by lia.
  - apply no_colon. reflexivity.
  - lia.
  - exact (meminfo_lines _ _ M).
  - exact V.
Qed.
(** Free memory is that of MemFree and Cached, if both are less than 2 TiB... *)
Theorem C90_free_partial : forall fs t k c, meminfo fs t -> value (str "MemFree") fs k -> value (str "Cached") fs c -> k < 2 ^ 31 -> c < 2 ^ 31 ->
  get_free_memory t = Ok (1000 * (k + c)).
Proof.
  intros fs t k c M V V' B B'.
  assert (N : forall n fs x, meminfo fs t -> value n fs x -> 0 <= x).
  { intros n fs' x M' V0. destruct V0 as [|a f b]; [lia|]. apply (meminfo_nonneg _ _ f M'), in_or_app. right. now left. }
  pose proof (N _ _ _ M V). pose proof (N _ _ _ M V'). unfold get_free_memory. rewrite free_pass, (pass_value _ _ fs _ k), (pass_value _ _ fs _ c); try assumption;
    try exact (meminfo_lines _ _ M); try (apply no_colon; reflexivity); try lia.
  change (32 - 1) with 31. rewrite (proj2 (Z.ltb_lt _ _) B), (proj2 (Z.ltb_lt _ _) B'). rewrite (Z.mod_small (1000 * k)), (Z.mod_small (1000 * c)), Z.mod_small by lia. f_equal. lia.
Qed.
(** ... otherwise the behaviour is undefined. *)
Theorem C90_free_refuted : forall fs t k c, meminfo fs t -> value (str "MemFree") fs k -> value (str "Cached") fs c -> 2 ^ 31 <= k \/ 2 ^ 31 <= c ->
  get_free_memory t = UB.
Proof.
  intros fs t k c M V V' B. unfold get_free_memory. rewrite free_pass, (pass_value _ _ fs _ k), (pass_value _ _ fs _ c); try assumption;
    try exact (meminfo_lines _ _ M); try (apply no_colon; reflexivity); try lia.
  change (32 - 1) with 31. destruct B as [B|B]; rewrite (proj2 (Z.ltb_ge _ _) B); [reflexivity|]. now destruct (k <? 2 ^ 31).
Qed.
(** The total is never the number of bytes, unless it is 0: it is about 2.3 % less. *)
Theorem C90_bytes_refuted : forall fs t k, meminfo fs t -> value (str "MemTotal") fs k -> 0 < k < 2 ^ 53 ->
  exists v, get_total_memory t = Ok v /\ v < 1024 * k.
Proof.
  intros fs t k M V B. exists (1000 * k). split; [|lia]. apply (C90_total_partial fs); [assumption..|]. apply Z.lt_trans with (2 ^ 53); [lia|reflexivity].
Qed.
(** The load is the double next to the load of the last minute. *)
Theorem C90_load : forall a b t d, loadavg a b t ->
  get_loadavg t = DOk d <-> nearest false (100 * a + b) 100 d /\ no_underflow (100 * a + b) 100 d.
Proof. exact load_ok. Qed.
(** Whatever the files hold, nothing is thrown. *)
Theorem C90_no_throw : forall l m, get_sysstat l m <> Throw /\ get_sysstat l m <> Fuel.
Proof.
  intros l m. unfold get_sysstat, get_total_memory, get_free_memory. rewrite total_pass, free_pass.
  destruct (pass_not_throw (str "MemTotal") 64 (getlines [] m) 0) as [->|[v ->]]; cbn [obind]; [split; discriminate|].
  destruct (pass_not_throw (str "MemFree") 32 (getlines [] m) 0) as [->|[f ->]]; cbn [obind]; [split; discriminate|].
  destruct (pass_not_throw (str "Cached") 32 (getlines [] m) 0) as [->|[c ->]]; cbn [obind]; split; discriminate.
Qed.

Definition sample : list field :=
  [{| fname := str "MemTotal"; fpad := 7; fkib := 16318464 |}; {| fname := str "MemFree"; fpad := 8; fkib := 512 |};
   {| fname := str "SwapCached"; fpad := 9; fkib := 3 |}; {| fname := str "Cached"; fpad := 0; fkib := 4096 |}].
Definition sample_text : list Z := str "MemTotal:        16318464 kB" ++ [10] ++ str "MemFree:         512 kB" ++ [10] ++ str "SwapCached:          3 kB" ++ [10] ++ str "Cached: 4096 kB" ++ [10].
Lemma sample_meminfo : meminfo sample sample_text.
Proof.
  assert (P : forall s, forallb (fun c => negb (Cast_Model.isspace c)) s = true -> plain s).
  { intros s H. apply Forall_forall. intros c I. rewrite forallb_forall in H. specialize (H c I). rewrite Cast_Proof.blank_isspace. now destruct (Cast_Model.isspace c). }
  assert (D : forall s, forallb (fun c => (48 <=? c) && (c <=? 57)) s = true -> Forall digit s).
  { intros s H. apply Forall_forall. intros c I. rewrite forallb_forall in H. specialize (H c I). unfold digit. lia. }
  assert (G : forall f s fs t l, forallb (fun c => negb (Cast_Model.isspace c)) (fname f) = true -> forallb (fun c => (48 <=? c) && (c <=? 57)) s = true -> s <> [] -> hd 48 s <> 48 ->
    decimal s = fkib f -> l = fname f ++ [58] ++ repeat 32 (S (fpad f)) ++ s ++ str " kB" -> meminfo fs t -> meminfo (f :: fs) (l ++ [10] ++ t)).
  { intros f s fs t l Hf Hs Hn Hh Hv -> M. constructor; [now apply P| |exact M]. exists s. split; [|reflexivity]. split; [exact Hn|]. split; [now apply D|]. split; [exact Hv|now right]. }
  unfold sample_text, sample. change (str "Cached: 4096 kB" ++ [10]) with (str "Cached: 4096 kB" ++ [10] ++ []).
  eapply (G _ (str "16318464")); [reflexivity..|discriminate|discriminate|reflexivity|reflexivity|].
  eapply (G _ (str "512")); [reflexivity..|discriminate|discriminate|reflexivity|reflexivity|].
  eapply (G _ (str "3")); [reflexivity..|discriminate|discriminate|reflexivity|reflexivity|].
  eapply (G _ (str "4096")); [reflexivity..|discriminate|discriminate|reflexivity|reflexivity|]. constructor.
Qed.
Example C90_total_nonvacuous : meminfo sample sample_text /\ value (str "MemTotal") sample 16318464 /\ get_total_memory sample_text = Ok 16318464000.
Proof.
  split; [exact sample_meminfo|]. split; [|reflexivity]. apply (v_one _ [] {| fname := str "MemTotal"; fpad := 7; fkib := 16318464 |}); [constructor|reflexivity|].
  repeat constructor; intros [r E]; discriminate E.
Qed.
Example C90_free_nonvacuous : value (str "MemFree") sample 512 /\ value (str "Cached") sample 4096 /\ get_free_memory sample_text = Ok 4608000.
Proof.
  split; [|split; [|reflexivity]].
  - apply (v_one _ [{| fname := str "MemTotal"; fpad := 7; fkib := 16318464 |}] {| fname := str "MemFree"; fpad := 8; fkib := 512 |}); [|reflexivity|];
      repeat constructor; intros [r E]; discriminate E.
  - apply (v_one _ [{| fname := str "MemTotal"; fpad := 7; fkib := 16318464 |}; {| fname := str "MemFree"; fpad := 8; fkib := 512 |}; {| fname := str "SwapCached"; fpad := 9; fkib := 3 |}]
      {| fname := str "Cached"; fpad := 0; fkib := 4096 |}); [|reflexivity|]; repeat constructor; intros [r E]; discriminate E.
Qed.
Example C90_free_case_2TiB : get_free_memory (str "MemFree: 2147483648 kB" ++ [10]) = UB.
Proof. reflexivity. Qed.
Example C90_load_nonvacuous : loadavg 1 50 (str "1.50 0.75 0.60 2/345 6789") /\ get_loadavg (str "1.50 0.75 0.60 2/345 6789") = DOk (mkD false (3 * 2 ^ 51) (-52)).
Proof.
  split; [|reflexivity]. exists (str "1"), 53, 48, (str " 0.75 0.60 2/345 6789"). split; [|repeat split; try (unfold digit; lia); unfold blank; cbn; auto].
  split; [discriminate|]. split; [refine (Forall_cons 49 _ (Forall_nil _)); unfold digit; lia|]. split; [reflexivity|right; discriminate].
Qed.

Print Assumptions C90_total_partial.
Print Assumptions C90_free_partial.
Print Assumptions C90_free_refuted.
Print Assumptions C90_bytes_refuted.
Print Assumptions C90_load.
Print Assumptions C90_no_throw.
