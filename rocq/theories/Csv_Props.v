(** C21, C22: CSV. *)
From Verif Require Import Common CommonLemmas Csv_Model Csv_Spec Csv_Proof.
Local Open Scope Z_scope.

(** C21.  Every table, written with any choice of quoting and line breaks, is read back; the
    guard is that no field ends exactly at the end of the doubling buffer. *)
Theorem C21_round_trip : forall rs s, table rs s -> Forall roomy rs -> Forall (Forall (fun f => ~ In 0 f)) rs ->
  parse_csv s = Ok rs.
Proof. exact parse_ok. Qed.
(** The guard holds for every row that needs at most 1024 bytes. *)
Theorem C21_small_rows : forall r, Z.of_nat (length (concat r)) + Z.of_nat (length r) <= 1024 -> roomy r.
Proof. exact small_roomy. Qed.
Example C21_nonvacuous : table [[str "a,b"; []]; [str "q""q"; str "z"]] (str """a,b""," ++ [13; 10] ++ str """q""""q"",z").
Proof.
  apply (tb_cons [str "a,b"; []] (str """a,b"",") [13; 10] _ (str """q""""q"",z")).
  - apply (ln_cons (str "a,b") (str """a,b""") [[]] []); [exact (ft_quoted (str "a,b"))|]. constructor. constructor. constructor.
  - constructor.
  - apply (tb_last [str "q""q"; str "z"] (str """q""""q"",") 122); [|unfold special; lia].
    apply (ln_cons (str "q""q") (str """q""""q""") [str "z"] (str "z")); [exact (ft_quoted (str "q""q"))|].
    constructor. constructor. constructor; [unfold special; vm_compute; intuition discriminate|constructor].
Qed.
Example C21_case : parse_csv (str """a,b""," ++ [13; 10] ++ str """q""""q"",z") = Ok [[str "a,b"; []]; [str "q""q"; str "z"]].
Proof. vm_compute. reflexivity. Qed.

(** C22.  False: an unfinished quoted field and a comma, quote or carriage return at the end of the
    input make the parser read there, and a field of 1024 bytes is terminated outside the buffer. *)
Theorem C22_reads_past_end_refuted : parse_csv (str """ab") = UB /\ parse_csv (str "a,") = UB /\ parse_csv (str """ab""") = UB /\
  parse_csv (str "a" ++ [13]) = UB.
Proof. repeat split; vm_compute; reflexivity. Qed.
Theorem C22_writes_past_buffer_refuted : parse_csv (repeat 97 1024 ++ [10]) = UB /\
  parse_csv (repeat 97 1023 ++ [10]) = Ok [[repeat 97 1023]] /\ parse_csv (repeat 97 1025 ++ [10]) = Ok [[repeat 97 1025]].
Proof. repeat split; vm_compute; reflexivity. Qed.
(** No undefined behaviour on files in the CSV format within the guard. *)
Theorem C22_safe_on_csv_partial : forall rs s, table rs s -> Forall roomy rs -> Forall (Forall (fun f => ~ In 0 f)) rs ->
  parse_csv s <> UB.
Proof. intros rs s H1 H2 H3. now rewrite (parse_ok rs s H1 H2 H3). Qed.
(** Nor on any text without quotes that ends in a line break and has lines shorter than 1024 bytes. *)
Theorem C22_safe_without_quotes_partial : forall s, ~ In 34 s -> (s = [] \/ exists a, s = a ++ [10]) ->
  (forall a l b, s = a ++ l ++ b -> ~ In 10 l -> Z.of_nat (length l) < 1024) -> exists t, parse_csv s = Ok t.
Proof. exact parse_plain_safe. Qed.
(** On every input the parser comes to an end without throwing (or has undefined behaviour). *)
Theorem C22_terminates : forall s, parse_csv s <> Fuel /\ parse_csv s <> Throw.
Proof. exact parse_terminates. Qed.
Example C22_nonvacuous : table [[str "x"]] (str "x" ++ [10]) /\ roomy [str "x"].
Proof.
  split; [apply (tb_cons [str "x"] (str "x") [10] [] []); constructor; constructor; constructor; [unfold special; vm_compute; intuition discriminate|constructor]|].
  apply small_roomy. vm_compute. discriminate.
Qed.
Example C22_case : parse_csv (str "a" ++ [13] ++ str "bc,d" ++ [10]) = Ok [[str "a"; str "c"; str "d"]].
Proof. vm_compute. reflexivity. Qed.
Print Assumptions C21_round_trip.
Print Assumptions C21_small_rows.
Print Assumptions C22_reads_past_end_refuted.
Print Assumptions C22_writes_past_buffer_refuted.
Print Assumptions C22_safe_on_csv_partial.
Print Assumptions C22_safe_without_quotes_partial.
Print Assumptions C22_terminates.
