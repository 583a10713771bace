(** Property C41: sparse matrices come back as they were written; transposing twice gives the original. *)
From Verif Require Import Common CommonLemmas Code_Model Sparse_Spec Sparse_Model Sparse_Proof.
Local Open Scope Z_scope.

(** Missing for the full claim: the column INT_MAX and matrices whose bytes cannot be counted in an int, see below. *)
Theorem C41_rows_roundtrip_partial : forall m, Forall row_ok m -> fits m ->
  exists f r, write m = Ok f /\ open_r f = Ok r /\ row_num r = Z.of_nat (length m) /\
    (forall i l, 0 <= i -> nth_error m (Z.to_nat i) = Some l ->
       get_row r i = Ok (Some l) /\ get_row_size r i = Ok (Z.of_nat (length l)) /\ (ascending l -> get_row_map r i [] = Ok l)) /\
    (forall i, Z.of_nat (length m) <= i -> get_row r i = Ok None).
Proof.
  intros m H [H1 H2]. exists (files_of m), (reader_of m). split; [now apply write_ok|]. split; [apply open_ok; split; assumption|]. split; [apply row_num_ok|]. split.
  - intros i l Hi Hl. assert (E := get_row_ok m i l H Hi Hl). split; [exact E|]. split; [now apply num_ok|]. intros Ha. unfold get_row_map. rewrite E. cbn [obind]. now rewrite (into_map_end l []).
  - intros i Hi. now apply get_row_past.
Qed.
Example C41_rows_nonvacuous :
  let m := [[(0, 1); (3, 255); (70000, 0)]; []; [(5, 5); (2, 6); (2, 7)]; [(2147483646, 9)]] in
  Forall row_ok m /\ fits m /\
  match write m with
  | Ok f => match open_r f with Ok r => get_row r 2 = Ok (Some [(5, 5); (2, 6); (2, 7)]) /\ get_row r 3 = Ok (Some [(2147483646, 9)]) | _ => False end
  | _ => False
  end.
Proof.
  cbn zeta. split; [repeat constructor; cbn [fst snd]; lia|]. split; [split; cbn; lia|]. vm_compute. split; reflexivity.
Qed.

(** Whatever the free memory, the transposed matrix has the same entries with rows and columns exchanged; it has as many rows as there were
    columns in use, and can be read back and transposed again. *)
Theorem C41_transpose_partial : forall m free, matrix m -> fits m ->
  exists f t ft, write m = Ok f /\ transpose (Some free) f = Ok (Some ft) /\ write t = Ok ft /\ matrix t /\ fits t /\ last t [(0, 0)] <> [] /\
    (forall r c v, entry t c r v <-> entry m r c v).
Proof.
  intros m free Hm Hf. destruct (transpose_ok m free Hm Hf) as [t [E [Ht [Hft [Hl He]]]]]. exists (files_of m), t, (files_of t).
  split; [apply write_ok; [apply matrix_split, Hm|apply Hf]|]. split; [exact E|]. split; [apply write_ok; [apply matrix_split, Ht|apply Hft]|]. auto.
Qed.
Example C41_transpose_nonvacuous :
  let m := [[(0, 1); (3, 255)]; []; [(1, 5); (3, 6)]] in
  match write m, write [[(0, 1)]; [(2, 5)]; []; [(0, 255); (2, 6)]] with
  | Ok f, Ok ft => transpose (Some 40) f = Ok (Some ft) /\ transpose (Some 0) f = Ok (Some ft) /\ transpose (Some 1000000) f = Ok (Some ft)
  | _, _ => False
  end.
Proof. vm_compute. repeat split. Qed.

(** Transposing twice: the original entries; only empty rows at the end are dropped. *)
Theorem C41_transpose_twice_partial : forall m free1 free2, matrix m -> fits m ->
  exists f f1 f2 m2 k, write m = Ok f /\ transpose (Some free1) f = Ok (Some f1) /\ transpose (Some free2) f1 = Ok (Some f2) /\ write m2 = Ok f2 /\
    m = m2 ++ repeat [] k /\ (forall r c v, entry m2 r c v <-> entry m r c v).
Proof.
  intros m a b Hm Hf. destruct (transpose_ok m a Hm Hf) as [t [E [Ht [Hft [_ He]]]]]. destruct (transpose_ok t b Ht Hft) as [m2 [E2 [Hm2 [Hf2 [Hl2 He2]]]]].
  assert (HE : forall r c v, entry m2 r c v <-> entry m r c v) by (intros r c v; rewrite He2; apply He).
  exists (files_of m), (files_of t), (files_of m2), m2, (length m - length m2)%nat. split; [apply write_ok; [apply matrix_split, Hm|apply Hf]|]. split; [exact E|]. split; [exact E2|].
  split; [apply write_ok; [apply matrix_split, Hm2|apply Hf2]|]. split; [|exact HE]. now apply trimmed_ext.
Qed.
Example C41_transpose_twice_nonvacuous :
  match write [[(0, 1); (3, 255)]; []; [(1, 5)]; []], write [[(0, 1); (3, 255)]; []; [(1, 5)]] with
  | Ok f, Ok f2 => match transpose (Some 0) f with Ok (Some f1) => transpose (Some 100) f1 = Ok (Some f2) | _ => False end
  | _, _ => False
  end.
Proof. vm_compute. reflexivity. Qed.

(** False of the code: the first column's distance from -1 overflows for INT_MAX. *)
Theorem C41_last_column_refuted : forall v l m, write (((2 ^ 31 - 1, v) :: l) :: m) = UB.
Proof. reflexivity. Qed.
Example C41_last_column_nonvacuous : write [[(2 ^ 31 - 1, 1)]] = UB.
Proof. reflexivity. Qed.
(** False of the code: offsets are ints.  Matrices of more than 2^31 bytes cannot even be written. *)
Theorem C41_large_refuted : forall n, 2 ^ 30 < Z.of_nat n -> Forall (fun r => row_ok r /\ ascending r) (repeat [(0, 7)] n) /\ write (repeat [(0, 7)] n) = UB.
Proof.
  intros n H. split.
  - apply Forall_forall. intros r Hr. apply repeat_spec in Hr. subst r. split; [|repeat constructor]. constructor; [cbn; lia|constructor].
  - destruct n as [|n]; [lia|]. unfold write. cbn [repeat append_rows]. change (append_row [(0, 7)] open_w) with (Ok (mkW [129; 7] [(1, 2)] (Some 0))). cbn [obind]. rewrite too_large by lia. reflexivity.
Qed.
Example C41_large_nonvacuous : 2 ^ 30 < Z.of_nat (Z.to_nat (2 ^ 30 + 1)).
Proof. rewrite Z2Nat.id by lia. lia. Qed.
(** Without system statistics there is no transposing. *)
Theorem C41_no_statistics : forall m, matrix m -> fits m -> exists f, write m = Ok f /\ transpose None f = Ok None.
Proof.
  intros m Hm Hf. exists (files_of m). destruct (matrix_split m Hm) as [Hr _]. split; [apply write_ok; [exact Hr|apply Hf]|]. unfold transpose. rewrite open_ok by exact Hf. cbn [obind].
  rewrite row_num_ok, Nat2Z.id. rewrite (get_rows_ok m (length m) 0) by (assumption || lia). cbn [obind skipn Z.to_nat].
  destruct (count_rows_ok m [] []) as [t [-> _]]; [| |destruct Hf; unfold entries in *; cbn [length]; lia|reflexivity].
  - eapply Forall_impl; [|exact Hr]. intros l Hl. eapply Forall_impl; [|exact Hl]. cbn. intros; lia.
  - split; [constructor|reflexivity|intros c []|congruence].
Qed.
Example C41_no_statistics_nonvacuous : match write [[(1, 1)]] with Ok f => transpose None f = Ok None | _ => False end.
Proof. vm_compute. reflexivity. Qed.

Print Assumptions C41_rows_roundtrip_partial.
Print Assumptions C41_transpose_partial.
Print Assumptions C41_transpose_twice_partial.
Print Assumptions C41_last_column_refuted.
Print Assumptions C41_large_refuted.
Print Assumptions C41_no_statistics.
