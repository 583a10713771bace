(** C11-C13: binary archives. *)
From Verif Require Import Common Archive_Model Archive_Spec Archive_Proof.
Local Open Scope Z_scope.

(** Every value of every supported type, read into a variable with any previous
    contents, from a stream with anything behind it. *)
Theorem C11_archive_roundtrip : forall t v old rest, has_type t v -> read t old (write t v ++ rest, true) = Ok (v, (rest, true)).
Proof. exact archive_roundtrip. Qed.
(** An embedded stream of any contents. *)
Theorem C11_iostream_roundtrip : forall content rest, exists fuel0, forall fuel, (fuel0 <= fuel)%nat ->
  read_ios fuel (write_ios content ++ rest, true) = Ok (content, (rest, true)).
Proof. exact ios_roundtrip. Qed.

(** std::map<std::string, std::pair<std::vector<int16_t>, bool> > *)
Definition ex_ty := TMap TStr (TPair (TSeq (TNum 2 true)) TBool).
Definition ex_val := VL [VP (VS (str "a")) (VP (VL [VN (-2); VN 300]) (VB true)); VP (VS (str "bc")) (VP (VL []) (VB false))].
Example C11_typed : has_type ex_ty ex_val.
Proof.
  exists [(VS (str "a"), VP (VL [VN (-2); VN 300]) (VB true)); (VS (str "bc"), VP (VL []) (VB false))].
  split; [reflexivity|]. split; [unfold small; cbn; lia|]. split.
  - repeat (apply Forall_cons; [split|]); try apply Forall_nil; cbn.
    + exists [97]. split; [reflexivity|]. split; [repeat (apply Forall_cons; [unfold is_byte; lia|]); apply Forall_nil|unfold small; cbn; lia].
    + eexists _, _. split; [reflexivity|]. split; [|eauto]. exists [VN (-2); VN 300]. split; [reflexivity|]. split; [unfold small; cbn; lia|].
      repeat (apply Forall_cons; [split; [lia|eexists; split; [reflexivity|cbn; lia]]|]). apply Forall_nil.
    + exists [98; 99]. split; [reflexivity|]. split; [repeat (apply Forall_cons; [unfold is_byte; lia|]); apply Forall_nil|unfold small; cbn; lia].
    + eexists _, _. split; [reflexivity|]. split; [|eauto]. exists []. split; [reflexivity|]. split; [unfold small; cbn; lia|apply Forall_nil].
  - cbn. repeat constructor.
Qed.
Example C11_case : write ex_ty ex_val =
  [2;0;0;0; 1;0;0;0; 97; 2;0;0;0; 254;255; 44;1; 1; 2;0;0;0; 98;99; 0;0;0;0; 0].
Proof. vm_compute. reflexivity. Qed.

(** A stream that ends inside the encoding is reported: the archive tests false.  Holds
    for every type without sets of bare arithmetic types. *)
Theorem C12_truncation_detected_partial : forall t v old p q, no_arith_set t = true ->
  has_type t v -> write t v = p ++ q -> q <> [] -> exists x, read t old (p, true) = Ok (x, ([], false)).
Proof. intros t v old p q Hn. exact (archive_truncated t Hn v old p q). Qed.
(** For a set of numbers the reader goes on to insert an uninitialised variable. *)
Theorem C12_truncated_set_refuted : exists t v p q, has_type t v /\ write t v = p ++ q /\ q <> [] /\ read t (dflt t) (p, true) = UB.
Proof.
  exists (TSet (TNum 4 true)), (VL [VN 7]), [1; 0; 0; 0; 7; 0], [0; 0].
  split; [|split; [reflexivity|split; [discriminate|reflexivity]]].
  exists [VN 7]. split; [reflexivity|]. split; [unfold small; cbn; lia|]. split; [|repeat constructor].
  apply Forall_cons; [|apply Forall_nil]. split; [lia|]. eexists. split; [reflexivity|cbn; lia].
Qed.
Example C12_case : no_arith_set ex_ty = true /\ read ex_ty (dflt ex_ty) (firstn 20 (write ex_ty ex_val), true) =
  Ok (VL [VP (VS []) (VP (VL []) (VB false)); VP (VS (str "a")) (VP (VL [VN (-2); VN 300]) (VB true))], ([], false)).
Proof. vm_compute. auto. Qed.

(** Reading an embedded stream from an archive that ends before the terminator does not
    terminate: no number of iterations is enough, whatever 0xff-free content came first. *)
Theorem C13_iostream_diverges_refuted : forall content, Forall (fun c => c <> 255) content -> forall fuel, read_ios fuel (content, true) = Fuel.
Proof. exact ios_diverges. Qed.
(** On a complete encoding followed by anything it terminates. *)
Theorem C13_iostream_terminates_partial : forall content rest, exists fuel, read_ios fuel (write_ios content ++ rest, true) <> Fuel.
Proof. intros content rest. destruct (ios_roundtrip content rest) as (f & H). exists f. rewrite H by lia. discriminate. Qed.
Example C13_case : Forall (fun c => c <> 255) (str "abc") /\ write_ios (97 :: 255 :: str "b") = [97; 255; 255; 98; 255; 0].
Proof. split; [repeat (apply Forall_cons; [vm_compute; congruence|]); apply Forall_nil|reflexivity]. Qed.

Print Assumptions C11_archive_roundtrip.
Print Assumptions C11_iostream_roundtrip.
Print Assumptions C12_truncation_detected_partial.
Print Assumptions C12_truncated_set_refuted.
Print Assumptions C13_iostream_diverges_refuted.
Print Assumptions C13_iostream_terminates_partial.
