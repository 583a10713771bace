(** JSON archives: the properties. *)
From Verif Require Import Common CommonLemmas Double_Model Utf8_Spec Json_Model Json_Spec JsonComplete_Proof JsonEq_Proof JsonStream_Proof JsonCast_Model JsonCast_Spec JsonCast_Proof
  JsonArchive_Spec JsonArchive_Model JsonArchive_Proof.
Local Open Scope Z_scope.

(** ** C93 *)
(** Whatever values were put, in either style, getting as many finds each of them in turn, as if it were converted directly: the right
    value, or bad_cast if the type is another one, and then the next one is found all the same; after the last comes end_of_data. *)
Theorem C93_each_partial : forall fbk pr esc vs ts,
  Forall (fun v => keepable (to_json v) /\ Z.of_nat (length (put pr esc v)) < 2 ^ 30 - 8) vs -> length ts = length vs ->
  exists r, gets fbk ts (puts pr esc vs) = (map (fun tv => match from_json (fst tv) (to_json (snd tv)) with Ok v => AValue v | Throw => ABadCast | _ => AWrong end) (combine ts vs), Some r)
    /\ forall t, get fbk t r = (AEnd, None).
Proof. intros fbk pr esc vs ts F L. apply (gets_each fbk pr esc); [ exact F | exact L | left; reflexivity ]. Qed.
(** With the types they were put with, the same values come out. *)
Theorem C93_round_trip_partial : forall fbk pr esc tvs,
  Forall (fun tv => plain (fst tv) /\ typed (fst tv) (snd tv) /\ keepable (to_json (snd tv)) /\ Z.of_nat (length (put pr esc (snd tv))) < 2 ^ 30 - 8) tvs ->
  exists ws r, gets fbk (map fst tvs) (puts pr esc (map snd tvs)) = (map AValue ws, Some r) /\ Forall2 veq (map snd tvs) ws /\ forall t, get fbk t r = (AEnd, None).
Proof.
  intros fbk pr esc tvs F.
  destruct (gets_each fbk pr esc (map snd tvs) (map fst tvs) (puts pr esc (map snd tvs))) as (r & E & En).
  - apply Forall_map. eapply Forall_impl; [ | exact F ]. cbn. tauto.
  - now rewrite !map_length.
  - left. reflexivity.
  - rewrite E. clear E. assert (G : exists ws, map (fun tv => match from_json (fst tv) (to_json (snd tv)) with Ok v => AValue v | Throw => ABadCast | _ => AWrong end) (combine (map fst tvs) (map snd tvs)) = map AValue ws /\ Forall2 veq (map snd tvs) ws).
    { clear En. induction tvs as [ | (t, v) tvs IH ]; [ exists []; split; [ reflexivity | constructor ] | ].
      destruct (IH (Forall_inv_tail F)) as (ws & E & Q). destruct (Forall_inv F) as (P & T & _). cbn [fst snd] in *.
      destruct (cast_round t v (to_json v) P T (same_refl _)) as (w & Ew & Qw). exists (w :: ws). cbn [map combine fst snd]. rewrite Ew, E. split; [ reflexivity | constructor; assumption ]. }
    destruct G as (ws & -> & Q). exists ws, r. auto.
Qed.
(** Floating numbers are written with 12 digits, and strings end at U+0000. *)
Theorem C93_double_refuted : exists v, typed TDouble v /\ forall fbk pr esc w r, gets fbk [TDouble] (puts pr esc [v]) = ([AValue w], r) -> ~ veq v w.
Proof.
  exists (VDbl (mkD false (2 ^ 52 + 1) (-52))). split; [ constructor | ]. intros fbk pr esc w r E K.
  destruct pr, esc; vm_compute in E; injection E as <- _; inversion K.
Qed.
Theorem C93_nul_refuted : exists v, typed TStr v /\ forall fbk pr esc w r, gets fbk [TStr] (puts pr esc [v]) = ([AValue w], r) -> ~ veq v w.
Proof.
  exists (VStr [0]). split; [ constructor | ]. intros fbk pr esc w r E K.
  destruct pr, esc; vm_compute in E; injection E as <- _; inversion K.
Qed.
Example C93_nonvacuous : forall fbk, keepable (to_json (VVec [VInt 1])) /\ puts false true [VInt (-5); VVec [VInt 1]; VBool true] = str "-5" ++ [10] ++ str "[1]" ++ [10] ++ str "true" ++ [10] /\
  gets fbk [TInt; TStr; TBool; TInt] (puts false true [VInt (-5); VVec [VInt 1]; VBool true]) = ([AValue (VInt (-5)); ABadCast; AValue (VBool true); AEnd], None).
Proof. intros fbk. split; [ split; cbn; repeat split; lia | ]. split; reflexivity. Qed.
Example C93_case_pretty : forall fbk, gets fbk [TVec TInt; TInt] (puts true true [VVec [VInt 1; VInt 2]; VInt 3]) = ([AValue (VVec [VInt 1; VInt 2]); AValue (VInt 3)], Some []).
Proof. intros fbk. reflexivity. Qed.

Print Assumptions C93_each_partial.
Print Assumptions C93_round_trip_partial.
Print Assumptions C93_double_refuted.
Print Assumptions C93_nul_refuted.
