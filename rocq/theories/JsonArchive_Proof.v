(** Proofs about JSON archives. *)
From Verif Require Import Common CommonLemmas Double_Model Utf8_Model Utf8_Spec Utf8_Proof Json_Model Json_Spec JsonParse_Proof
  JsonComplete_Proof JsonPrint_Proof JsonEq_Proof JsonStream_Proof JsonCast_Model JsonCast_Spec JsonCast_Proof JsonArchive_Spec JsonArchive_Model.
Local Open Scope Z_scope.

Definition body (pr esc : bool) (j : json) : list Z := if pr then pretty_at esc 0 j else print esc j.
Lemma put_body pr esc v : put pr esc v = body pr esc (to_json v) ++ [10].
Proof. unfold put, body, pretty. destruct pr; [ apply app_nil_r | reflexivity ]. Qed.
Lemma body_jval pr esc j : keepable j -> jval dec0 (body pr esc j) j.
Proof. intros [ A B ]. unfold body. destruct pr; [ apply pretty_jval | apply print_jval ]; assumption. Qed.
Definition nl (s r : list Z) : Prop := s = r \/ s = 10 :: r.
Lemma read_one fbk pr esc j s r : keepable j -> Z.of_nat (length (body pr esc j)) < 2 ^ 30 - 8 -> nl s (body pr esc j ++ 10 :: r) ->
  exists s', read_json fbk s = JOk (j, s') /\ nl s' r.
Proof.
  intros K B [ -> | -> ]; unfold read_json.
  - destruct (parse_value fbk dec0 ltac:(auto) (Z.of_nat (length (body pr esc j))) (body pr esc j) j [] (start (body pr esc j ++ 10 :: r)) (10 :: r)) as (st & E & HR & _).
    + lia. + apply start_cap. lia. + lia. + now apply body_jval. + constructor. + constructor.
    + cbn. unfold digit. lia.
    + discriminate.
    + rewrite E. exists (inp st). split; [ reflexivity | ]. inversion HR as [ s' k E1 E2 | c e s' k Hc E1 E2 ]; subst; cbn.
      * right. reflexivity.
      * left. destruct (utf8_char_prefix _ _ _ _ _ _ Hc (u1 10 ltac:(lia)) (E2 : e ++ s' = [10] ++ r)) as [ _ F ]. exact F.
  - destruct (parse_value fbk dec0 ltac:(auto) (Z.of_nat (length (body pr esc j))) (body pr esc j) j [10] (start (10 :: body pr esc j ++ 10 :: r)) (10 :: r)) as (st & E & HR & _).
    + lia. + apply start_cap. lia. + lia. + now apply body_jval. + constructor; [ auto | constructor ]. + constructor.
    + cbn. unfold digit. lia.
    + discriminate.
    + rewrite E. exists (inp st). split; [ reflexivity | ]. inversion HR as [ s' k E1 E2 | c e s' k Hc E1 E2 ]; subst; cbn.
      * right. reflexivity.
      * left. destruct (utf8_char_prefix _ _ _ _ _ _ Hc (u1 10 ltac:(lia)) (E2 : e ++ s' = [10] ++ r)) as [ _ F ]. exact F.
Qed.
Lemma read_end fbk s : nl s [] -> read_json fbk s = JEnd.
Proof. intros [ -> | -> ]; reflexivity. Qed.

Theorem gets_each fbk pr esc vs : forall ts s,
  Forall (fun v => keepable (to_json v) /\ Z.of_nat (length (put pr esc v)) < 2 ^ 30 - 8) vs -> length ts = length vs -> nl s (puts pr esc vs) ->
  exists r, gets fbk ts s = (map (fun tv => match from_json (fst tv) (to_json (snd tv)) with Ok v => AValue v | Throw => ABadCast | _ => AWrong end) (combine ts vs), Some r)
    /\ forall t, get fbk t r = (AEnd, None).
Proof.
  induction vs as [ | v vs IH ]; intros [ | t ts ] s F L N; try discriminate L.
  - exists s. split; [ reflexivity | ]. intros t. unfold get. rewrite (read_end fbk s N). reflexivity.
  - destruct (Forall_inv F) as [ K B ]. rewrite put_body, app_length in B. cbn [length] in B.
    unfold puts in N. cbn [map concat] in N. rewrite put_body, <- app_assoc in N.
    destruct (read_one fbk pr esc (to_json v) s (puts pr esc vs) K ltac:(lia) N) as (s' & E & N').
    injection L as L. destruct (IH ts s' (Forall_inv_tail F) L N') as (r & E2 & E3).
    exists r. split; [ | exact E3 ]. cbn [gets combine map fst snd]. unfold get at 1. rewrite E, E2. reflexivity.
Qed.
