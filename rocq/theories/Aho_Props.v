(** C37: the Aho-Corasick automaton reports exactly the occurrences. *)
From Verif Require Import Common Aho_Spec Aho_Model Aho_Proof.
Local Open Scope Z_scope.

(** For every dictionary of words without NUL and every text of less than 2^31 bytes: building and searching never leave
    the arrays and end, and the answer holds (k, e) exactly when a non-empty word numbered k ends at e, each pair once.
    Words standing twice in the dictionary go by their first number; the empty word is never reported.
    Missing are longer texts, see C37_long_refuted. *)
Theorem C37_search_partial dict text : Forall nul_free dict -> bytes text -> Z.of_nat (length text) < 2 ^ 31 ->
  exists res, search_int dict text = Ok res /\ NoDup res /\ forall k e, In (k, e) res <-> exists w, w <> [] /\ id_of dict w k /\ occurs text w e.
Proof. apply search_int_ok. Qed.

(** With distinct non-empty words: exactly the occurrences of word number k. *)
Theorem C37_distinct_partial dict text : Forall nul_free dict -> Forall (fun w => w <> []) dict -> NoDup dict -> bytes text ->
  Z.of_nat (length text) < 2 ^ 31 ->
  exists res, search_int dict text = Ok res /\ NoDup res /\ forall k e, In (k, e) res <-> exists w, word_at dict k w /\ occurs text w e.
Proof.
  intros HD HE ND Hb Lt. destruct (search_int_ok dict text HD Hb Lt) as (res & E & N & H). exists res. split; [exact E|]. split; [exact N|]. intros k e. rewrite H. split.
  - intros (w & _ & (Hk & _) & Ho). now exists w.
  - intros (w & Hk & Ho). exists w. split; [|split; [split; [exact Hk|]|exact Ho]].
    + rewrite Forall_forall in HE. apply HE. destruct Hk as [_ Hk]. now apply nth_error_In in Hk.
    + intros k' Hk'. destruct Hk as [K0 K], Hk' as [K0' K']. rewrite NoDup_nth_error in ND.
      assert (Z.to_nat k = Z.to_nat k') by (apply ND; [apply nth_error_Some; congruence|congruence]). lia.
Qed.

(** The places are handed out as [int]: from the 2^31st byte of the text on a word is reported at a negative place. *)
Theorem C37_long_refuted dict text k w e : Forall nul_free dict -> bytes text -> w <> [] -> id_of dict w k -> occurs text w e ->
  2 ^ 31 <= e < 2 ^ 32 -> exists res, search_int dict text = Ok res /\ ~ In (k, e) res /\ In (k, e - 2 ^ 32) res.
Proof. apply search_int_long. Qed.
Example C37_long_nonvacuous : exists text, Forall nul_free [[97]] /\ bytes text /\ id_of [[97]] [97] 0 /\ occurs text [97] (2 ^ 31 + 1).
Proof.
  assert (K : exists n, n = Z.to_nat (2 ^ 31)) by (now eexists). destruct K as (n & E). exists (repeat 0 n ++ [97] ++ []).
  split; [repeat constructor; lia|]. split.
  - apply Forall_app. split; [|repeat constructor; unfold is_byte; lia]. apply Forall_forall. intros c Hc. apply repeat_spec in Hc. subst c. unfold is_byte. lia.
  - split; [split; [split; [lia|reflexivity]|intros k' [H _]; exact H]|]. exists (repeat 0 n), []. split; [reflexivity|].
    rewrite repeat_length, Nat2Z.inj_add, E, Z2Nat.id by lia. reflexivity.
Qed.

(** A NUL in a word is taken for its end: "a\0b" is never found. *)
Theorem C37_nul_matters : exists dict text k e w, bytes text /\ word_at dict k w /\ w <> [] /\ occurs text w e /\
  exists res, search_int dict text = Ok res /\ ~ In (k, e) res.
Proof.
  exists [[97; 0; 98]], [97; 0; 98], 0, 3, [97; 0; 98]. split; [repeat constructor; cbn; lia|]. split; [split; [lia|reflexivity]|]. split; [discriminate|].
  split; [exists [], []; split; reflexivity|]. exists []. split; [vm_compute; reflexivity|intros []].
Qed.

Example C37_nonvacuous : Forall nul_free [str "he"; str "she"; str "hers"; str "his"] /\ bytes (str "ushers") /\
  search_int [str "he"; str "she"; str "hers"; str "his"] (str "ushers") = Ok [(1, 4); (0, 4); (2, 6)].
Proof.
  split.
  - assert (B : forall w, forallb (fun c => (1 <=? c) && (c <? 256)) w = true -> nul_free w).
    { intros w H. apply Forall_forall. intros c Hc. rewrite forallb_forall in H. specialize (H c Hc). lia. }
    apply Forall_forall. intros w [<-|[<-|[<-|[<-|[]]]]]; apply B; reflexivity.
  - split; [|vm_compute; reflexivity]. apply Forall_forall. intros c Hc. vm_compute in Hc. unfold is_byte. lia.
Qed.
(** An inner node whose suffix is a word. *)
Example C37_case_inner : search_int [str "abcd"; str "bc"] (str "abcx") = Ok [(1, 3)].
Proof. vm_compute. reflexivity. Qed.
Example C37_case_overlap : search_int [str "aa"] (str "aaaa") = Ok [(0, 2); (0, 3); (0, 4)].
Proof. vm_compute. reflexivity. Qed.
Example C37_case_duplicate : search_int [str "b"; str "b"; []] (str "ab") = Ok [(0, 2)].
Proof. vm_compute. reflexivity. Qed.

Print Assumptions C37_search_partial.
Print Assumptions C37_distinct_partial.
Print Assumptions C37_long_refuted.
Print Assumptions C37_nul_matters.
