(** C39: edit distance, LCS and LIS; C67: LIS of values above INT_MAX. *)
From Verif Require Import Common Algo_Model Algo_Spec Algo_Proof.

(** For all lists the table algorithm returns the least number of single-element edits. *)
Theorem C39_edit_distance : forall (A : Type) (aeq : forall a b : A, {a = b} + {a <> b}) (a b : list A),
  exists n, edit_distance A aeq a b = Ok n /\ least_edits a b n.
Proof. exact edit_distance_ok. Qed.
(** The length of the longest common subsequence. *)
Theorem C39_lcs : forall (A : Type) (aeq : forall a b : A, {a = b} + {a <> b}) (a b : list A),
  exists n, longest_common_subsequence A aeq a b = Ok n /\ longest_common a b n.
Proof. exact lcs_ok. Qed.
(** The length of the longest strictly increasing subsequence of [int]s. *)
Theorem C39_lis : forall a, Forall int32 a -> exists n, longest_increasing_subsequence a = Ok n /\ longest_increasing a n.
Proof. exact lis_ok. Qed.

Example C39_case : edit_distance Z Z.eq_dec (str "kitten") (str "sitting") = Ok 3 /\
  longest_common_subsequence Z Z.eq_dec (str "abcbdab") (str "bdcaba") = Ok 4 /\
  longest_increasing_subsequence [3; 1; 4; 1; 5; 9; 2; 6; 2147483647]%Z = Ok 5.
Proof. vm_compute. auto. Qed.
Example C39_lis_hyp : Forall int32 [3; 1; 4; 1; 5; 9; 2; 6; 2147483647]%Z.
Proof. unfold int32. repeat (apply Forall_cons; [lia|]). apply Forall_nil. Qed.

(** The template accepts sequences of wider integers, but an element above INT_MAX makes
    the search return end() and the store go past the table: the full claim
    [forall a, exists n, longest_increasing_subsequence a = Ok n /\ longest_increasing a n]
    is false. *)
Theorem C67_lis_wide_refuted : exists a, Forall (fun x => 0 <= x < 2 ^ 63)%Z a /\ longest_increasing_subsequence a = UB.
Proof. exists [2147483648]%Z. split; [repeat (apply Forall_cons; [lia|]); apply Forall_nil|reflexivity]. Qed.

Print Assumptions C39_edit_distance.
Print Assumptions C39_lcs.
Print Assumptions C39_lis.
Print Assumptions C67_lis_wide_refuted.
