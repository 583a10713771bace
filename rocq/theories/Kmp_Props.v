(** C38: KMP search. *)
From Verif Require Import Common Kmp_Model Kmp_Spec Kmp_Proof.

Local Open Scope Z_scope.

(** For every non-empty query and text of less than 2^31 elements and every offset that is not negative the search neither
    reads outside its arguments nor diverges, and returns the first occurrence at or after the offset, 2^64-1 if there is none.
    Longer ones are missing, see below. *)
Theorem C38_kmp_first_occurrence_partial : forall (A : Type) (aeq : forall a b : A, {a = b} + {a <> b}) (q text : list A) (offset : Z),
  q <> [] -> Z.of_nat (length q) < 2 ^ 31 -> Z.of_nat (length text) < 2 ^ 31 -> 0 <= offset ->
  exists k z, kmp_new_int A aeq q = Ok k /\ find_int A aeq k text offset = Ok z /\ answers q text (Z.to_nat offset) z.
Proof.
  intros A aeq q text offset Hq Lq Lt Ho. destruct (kmp_int_correct A aeq q text offset Hq Lq Ho) as (k & z & E1 & E2 & H).
  exists k, z. split; [exact E1|]. split; [exact E2|]. unfold seen in H. rewrite Z.mod_small in H by lia.
  destruct (Z.ltb_spec (Z.of_nat (length text)) (2 ^ 31)); [|lia]. now rewrite firstn_all2 in H by lia.
Qed.

(** Of a text of any size only as much is searched as a 32-bit signed count of its elements says: of a text of 2^31 to
    2^32-1 elements nothing. *)
Theorem C38_seen_partial : forall (A : Type) (aeq : forall a b : A, {a = b} + {a <> b}) (q text : list A) (offset : Z),
  q <> [] -> Z.of_nat (length q) < 2 ^ 31 -> 0 <= offset ->
  exists k z, kmp_new_int A aeq q = Ok k /\ find_int A aeq k text offset = Ok z /\ answers q (seen text) (Z.to_nat offset) z.
Proof. exact kmp_int_correct. Qed.

(** So a query at the very front of such a text is not found. *)
Theorem C38_long_refuted : forall (A : Type) (aeq : forall a b : A, {a = b} + {a <> b}) (q text : list A),
  q <> [] -> Z.of_nat (length q) < 2 ^ 31 -> 2 ^ 31 <= Z.of_nat (length (q ++ text)) < 2 ^ 32 ->
  occurs q (q ++ text) 0 /\ exists k, kmp_new_int A aeq q = Ok k /\ find_int A aeq k (q ++ text) 0 = Ok (2 ^ 64 - 1).
Proof.
  intros A aeq q text Hq Lq Lt. split; [now exists [], text|].
  destruct (kmp_int_correct A aeq q (q ++ text) 0 Hq Lq (Z.le_refl 0)) as (k & z & E1 & E2 & r & F & Ez). exists k. split; [exact E1|].
  unfold seen in F. rewrite Z.mod_small in F by lia. destruct (Z.ltb_spec (Z.of_nat (length (q ++ text))) (2 ^ 31)); [lia|].
  destruct r as [n|]; [|rewrite E2, Ez; reflexivity]. destruct F as (_ & (a & b & E & _) & _). destruct a; [destruct q; [congruence|discriminate E]|discriminate E].
Qed.

(** A negative offset reads in front of the text. *)
Theorem C38_negative_refuted : forall (A : Type) (aeq : forall a b : A, {a = b} + {a <> b}) k (text : list A) (offset : Z),
  Z.of_nat (length text) < 2 ^ 31 -> offset < 0 -> find_int A aeq k text offset = UB.
Proof. exact negative_offset. Qed.

(** There are such texts. *)
Example C38_long_nonvacuous : exists text : list Z, 2 ^ 31 <= Z.of_nat (length (str "a" ++ text)) < 2 ^ 32.
Proof.
  assert (H : forall n m, 0 <= m -> n = Z.to_nat m -> Z.of_nat (length (str "a" ++ repeat 0 n)) = 1 + m).
  { intros n m Hm E. rewrite app_length, repeat_length, Nat2Z.inj_add, E, Z2Nat.id by exact Hm. reflexivity. }
  assert (K : exists n, n = Z.to_nat (2 ^ 31)) by (now eexists). destruct K as (n & E).
  exists (repeat 0 n). rewrite (H n (2 ^ 31)); [|lia|exact E]. lia.
Qed.
Example C38_case_int : (let* k := kmp_new_int Z Z.eq_dec (str "abab") in find_int Z Z.eq_dec k (str "abaabababb") 4) = Ok 5 /\
  (let* k := kmp_new_int Z Z.eq_dec (str "abab") in find_int Z Z.eq_dec k (str "abaabababb") 6) = Ok (2 ^ 64 - 1) /\
  (let* k := kmp_new_int Z Z.eq_dec (str "abab") in find_int Z Z.eq_dec k (str "abaabababb") (-1)) = UB.
Proof. vm_compute. auto. Qed.
Local Close Scope Z_scope.
Example C38_case : (let* k := kmp_new Z Z.eq_dec (str "abab") in find Z Z.eq_dec k (str "abaabababb") 0) = Ok (Some 3) /\
  (let* k := kmp_new Z Z.eq_dec (str "abab") in find Z Z.eq_dec k (str "abaabababb") 4) = Ok (Some 5) /\
  (let* k := kmp_new Z Z.eq_dec (str "abab") in find Z Z.eq_dec k (str "abaabababb") 6) = Ok None /\
  omap (next Z) (kmp_new Z Z.eq_dec (str "aabaaab")) = Ok [0; 1; 0; 1; 2; 2; 3].
Proof. vm_compute. auto. Qed.
(** An empty query is outside the domain. *)
Example C38_outside : kmp_new Z Z.eq_dec [] = UB.
Proof. reflexivity. Qed.

Print Assumptions C38_kmp_first_occurrence_partial.
Print Assumptions C38_seen_partial.
Print Assumptions C38_long_refuted.
Print Assumptions C38_negative_refuted.
