(** C35: the LRU cache. *)
From Verif Require Import Common Lru_Model Lru_Spec Lru_Proof.
Local Open Scope Z_scope.

(** For every positive capacity and every history (shorter than the 64-bit counter
    can number), no call fails and every result is that of the reference cache,
    whose contents never exceed the capacity. *)
Theorem C35_lru_refines : forall (K V : Type) (keq : forall a b : K, {a = b} + {a <> b}) (klt : K -> K -> bool) (vdef : V)
    (cap : Z) (ops : list (lop K V)), 0 < cap -> Z.of_nat (length ops) < 2 ^ 64 ->
  exists s, lrun K V keq klt vdef ops (lru_new cap) = Ok (fst (ref_run K V keq vdef cap ops []), s) /\
    Z.of_nat (length (snd (ref_run K V keq vdef cap ops []))) <= cap /\
    NoDup (map fst (snd (ref_run K V keq vdef cap ops []))) /\
    length (cache s) = length (snd (ref_run K V keq vdef cap ops [])).
Proof. exact lru_refines. Qed.

Example C35_case :
  let ops := [Set_ 1 10; Set_ 2 20; Get 1; Set_ 3 30; Has 2; Get 2; Set_ 1 99; Get 1; Index 4; Has 3; Remove 1; Remove 7; Assign 5 50; Get 5; ClearAll; Has 5] in
  fst (ref_run Z Z Z.eq_dec 0 2 ops []) =
  [RUnit; RUnit; RVal 10; RUnit; RBool false; RThrow; RUnit; RVal 10; RVal 0; RBool false; RUnit; RUnit; RUnit; RVal 50; RUnit; RBool false] /\
  (exists s, lrun Z Z Z.eq_dec Z.ltb 0 ops (lru_new 2) = Ok (fst (ref_run Z Z Z.eq_dec 0 2 ops []), s)).
Proof. split; [vm_compute; reflexivity|eexists; vm_compute; reflexivity]. Qed.
(** A capacity of zero is outside the domain: the first insertion is undefined. *)
Example C35_outside : set Z Z Z.eq_dec Z.ltb (lru_new 0) 1 10 = UB.
Proof. vm_compute. reflexivity. Qed.

Print Assumptions C35_lru_refines.
