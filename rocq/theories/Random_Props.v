(** C45: random helpers stay in range, for any generator. *)
From Coq Require Import Sorted.
From Verif Require Import Common CommonLemmas Random_Spec Random_Model Random_Proof.
Local Open Scope Z_scope.

(** The model's rounding is rounding to the nearest 53-bit number. *)
Theorem C45_rounding x : 0 <= x -> nearest53 x (round53 x).
Proof. intros H. split; [now apply round53_representable|]. intros z Hz. now apply round53_nearest. Qed.
(** next_int(a) for every generator and every a > 0, although the product is rounded. *)
Theorem C45_next_int_below (G : Type) (gen : G -> Z * G) a g : 0 < a < 2 ^ 32 -> 0 <= fst (next_int gen a g) < a.
Proof. apply next_int_range. Qed.
Theorem C45_next_int_between (G : Type) (gen : G -> Z * G) a b g : 0 <= a < b -> b < 2 ^ 32 -> a <= fst (next_int2 gen a b g) < b.
Proof.
  intros Ha Hb. unfold next_int2. assert (E : u32 (b - a) = b - a) by (apply Z.mod_small; lia). rewrite E.
  pose proof (next_int_range gen (b - a) g ltac:(lia)) as H. destruct (next_int gen (b - a) g) as [v g']. cbn [fst] in *. unfold below in H.
  unfold u32. rewrite Z.mod_small by lia. lia.
Qed.
(** next_int(a) is the next double times a, rounded to the nearest double and then down; no number below a is left out. *)
Theorem C45_next_int_scales (G : Type) (gen : G -> Z * G) a g : 0 < a < 2 ^ 32 ->
  exists p, nearest53 (fst (next_double gen g) * a) p /\ fst (next_int gen a g) = p / 2 ^ 53 /\ snd (next_int gen a g) = snd (next_double gen g).
Proof.
  intros Ha. pose proof (next_double_below gen g) as H. pose proof (next_int_range gen a g Ha) as R. unfold next_int in *. destruct (next_double gen g) as [k g']. cbn [fst snd] in *.
  exists (round53 (k * a)). split; [apply C45_rounding; nia|]. split; [|reflexivity].
  pose proof (product_below k a H Ha) as P. unfold u32. apply Z.mod_small. split; [apply Z.div_pos; lia|].
  apply Z.div_lt_upper_bound; [lia|]. nia.
Qed.
Theorem C45_next_int_reaches a v : 0 <= v < a -> a < 2 ^ 32 ->
  exists x y, uint32 x /\ uint32 y /\ forall (G : Type) (gen : G -> Z * G) g g1 g2, gen g = (x, g1) -> gen g1 = (y, g2) -> next_int gen a g = (v, g2).
Proof.
  intros Hv Ha. set (k := (v * 2 ^ 53 + a - 1) / a).
  assert (K : v * 2 ^ 53 <= k * a < v * 2 ^ 53 + a).
  { unfold k. pose proof (Z.div_mod (v * 2 ^ 53 + a - 1) a ltac:(lia)) as D. pose proof (Z.mod_pos_bound (v * 2 ^ 53 + a - 1) a ltac:(lia)) as M.
    set (q := (v * 2 ^ 53 + a - 1) / a) in *. set (m := (v * 2 ^ 53 + a - 1) mod a) in *. clearbody q m. nia. }
  clearbody k. assert (Hk : 0 <= k < 2 ^ 53) by nia.
  exists ((k / 2 ^ 26) * 2 ^ 5), ((k mod 2 ^ 26) * 2 ^ 6).
  pose proof (Z.div_mod k (2 ^ 26) ltac:(lia)) as D. pose proof (Z.mod_pos_bound k (2 ^ 26) ltac:(lia)) as M.
  set (q := k / 2 ^ 26) in *. set (m := k mod 2 ^ 26) in *. clearbody q m. assert (Q : 0 <= q < 2 ^ 27) by lia.
  split; [unfold uint32; lia|]. split; [unfold uint32; lia|]. intros G gen g g1 g2 E1 E2.
  unfold next_int, next_double, gnext. rewrite E1, E2. unfold u32. rewrite !Z.shiftr_div_pow2 by lia. rewrite !(Z.mod_small (_ * _)) by lia. rewrite !Z.div_mul by lia.
  replace (q * 67108864 + m) with k by lia. f_equal.
  destruct (C45_rounding (k * a) ltac:(nia)) as [_ N]. set (p := round53 (k * a)) in *. clearbody p.
  assert (S1 : significand53 (v * 2 ^ 53)) by (exists v, 53; lia).
  assert (S2 : significand53 (v * 2 ^ 53 + 2 ^ 52)) by (exists (2 * v + 1), 52; split; [lia|split; [lia|]]; change (2 ^ 53) with (2 * 2 ^ 52); ring).
  pose proof (N _ S1) as N1. pose proof (N _ S2) as N2.
  assert (B : v * 2 ^ 53 <= p <= v * 2 ^ 53 + 2 ^ 52) by lia.
  replace (p / 2 ^ 53) with v; [apply Z.mod_small; lia|]. apply (Z.div_unique p (2 ^ 53) v (p - v * 2 ^ 53)); lia.
Qed.
Example C45_next_int_reaches_nonvacuous : next_int (fun g : list Z => (hd 0 g, tl g)) 7 [3067833792; 3067833856; 5] = (5, [5]).
Proof. vm_compute. reflexivity. Qed.
(** next_double() is k / 2^53 for a k below 2^53: in [0,1). *)
Theorem C45_next_double_below (G : Type) (gen : G -> Z * G) g : 0 <= fst (next_double gen g) < 2 ^ 53.
Proof. apply next_double_below. Qed.

(** Sampling from any source of numbers below its argument.  The arguments are ints; the old contents of the vector do not matter. *)
Theorem C45_with_replacement (G : Type) (r : Z -> G -> Z * G) n k res g : in_range r -> n < 2 ^ 31 ->
  (0 < n -> 0 <= k -> exists v g', sample_with_replacement r n k res g = Ok (true, v, g') /\ Z.of_nat (length v) = k /\ Forall (below n) v) /\
  (n <= 0 \/ k < 0 -> sample_with_replacement r n k res g = Ok (false, res, g)).
Proof.
  intros Hr Hn. unfold sample_with_replacement. split.
  - intros Hn0 Hk. replace ((n <=? 0) || (k <? 0)) with false by lia.
    destruct (fill_ok r Hr n (Z.to_nat k) ltac:(lia) 0 (resize res (Z.to_nat k)) g) as (v & g' & -> & L & F); [lia|rewrite resize_length; lia|intros j Hj; lia|].
    rewrite resize_length in *. cbn [obind fst snd]. exists v, g'. split; [reflexivity|]. split; [lia|]. apply Forall_forall. intros x Hx.
    apply In_nth_error in Hx as (j & Hj). assert (j < length v)%nat by (apply nth_error_Some; congruence). destruct (F j ltac:(lia)) as (y & Ey & By). congruence.
  - intros H. replace ((n <=? 0) || (k <? 0)) with true by lia. reflexivity.
Qed.
Theorem C45_without_replacement (G : Type) (r : Z -> G -> Z * G) n k res g : in_range r -> n < 2 ^ 31 ->
  (0 < n -> 0 <= k <= n -> exists v g', sample_without_replacement r n k res g = Ok (true, v, g') /\
                                        Z.of_nat (length v) = k /\ Forall (below n) v /\ NoDup v) /\
  (n <= 0 \/ k < 0 \/ n < k -> sample_without_replacement r n k res g = Ok (false, res, g)).
Proof.
  intros Hr Hn. unfold sample_without_replacement. split.
  - intros Hn0 Hk. replace ((n <=? 0) || (k <? 0) || (n <? k)) with false by lia.
    pose proof (identity_perm n k (Z.to_nat k) 0 [] ltac:(lia) ltac:(lia) ltac:(lia)) as P. specialize (P ltac:(constructor) ltac:(discriminate)).
    specialize (P ltac:(unfold below; lia)).
    destruct (shuffle_perm r Hr n k (Z.to_nat k) ltac:(lia) 0 _ g _ ltac:(lia) ltac:(lia) ltac:(lia) P) as (m & g' & h & -> & Q).
    destruct Q as [Q1 Q2 Q3 Q4 Q5 Q6 Q7].
    destruct (collect_ok n k h m ltac:(lia) (resize res (Z.to_nat k))) as (v & -> & L & F).
    + rewrite resize_length. lia.
    + intros p x Hp Hx. apply sorted_lookup in Hp; [|exact Q1]. pose proof (Q2 p x Hp) as Bp. rewrite <- (Q6 p Bp). unfold view. now rewrite Hp.
    + intros x Hx. left. assert (Bx : below n x) by (unfold below in *; lia). apply lookup_in. pose proof (Q7 x Bx) as V. unfold view in V.
      destruct (lookup m (h x)) as [w|] eqn:E; [now rewrite V|]. exfalso. rewrite V in E. exact (Q3 x Hx E).
    + cbn [obind]. rewrite resize_length in L. exists v, g'. split; [reflexivity|]. split; [lia|].
      assert (N : forall j, (j < length v)%nat -> nth_error v j = Some (h (Z.of_nat j))).
      { intros j Hj. rewrite <- (F (Z.of_nat j)) by (unfold below; lia). now rewrite Nat2Z.id. }
      split.
      * apply Forall_forall. intros x Hx. apply In_nth_error in Hx as (j & Hj). assert (Lj : (j < length v)%nat) by (apply nth_error_Some; congruence).
        rewrite N in Hj by exact Lj. injection Hj as <-. apply Q5. unfold below. lia.
      * apply NoDup_nth_error. intros i j Hi Eij. rewrite (N i Hi) in Eij.
        assert (Lj : (j < length v)%nat) by (apply nth_error_Some; congruence). rewrite (N j Lj) in Eij. injection Eij as Eij.
        assert (Z.of_nat i = Z.of_nat j); [|lia]. rewrite <- (Q7 (Z.of_nat i)), <- (Q7 (Z.of_nat j)) by (unfold below; lia). now rewrite Eij.
  - intros H. replace ((n <=? 0) || (k <? 0) || (n <? k)) with true by lia. reflexivity.
Qed.
(** In particular with next_int over any generator, as mtrand has it. *)
Theorem C45_without_replacement_any_generator (G : Type) (gen : G -> Z * G) n k res g : 0 < n < 2 ^ 31 -> 0 <= k <= n ->
  exists v g', sample_without_replacement (next_int gen) n k res g = Ok (true, v, g') /\ Z.of_nat (length v) = k /\ Forall (below n) v /\ NoDup v.
Proof. intros Hn Hk. apply (C45_without_replacement G (next_int gen) n k res g (next_int_range gen)); lia. Qed.

(** the largest output of every call, and a counter *)
Example C45_range_nonvacuous :
  List.map (fun a => fst (next_int (fun g : unit => (4294967295, g)) a tt)) [1; 2; 3; 4294967295] = [0; 1; 2; 4294967294] /\
  fst (next_int2 (fun g : unit => (4294967295, g)) 10 20 tt) = 19 /\ fst (next_int (fun g : unit => (0, g)) 7 tt) = 0.
Proof. vm_compute. repeat split; reflexivity. Qed.
Example C45_rounding_nonvacuous : round53 (2 ^ 53 + 1) = 2 ^ 53 /\ round53 (2 ^ 53 + 3) = 2 ^ 53 + 4 /\ round53 (2 ^ 60 - 1) = 2 ^ 60 /\ round53 12345 = 12345.
Proof. vm_compute. repeat split; reflexivity. Qed.
Example C45_sampling_nonvacuous :
  match sample_without_replacement (next_int (fun g : Z => (g * 1812433253, g * 5 + 12345))) 10 6 [7; 7] 99 with
  | Ok (true, v, _) => v = [5; 4; 7; 1; 3; 2]
  | _ => False
  end /\
  sample_without_replacement (next_int (fun g : unit => (0, g))) 3 4 [7; 7] tt = Ok (false, [7; 7], tt).
Proof. vm_compute. split; reflexivity. Qed.
Print Assumptions C45_rounding.
Print Assumptions C45_next_int_below.
Print Assumptions C45_next_int_between.
Print Assumptions C45_next_double_below.
Print Assumptions C45_with_replacement.
Print Assumptions C45_without_replacement.
Print Assumptions C45_without_replacement_any_generator.
Print Assumptions C45_next_int_scales.
Print Assumptions C45_next_int_reaches.
