(** Clock arithmetic. *)
From Verif Require Import Common CommonLemmas Clock_Spec Clock_Model.
Local Open Scope Z_scope.

Lemma i32_ok z : - 2 ^ 31 <= z < 2 ^ 31 -> i32 z = Ok z.
Proof. intros H. unfold i32. replace ((- 2 ^ 31 <=? z) && (z <? 2 ^ 31)) with true by lia. reflexivity. Qed.
Lemma u64_range z : 0 <= u64 z < 2 ^ 64.
Proof. apply Z.mod_pos_bound. lia. Qed.
Lemma horizon_pos : 0 < horizon.
Proof. unfold horizon, million. lia. Qed.
(** Moving a million microseconds to the seconds keeps the instant. *)
Lemma move s u k : (u64 (s + k) * million + (u - k * million)) mod horizon = (s * million + u) mod horizon.
Proof.
  unfold u64. assert (E : (s + k) mod 2 ^ 64 = s + k - 2 ^ 64 * ((s + k) / 2 ^ 64)) by (rewrite Z.mod_eq; lia).
  rewrite E. replace ((s + k - 2 ^ 64 * ((s + k) / 2 ^ 64)) * million + (u - k * million))
    with (s * million + u + (- ((s + k) / 2 ^ 64)) * horizon) by (unfold horizon; ring).
  apply Z.mod_add. pose proof horizon_pos. lia.
Qed.
Lemma carry_ok : forall f s u, u < 2 ^ 31 -> - 2 ^ 31 <= u -> (Z.to_nat u < f)%nat -> 0 <= s < 2 ^ 64 ->
  exists c, carry f s u = Ok c /\ 0 <= fst c < 2 ^ 64 /\ snd c < million /\ (0 <= u -> 0 <= snd c) /\ (u < 0 -> snd c = u) /\
  instant c mod horizon = (s * million + u) mod horizon.
Proof.
  unfold million. induction f as [|f IH]; intros s u Hu Hl Hf Hs; [lia|]. cbn [carry].
  destruct (Z.leb_spec 1000000 u) as [H|H].
  - rewrite i32_ok by lia. cbn [obind].
    destruct (IH (u64 (s + 1)) (u - 1000000)) as (c & -> & H1 & H2 & H3 & H4 & H5); [lia..|apply u64_range|].
    exists c. split; [reflexivity|]. split; [exact H1|]. split; [exact H2|]. split; [lia|]. split; [lia|].
    rewrite H5. pose proof (move s u 1) as M. unfold million in M. rewrite <- M. reflexivity.
  - exists (s, u). split; [reflexivity|]. unfold instant, million. cbn [fst snd]. lia.
Qed.
Lemma borrow_ok : forall f s u, u < million -> - 2 ^ 31 <= u -> (Z.to_nat (- u) < f)%nat -> 0 <= s < 2 ^ 64 ->
  exists c, borrow f s u = Ok c /\ normal c /\ instant c mod horizon = (s * million + u) mod horizon.
Proof.
  unfold normal, million. induction f as [|f IH]; intros s u Hu Hl Hf Hs; [lia|]. cbn [borrow].
  destruct (Z.ltb_spec u 0) as [H|H].
  - rewrite i32_ok by lia. cbn [obind].
    destruct (IH (u64 (s - 1)) (u + 1000000)) as (c & -> & H1 & H2); [lia..|apply u64_range|].
    exists c. split; [reflexivity|]. split; [exact H1|].
    rewrite H2. pose proof (move s u (-1)) as M. unfold million in M. rewrite <- M. replace (s + -1) with (s - 1) by lia. reflexivity.
  - exists (s, u). split; [reflexivity|]. unfold instant, million. cbn [fst snd]. lia.
Qed.
Lemma settle_ok s u : 0 <= s < 2 ^ 64 -> - 2 ^ 31 <= u < 2 ^ 31 ->
  exists c, settle s u = Ok c /\ normal c /\ instant c = (s * million + u) mod horizon.
Proof.
  intros Hs Hu. unfold settle, fuel. destruct (carry_ok (S (Z.to_nat (Z.abs u))) s u) as (c & -> & H1 & H2 & H3 & H4 & H5); [lia..|].
  destruct c as [s' u']. cbn [fst snd obind] in *.
  destruct (borrow_ok (S (Z.to_nat (Z.abs u'))) s' u') as (c & -> & Hn & H6); [lia..|].
  exists c. split; [reflexivity|]. split; [exact Hn|]. unfold instant in H5. cbn [fst snd] in H5. rewrite <- H5, <- H6.
  symmetry. apply Z.mod_small. unfold normal, instant, horizon, million in *. lia.
Qed.
Lemma u64_instant s u : (u64 s * million + u) mod horizon = (s * million + u) mod horizon.
Proof. pose proof (move s u 0) as M. rewrite Z.add_0_r in M. rewrite <- M. f_equal. lia. Qed.
Lemma plus_ok a b : - 2 ^ 31 <= snd a + snd b < 2 ^ 31 ->
  exists c, plus a b = Ok c /\ normal c /\ instant c = (instant a + instant b) mod horizon.
Proof.
  intros Hu. unfold plus. rewrite i32_ok by exact Hu. cbn [obind].
  destruct (settle_ok (u64 (fst a + fst b)) (snd a + snd b)) as (c & -> & Hn & E); [apply u64_range|exact Hu|].
  exists c. split; [reflexivity|]. split; [exact Hn|]. rewrite E, u64_instant. f_equal. unfold instant. ring.
Qed.
Lemma minus_ok a b : - 2 ^ 31 <= snd a - snd b < 2 ^ 31 ->
  exists c, minus a b = Ok c /\ normal c /\ instant c = (instant a - instant b) mod horizon.
Proof.
  intros Hu. unfold minus. rewrite i32_ok by exact Hu. cbn [obind].
  destruct (settle_ok (u64 (fst a - fst b)) (snd a - snd b)) as (c & -> & Hn & E); [apply u64_range|exact Hu|].
  exists c. split; [reflexivity|]. split; [exact Hn|]. rewrite E, u64_instant. f_equal. unfold instant. ring.
Qed.
Lemma normal_instant a b : normal a -> normal b -> instant a = instant b -> a = b.
Proof. unfold normal, instant, million. destruct a as [s u], b as [t v]. cbn [fst snd]. intros. assert (s = t) by lia. subst. f_equal. lia. Qed.
Lemma normal_range a : normal a -> 0 <= instant a < horizon.
Proof. unfold normal, instant, horizon, million. lia. Qed.
