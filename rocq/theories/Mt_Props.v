(** C46: the Mersenne Twister follows the MT19937 recurrence. *)
From Verif Require Import Common CommonLemmas Mt_Spec Mt_Model Mt_Proof.
Local Open Scope Z_scope.

(** For every seed, whatever the memory of the array held, the outputs of any number of calls are the tempered terms x_624, x_625, ... *)
Theorem C46_recurrence seed x mem k : 0 <= seed < 2 ^ 32 -> mt19937 seed x -> length mem = 624%nat ->
  exists g g' outs, construct mem seed = Ok g /\ draw k g = Ok (outs, g') /\ length outs = k /\
  forall i, (i < k)%nat -> nth_error outs i = Some (temper (x (624 + i)%nat)).
Proof.
  intros Hs X L. destruct (construct_at seed Hs x X mem L) as (g & E & G). destruct (draw_at seed Hs x X k 0 g G) as (g' & D & _).
  exists g, g', (map (fun i => temper (x (624 + i)%nat)) (seq 0 k)). split; [exact E|]. split; [exact D|].
  split; [now rewrite map_length, seq_length|]. intros i Hi. rewrite nth_error_map.
  rewrite (nth_error_nth' _ 0%nat) by (rewrite seq_length; lia). rewrite seq_nth by lia. reflexivity.
Qed.
(** The recurrence determines one sequence for every seed, of 32-bit words. *)
Theorem C46_sequence_exists seed : exists x, mt19937 seed x.
Proof. exists (sequence seed). apply sequence_mt. Qed.
Theorem C46_sequence_unique seed x x' : mt19937 seed x -> mt19937 seed x' -> forall k, x k = x' k.
Proof.
  intros [A1 A2 A3] [B1 B2 B3]. assert (G : forall n k, (k < n)%nat -> x k = x' k); [|intros k; apply (G (S k)); lia].
  induction n as [|n IH]; intros k Hk; [lia|]. destruct (Nat.lt_ge_cases k 624) as [L|L].
  - destruct (Nat.eq_dec k 0) as [->|E]; [congruence|]. rewrite A2, B2, (IH (k - 1)%nat) by lia. reflexivity.
  - replace k with (k - 624 + 624)%nat by lia. rewrite A3, B3. now rewrite !IH by lia.
Qed.
Theorem C46_words seed x : 0 <= seed < 2 ^ 32 -> mt19937 seed x -> forall k, 0 <= x k < 2 ^ 32 /\ 0 <= temper (x k) < 2 ^ 32.
Proof.
  intros Hs X k. pose proof (mt_words seed x Hs X k) as W. split; [exact W|].
  unfold temper. cbv zeta. change (word (Z.lxor (Z.lxor (Z.lxor (Z.lxor (x k) (x k / 2 ^ 11)) (Z.land (Z.lxor (x k) (x k / 2 ^ 11) * 2 ^ 7) 2636928640))
     (Z.land (Z.lxor (Z.lxor (x k) (x k / 2 ^ 11)) (Z.land (Z.lxor (x k) (x k / 2 ^ 11) * 2 ^ 7) 2636928640) * 2 ^ 15) 4022730752))
     (Z.lxor (Z.lxor (Z.lxor (x k) (x k / 2 ^ 11)) (Z.land (Z.lxor (x k) (x k / 2 ^ 11) * 2 ^ 7) 2636928640))
     (Z.land (Z.lxor (Z.lxor (x k) (x k / 2 ^ 11)) (Z.land (Z.lxor (x k) (x k / 2 ^ 11) * 2 ^ 7) 2636928640) * 2 ^ 15) 4022730752) / 2 ^ 18))).
  assert (C1 : word 2636928640) by (unfold word; lia). assert (C2 : word 4022730752) by (unfold word; lia).
  repeat (first [apply word_lxor | apply word_land | apply word_div; [lia|]]); auto; lia.
Qed.

(** The published first outputs of MT19937 for the seed 5489 and the 10000th, which the C++ standard gives (26.6.5 [rand.predef]). *)
Example C46_recurrence_nonvacuous :
  match construct (repeat 77 624) 5489 with
  | Ok g => match draw 10000 g with
            | Ok (outs, _) => firstn 5 outs = [3499211612; 581869302; 3890346734; 3586334585; 545404204] /\ nth_error outs 9999 = Some 4123659995
            | _ => False
            end
  | _ => False
  end.
Proof. vm_compute. split; reflexivity. Qed.
Print Assumptions C46_recurrence.
Print Assumptions C46_sequence_exists.
Print Assumptions C46_sequence_unique.
Print Assumptions C46_words.
