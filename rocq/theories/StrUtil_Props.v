(** C40: split, join, strip, replace, starts_with, ends_with. *)
From Verif Require Import Common StrUtil_Model StrUtil_Spec StrUtil_Proof.
Local Open Scope Z_scope.

(** join puts the separator between the pieces. *)
Theorem C40_join : forall xs sep, join xs sep = interleave sep xs.
Proof. exact join_spec. Qed.

Theorem C40_split_then_join : forall s c, join (split s c) [c] = s /\ Forall (fun x => ~ In c x) (split s c) /\ split s c <> [].
Proof.
  intros s c. rewrite join_spec. split; [apply (split_loop_join s c [])|].
  split; [apply split_loop_free; intros []|apply split_loop_nonempty].
Qed.

Theorem C40_join_then_split : forall xs c, xs <> [] -> Forall (fun x => ~ In c x) xs -> split (join xs [c]) c = xs.
Proof. intros xs c. rewrite join_spec. apply split_join. Qed.

(** Splitting by a string cuts at the leftmost, non-overlapping occurrences. *)
Theorem C40_split_string : forall s sep, sep <> [] -> exists xs, split_str s sep = Ok xs /\ pieces sep s xs /\
  join xs sep = s /\ Forall (fun x => forall n, ~ occurs_at sep x n) xs.
Proof.
  intros s sep Hs. destruct (split_str_loop_spec sep Hs (S (length s)) s ltac:(lia)) as (xs & E & P).
  exists xs. unfold split_str. destruct sep; [congruence|]. split; [exact E|]. split; [exact P|].
  split; [rewrite join_spec; now apply pieces_interleave|eapply pieces_free; eassumption].
Qed.

(** Such pieces are unique, so the previous theorem determines the result. *)
Theorem C40_pieces_unique : forall sep s xs ys, pieces sep s xs -> pieces sep s ys -> xs = ys.
Proof. intros sep s xs ys H1 H2. exact (pieces_unique sep s xs H1 ys H2). Qed.

(** replace puts [to] where those occurrences of [from] were. *)
Theorem C40_replace : forall s from to, from <> [] ->
  exists xs, pieces from s xs /\ replace s from to = Ok (interleave to xs).
Proof.
  intros s from to Hs. destruct (replace_loop_spec from to Hs (S (length s)) s [] ltac:(lia)) as (xs & P & E).
  exists xs. split; [exact P|]. unfold replace. destruct from; [congruence|exact E].
Qed.
Theorem C40_replace_empty : forall s to, replace s [] to = Ok s.
Proof. reflexivity. Qed.

(** strip, lstrip and rstrip remove exactly the blanks at the ends. *)
Theorem C40_strip : forall s, exists p q, s = p ++ strip s ++ q /\ Forall blank p /\ Forall blank q /\
  no_leading_blank (strip s) /\ no_leading_blank (rev (strip s)).
Proof. exact strip_spec. Qed.
Theorem C40_lstrip : forall s, exists p, s = p ++ lstrip s /\ Forall blank p /\ no_leading_blank (lstrip s).
Proof. exact lstrip_spec. Qed.
Theorem C40_rstrip : forall s, exists q, s = rstrip s ++ q /\ Forall blank q /\ no_leading_blank (rev (rstrip s)).
Proof. exact rstrip_spec. Qed.

Theorem C40_starts_with : forall s p, starts_with s p = true <-> exists r, s = p ++ r.
Proof. exact starts_with_spec. Qed.
Theorem C40_ends_with : forall s p, ends_with s p = true <-> exists r, s = r ++ p.
Proof. exact ends_with_spec. Qed.

Example C40_cases :
  split (str ",a,,bc") 44 = [[]; str "a"; []; str "bc"] /\ split [] 44 = [[]] /\
  split_str (str "aaaXXbXX") (str "XX") = Ok [str "aaa"; str "b"; []] /\
  replace (str "aaaa") (str "aa") (str "b") = Ok (str "bb") /\ replace (str "aaa") (str "aa") (str "ab") = Ok (str "aba") /\
  strip (str "  a b ") = str "a b" /\ strip (str "   ") = [] /\
  starts_with (str "abc") (str "ab") = true /\ ends_with (str "abc") (str "bc") = true /\ ends_with (str "abc") (str "b") = false.
Proof. vm_compute. repeat split. Qed.

Print Assumptions C40_join.
Print Assumptions C40_split_then_join.
Print Assumptions C40_join_then_split.
Print Assumptions C40_split_string.
Print Assumptions C40_pieces_unique.
Print Assumptions C40_replace.
Print Assumptions C40_replace_empty.
Print Assumptions C40_strip.
Print Assumptions C40_lstrip.
Print Assumptions C40_rstrip.
Print Assumptions C40_starts_with.
Print Assumptions C40_ends_with.
