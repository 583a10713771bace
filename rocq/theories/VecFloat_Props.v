(** C86, vectors of double. *)
From Verif Require Import Common Double_Model Double_Spec LexFloat_Spec LexFloat_Model VecFloat_Spec VecFloat_Model VecFloat_Proof.
Local Open Scope Z_scope.

(** A vector of finite doubles is read back with each component rounded to six digits; it is the same vector exactly if six digits suffice for all. *)
Theorem C86_double_text : forall a rest, a <> [] -> Forall is_double a -> stops rest ->
  exists b i, vread (length a) {| left := vwrite (map Fin a) ++ rest; atend := false; bad := false |} = Ok (map Fin b, i) /\ left i = rest /\ (atend i = true <-> rest = []) /\ bad i = false /\
  Forall2 kept6 a b /\ (b = a <-> Forall six a).
Proof.
  intros a rest N F Hr. destruct (get_all a rest [] N F Hr (Forall_nil _)) as (b & E & K & S). exists b, (after rest). split; [ | split; [ reflexivity | split; [ destruct rest; cbn; split; congruence | split; [ reflexivity | auto ] ] ] ].
  unfold vread. cbn [app] in E. rewrite E, settled_some. reflexivity.
Qed.
Definition half : double := mkD false (2 ^ 52) (-53).
Example C86_double_text_nonvacuous : is_double half /\ stops (str " x") /\ vwrite [Fin half; Fin half] = str "0.5 0.5" /\
  vread 2 {| left := str "0.5 0.5 x"; atend := false; bad := false |} = Ok ([Fin half; Fin half], {| left := str " x"; atend := false; bad := false |}) /\
  vread 2 {| left := str "0.5 1e999"; atend := false; bad := false |} = Ok ([Fin half; Fin (mkD false (2 ^ 53 - 1) 971)], {| left := []; atend := true; bad := true |}).
Proof. split; [ unfold is_double, half; cbn; lia | ]. split; [ vm_compute; repeat split; congruence || (intros []; congruence) | ]. vm_compute. auto. Qed.
(** An infinite or undefined component does not come back, and the components after it are read from variables that nobody has set. *)
Theorem C86_double_text_refuted : forall v a rest, (exists neg, v = Inf neg \/ v = NaN neg) -> a <> [] ->
  vread (S (length a)) {| left := vwrite (v :: a) ++ rest; atend := false; bad := false |} = UB.
Proof. exact special_lost. Qed.

(** A number beyond the doubles becomes the largest double of its sign, and the stream has failed. *)
Theorem C86_double_large : forall w t neg D j r, Forall blank w -> float_text t neg D j -> too_large D j -> stops r ->
  exists d i, vread 1 {| left := w ++ t ++ r; atend := false; bad := false |} = Ok ([Fin d], i) /\ dneg d = neg /\ is_double d /\ (forall e, is_double e -> mag e <= mag d) /\ left i = r /\ bad i = true.
Proof.
  intros w t neg D j r Hw Ht Hl Hr. eexists _, _. unfold vread. cbn [get_dbls]. rewrite (get_large w t neg D j r Hw Ht Hl Hr). cbn [settled obind]. split; [ reflexivity | ].
  split; [ reflexivity | ]. split; [ unfold is_double; cbn [dman dexp]; lia | ]. split; [ intros e He; exact (mag_most e He) | ]. split; reflexivity.
Qed.
(** A vector of char comes back exactly if none of its characters is a blank: with a blank among them the text holds too few
    characters, and the last variables are never set. *)
Theorem C86_char_text_partial : forall a rest, a <> [] -> Forall (fun c => ~ blank c) a ->
  cread (length a) {| left := cwrite a ++ rest; atend := false; bad := false |} = Ok (a, {| left := rest; atend := false; bad := false |}).
Proof. intros a rest N F. exact (chars_kept a rest [] N F (Forall_nil _)). Qed.
Theorem C86_char_text_refuted : forall a, Exists blank a -> cread (length a) {| left := cwrite a; atend := false; bad := false |} = UB.
Proof. intros a H. apply cread_short. cbn [left]. now apply visible_write. Qed.
Example C86_char_text_nonvacuous : cwrite (str "abc") = str "a b c" /\ Forall (fun c => ~ blank c) (str "abc") /\ Exists blank (str "a c").
Proof. split; [ reflexivity | ]. split; [ change (Forall (fun c => ~ blank c) [97; 98; 99]); repeat (constructor; [ unfold blank; lia | ]); constructor | ]. change (Exists blank [97; 32; 99]). right. left. unfold blank; lia. Qed.
(** A text with fewer numbers than components: the last variables are never set. *)
Theorem C86_double_short_refuted : forall a rest n, a <> [] -> Forall is_double a -> Forall blank rest -> (length a < n)%nat ->
  vread n {| left := vwrite (map Fin a) ++ rest; atend := false; bad := false |} = UB.
Proof. exact vwrite_short. Qed.

Print Assumptions C86_double_text.
Print Assumptions C86_double_text_refuted.
Print Assumptions C86_char_text_partial.
Print Assumptions C86_char_text_refuted.
Print Assumptions C86_double_short_refuted.
Print Assumptions C86_double_large.
