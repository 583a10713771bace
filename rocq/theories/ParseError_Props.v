(** C120: parse_error says where. *)
From Verif Require Import Common CommonLemmas NumText_Model Cast_Model ParseError_Model ParseError_Spec ParseError_Proof.
From Verif Require Ratio_Spec Ipv4_Model.
Local Open Scope Z_scope.

(** what() is FILE:LINE:POSITION MESSAGE for texts without NUL; the parts can be asked for and are what was given. *)
Theorem C120_what_partial : forall f l p m, ~ In 0 f -> ~ In 0 m -> located (what (make f l p m)) f l p m.
Proof. intros f l p m Hf Hm. unfold what. rewrite c_str_free by now apply made_free. apply made. Qed.
Theorem C120_parts : forall f l p m, let e := make f l p m in filename e = f /\ lineno e = l /\ pos e = p /\ msg e = m.
Proof. intros. repeat split. Qed.
(** If the file name holds no colon, the parts can be told from the text. *)
Theorem C120_read_partial : forall f l p m f' l' p' m', ~ In 0 f -> ~ In 0 m -> ~ In 0 f' -> ~ In 0 m' -> ~ In 58 f -> ~ In 58 f' ->
  what (make f l p m) = what (make f' l' p' m') -> f = f' /\ l = l' /\ p = p' /\ m = m'.
Proof.
  intros f l p m f' l' p' m' H1 H2 H3 H4 H5 H6 E. apply (located_unique (what (make f l p m))); try assumption.
  - now apply C120_what_partial.
  - rewrite E. now apply C120_what_partial.
Qed.
(** With colons it cannot; and what follows a NUL is not shown. *)
Theorem C120_read_refuted : exists f l p m f' l' p' m', ~ In 0 f /\ ~ In 0 m /\ ~ In 0 f' /\ ~ In 0 m' /\ f <> f' /\ l <> l' /\ p <> p' /\ m <> m' /\
  what (make f l p m) = what (make f' l' p' m').
Proof.
  exists (str "f:1:2 g"), 3, 4, (str "m"), (str "f"), 1, 2, (str "g:3:4 m").
  do 4 (split; [intros K; cbn in K; intuition discriminate|]). do 4 (split; [discriminate|]). vm_compute. reflexivity.
Qed.
Theorem C120_nul_refuted : forall f l p m r, ~ In 0 f -> ~ In 0 m -> what (make f l p (m ++ 0 :: r)) = what (make f l p m).
Proof.
  intros f l p m r Hf Hm. unfold what. rewrite (c_str_free (whole (make f l p m))) by now apply made_free.
  replace (whole (make f l p (m ++ 0 :: r))) with (whole (make f l p m) ++ 0 :: r) by (cbn [make init whole]; now rewrite <- !app_assoc). now apply c_str_cut, made_free.
Qed.
Theorem C120_default : what default = str ":0:0 ".
Proof. reflexivity. Qed.
Example C120_nonvacuous : ~ In 0 (str "a.json") /\ what (make (str "a.json") 12 (-3) (str "invalid string")) = str "a.json:12:-3 invalid string".
Proof. split; [intros K; cbn in K; intuition discriminate|vm_compute; reflexivity]. Qed.

Print Assumptions C120_what_partial.
Print Assumptions C120_parts.
Print Assumptions C120_read_partial.
Print Assumptions C120_read_refuted.
Print Assumptions C120_nul_refuted.
Print Assumptions C120_default.
