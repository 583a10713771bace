(** Type reflection: the properties. *)
From Verif Require Import Common NumText_Model Reflect_Spec Reflect_Model Reflect_Proof.
Local Open Scope Z_scope.

(** ** C92 *)
(** The reflection of every type succeeds and is its tree: the last name, the members in their order; whatever was reflected before stays. *)
Theorem C92_get_type : forall c, get_type c = Ok (shape c).
Proof. exact get_type_shape. Qed.
Theorem C92_nested : forall c top s ns, serialize c {| stk := top :: s; names := ns |} = Ok {| stk := (top ++ [([], shape c)]) :: s; names := ns |}.
Proof. exact serialize_shape. Qed.
(** The traversal calls the function for every part once, each before its own parts. *)
Theorem C92_traverse : forall t, traverse t = parts t.
Proof. exact traverse_parts. Qed.
(** The text of a tree is what its grammar says. *)
Theorem C92_print : forall t, denotes (print t) t.
Proof. exact print_denotes. Qed.
(** The text of a type whose names have no punctuation determines its tree, and where the text ends. *)
Theorem C92_text_partial : forall t u r q, named t -> named u -> print t ++ r = print u ++ q -> t = u /\ r = q.
Proof. intros t u r q Ht Hu E. exact (print_inj t u r q Ht Hu E). Qed.
(** NAMED_MEMBER takes any text for a name, and two trees can have one text. *)
Theorem C92_text_refuted : exists c d, shape c <> shape d /\ omap print (get_type c) = omap print (get_type d).
Proof.
  exists (CClass [ONamed (str "a,bool:b") CBool]), (CClass [ONamed (str "a") CBool; ONamed (str "b") CBool]). split; [ intros K | reflexivity ].
  apply (f_equal (fun t => match t with TClass _ ms => length ms | _ => O end)) in K. vm_compute in K. discriminate K.
Qed.
(** The text does not determine what is written: numbers of different sizes have the same text. *)
Theorem C92_format_refuted : ~ (forall c d, omap print (get_type c) = omap print (get_type d) -> c = d).
Proof. intros H. specialize (H (CFloat 4) (CFloat 8) eq_refl). discriminate H. Qed.
(** Examples: a class with members, and a class in a class *)
Example C92_case_class : omap print (get_type (CClass [OName (str "hoge"); ONamed (str "a") (CInt true 4); ONamed (str "m") (CMap CString (CVector (CInt false 2))); OPlain (CClass [])]))
  = Ok (str "class(hoge){int(4):a,map<string,array<uint(2)>>:m,class(){}}").
Proof. vm_compute. reflexivity. Qed.
Example C92_case_last_name : get_type (CClass [OName (str "a"); OPlain (CClass [OName (str "c")]); OName (str "b")]) = Ok (TClass (str "b") [([], TClass (str "c") [])]).
Proof. vm_compute. reflexivity. Qed.
Example C92_text_nonvacuous : named (TClass (str "hoge") [(str "a", TInt true 4); ([], TMap TString (TArray TBool))]).
Proof.
  apply nm_class; [ | apply Forall_cons; [ split | apply Forall_cons; [ split | apply Forall_nil ] ] ].
  - unfold plain. apply Forall_forall. intros x H K. vm_compute in H, K. intuition congruence.
  - unfold plain. apply Forall_forall. intros x H K. vm_compute in H, K. intuition congruence.
  - apply nm_int. reflexivity.
  - apply Forall_nil.
  - apply nm_map; [ | apply nm_array ]; apply nm_leaf; cbn; auto 10.
Qed.
Example C92_case_traverse : traverse (TMap TChar (TArray TFloat)) = [TMap TChar (TArray TFloat); TChar; TArray TFloat; TFloat].
Proof. reflexivity. Qed.

Print Assumptions C92_get_type.
Print Assumptions C92_nested.
Print Assumptions C92_traverse.
Print Assumptions C92_print.
Print Assumptions C92_text_partial.
Print Assumptions C92_text_refuted.
Print Assumptions C92_format_refuted.
