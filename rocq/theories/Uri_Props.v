(** C24, C25: URIs. *)
From Verif Require Import Common CommonLemmas Uri_Model Uri_Spec Uri_Proof UriParse_Proof.
Local Open Scope Z_scope.

(** The strings of optional parts; missing ones are empty. *)
Definition text (o : option (list Z)) : list Z := match o with Some s => s | None => [] end.

(** C24.  Parsing a composed reference gives back its parts.  Guards ([ok_auth], [ok_host]): no percent-encoding in
    userinfo and host; a host name does not begin with an IPv4 address; IPv6 groups are written with four digits and "::"
    stands for one group or for leading groups; no IPvFuture. *)
Theorem C24_parse_composed_partial : forall p, ok_parts p ->
  uri (compose p) = Ok (mkC (text (p_scheme p))
    (match p_auth p with Some a => text (a_user a) | None => [] end)
    (match p_auth p with Some a => a_host a | None => [] end)
    (match p_auth p with Some a => text (a_port a) | None => [] end)
    (p_path p) (text (p_query p)) (text (p_fragment p))).
Proof. exact compose_parse. Qed.
(** Printing and parsing again keeps the components if there is a scheme and the path begins with a slash. *)
Theorem C24_print_parse_partial : forall p s r c, ok_parts p -> p_scheme p = Some s -> p_path p = 47 :: r ->
  uri (compose p) = Ok c -> uri (print c) = Ok c.
Proof. intros p s r c H1 H2 H3 H4. rewrite (compose_parse p H1) in H4. injection H4 as <-. exact (print_parse p s r H1 H2 H3). Qed.
(** Outside the guards components are lost: an encoded byte in the userinfo or in the host name, a name beginning with an
    address, short IPv6 groups, IPvFuture. *)
Theorem C24_parse_refuted :
  uri (str "http://a%41@h/") = Ok empty /\
  uri (str "http://a%41/x/@") = Ok (mkC (str "http") (str "a%41/x/") [] [] [] [] []) /\
  uri (str "http://1.2.3.4.example/") = Ok empty /\ uri (str "http://[::1]/") = Ok empty /\ uri (str "http://[v1.a]/") = Ok empty.
Proof. repeat split; vm_compute; reflexivity. Qed.
(** Printing puts "//" behind the scheme and "/" for an empty path. *)
Theorem C24_print_refuted : exists c, uri (str "mailto:joe") = Ok c /\ path c = str "joe" /\ host c = [] /\
  exists d, uri (print c) = Ok d /\ path d = str "" /\ host d = str "joe".
Proof. eexists. split; [vm_compute; reflexivity|]. split; [reflexivity|]. split; [reflexivity|]. eexists. split; [vm_compute; reflexivity|]. split; reflexivity. Qed.
Theorem C24_print_empty_path_refuted : exists c d, uri (str "http://h?q") = Ok c /\ path c = [] /\ uri (print c) = Ok d /\ path d = str "/".
Proof. eexists _, _. split; [vm_compute; reflexivity|]. split; [reflexivity|]. split; [vm_compute; reflexivity|reflexivity]. Qed.
Ltac lit := vm_compute; repeat first [left; reflexivity | right].
Ltac each t := repeat (apply Forall_cons; [t|]); apply Forall_nil.
Example C24_nonvacuous : ok_parts (mkP (Some (str "http")) (Some (mkA (Some (str "joe:x")) (str "h.org") (Some (str "80")))) (str "/a/b") (Some (str "q=1")) None).
Proof.
  assert (D : forall F s, Forall F s -> encoded F s) by (induction 1; constructor; auto).
  assert (U : forall s, forallb is_unreserved s = true -> Forall unreserved s).
  { intros s H. apply Forall_forall. intros c Hc. rewrite forallb_forall in H. specialize (H c Hc). clear - H.
    assert (E : In c (str "ABCDEFGHIJKLMNOPQRSTUVWXYZabcdefghijklmnopqrstuvwxyz") \/ In c (str "0123456789") \/ In c (str "-._~")); [|exact E].
    assert (E : In c (map Z.of_nat (seq 65 26) ++ map Z.of_nat (seq 97 26)) \/ In c (map Z.of_nat (seq 48 10)) \/ In c [45; 46; 95; 126]); [|exact E].
    unfold is_unreserved, isalpha, isdigit in H. cbn [In]. rewrite in_app_iff, !in_map_iff.
    assert (K : forall a n, Z.of_nat a <= c < Z.of_nat a + Z.of_nat n -> exists x, Z.of_nat x = c /\ In x (seq a n)).
    { intros a n Hn. exists (Z.to_nat c). rewrite in_seq. lia. }
    assert (L : 65 <= c <= 90 \/ 97 <= c <= 122 \/ 48 <= c <= 57 \/ 45 = c \/ 46 = c \/ 95 = c \/ 126 = c) by lia.
    destruct L as [L|[L|[L|L]]]; [left; left|left; right|right; left|right; right; tauto]; apply K; cbn; lia. }
  assert (U1 : forall s (F : Z -> Prop), forallb is_unreserved s = true -> (forall c, unreserved c -> F c) -> Forall F s).
  { intros s F H HF. eapply Forall_impl; [exact HF|]. now apply U. }
  split; [|split; [|split; [|split]]].
  - exists 104, (str "ttp"). split; [reflexivity|]. split; [lit|]. each ltac:(left; lit).
  - intros a [= <-]. split; [|split]; cbn [a_user a_host a_port ok_opt].
    + match goal with |- Forall ?F _ => change (Forall F (str "joe" ++ [58] ++ str "x")) end. apply Forall_app. split; [apply U1; [reflexivity|tauto]|]. constructor; [tauto|]. apply U1; [reflexivity|tauto].
    + left. split; [apply U1; [reflexivity|tauto]|]. intros (a & b & E & (o1 & o2 & o3 & o4 & O1 & _ & _ & _ & ->)). apply octet_chars in O1. unfold octet3 in O1.
      destruct O1 as [(x & -> & H)|[(x & y & -> & H)|(x & y & z & -> & H)]]; cbn [app] in E; injection E as E1 _; change (chr _) with 104 in E1; lia.
    + each lit.
  - split; [|right; eexists; reflexivity]. cbn [p_path]. change (str "/a/b") with ([47] ++ str "a" ++ [47] ++ str "b"). apply D.
    constructor; [tauto|]. apply Forall_app. split; [apply U1; [reflexivity|unfold pchar; tauto]|]. constructor; [tauto|]. apply U1; [reflexivity|unfold pchar; tauto].
  - apply D. change (str "q=1") with (str "q" ++ [61] ++ str "1"). apply Forall_app. split; [apply U1; [reflexivity|unfold pchar; tauto]|]. constructor; [left; right; left; lit|]. apply U1; [reflexivity|unfold pchar; tauto].
  - exact I.
Qed.
Example C24_case : uri (str "http://joe:x@h.org:80/a/b?q=1") = Ok (mkC (str "http") (str "joe:x") (str "h.org") (str "80") (str "/a/b") (str "q=1") []) /\
  uri (str "//[abcd::ffff:1.2.3.4]:/") = Ok empty /\
  uri (str "//[::ffff:1.2.3.4]:?a/b#") = Ok (mkC [] [] (str "[::ffff:1.2.3.4]") [] [] (str "a/b") []).
Proof. repeat split; vm_compute; reflexivity. Qed.

(** C25.  False: an encoded byte where userinfo is looked for makes the parser skip three bytes more, past the end of the string. *)
Theorem C25_out_of_bounds_refuted : uri (str "http://%41") = UB /\ uri (str "//a%41b") = UB.
Proof. split; vm_compute; reflexivity. Qed.
(** No undefined behaviour (and a result) for every string in which at least three bytes follow each encoded byte. *)
Theorem C25_in_bounds_partial : forall s,
  (forall a x y q, s = a ++ 37 :: x :: y :: q -> HEXDIG x -> HEXDIG y -> (3 <= length q)%nat) -> exists c, uri s = Ok c.
Proof. exact uri_safe. Qed.
Example C25_nonvacuous : exists c, uri (str "http://[::" ++ [200; 0; 37; 37]) = Ok c.
Proof.
  apply C25_in_bounds_partial. intros a x y q E Hx Hy.
  destruct a as [|? [|? [|? [|? [|? [|? [|? [|? [|? [|? [|? [|? [|? [|? a]]]]]]]]]]]]]]; vm_compute in E; first [discriminate E | destruct a; discriminate E].
Qed.
Example C25_case : uri (str "http://x%41bcd/") = Ok (mkC (str "http") [] (str "x%41bcd") [] (str "/") [] []).
Proof. vm_compute. reflexivity. Qed.
Print Assumptions C24_parse_composed_partial.
Print Assumptions C24_print_parse_partial.
Print Assumptions C24_parse_refuted.
Print Assumptions C24_print_refuted.
Print Assumptions C24_print_empty_path_refuted.
Print Assumptions C25_out_of_bounds_refuted.
Print Assumptions C25_in_bounds_partial.
