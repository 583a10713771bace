(** C102: the Haskell client that the generator makes, with PFIRPC.hs, against the C++ server. *)
From Verif Require Import Common NumText_Model Reflect_Spec Archive_Model Archive_Spec Rpc_Spec Rpc_Model Php_Spec Php_Model Php_Proof Hs_Spec Hs_Model Hs_Proof.
From Coq Require Import Lia Permutation.
Local Open Scope Z_scope.

(** The generated module compiles, and every call gives the Haskell value for what the C++ function returns on the C++ values of the arguments.
    Missing for the full claim: versions other than 1, services after the first, negative integers as results, NaN and -0, types that are not [hcarried] and
    signatures that are not [hsuitable]. *)
Theorem C102_session_partial : forall A conv (svc : service A) taken file s r a n, conversion conv -> hsuitable taken file s -> hoffers svc s -> (0 < n)%nat ->
  forall calls, Forall (hproper s) calls ->
  exists rs a', hrun conv 1 svc a n taken file (s :: r) calls = (Ran (Val rs), a') /\ hanswered svc s a calls a' rs.
Proof. intros A conv svc taken file s r a [|n] C S Of Hn; [lia|]. now apply hsession. Qed.
(** The client sends the version 1 always: a server of any other version refuses every call. *)
Theorem C102_version_refuted : forall A conv (svc : service A) taken file s r a n ver, conversion conv -> hsuitable taken file s -> hoffers svc s -> (0 < n)%nat -> ver <> 1 -> int32 ver ->
  forall c calls, Forall (hproper s) (c :: calls) ->
  hrun conv ver svc a n taken file (s :: r) (c :: calls) = (Ran (Exn (str "wrong result code: VersionMismatch " ++ show_int ver ++ str " 1")), a).
Proof. intros A conv svc taken file s r a [|n] ver C S Of Hn Hv H32; [lia|]. now apply hsession_version. Qed.

(** A service for the examples: a class with a map and a member without a name *)
Definition pt : cty := CClass [OName (str "point"); ONamed (str "x") (CInt true 4); OPlain (CMap CString (CVector CChar))].
Definition sg : ssig := {| s_name := str "geo"; s_procs := [(str "swap", (pt, [CFloat 8; pt])); (str "inc", (CInt false 4, [CInt false 4])); (str "e", (CString, []))] |}.
Definition svc : service Z := [
  (str "swap", {| f_args := map wire [CFloat 8; pt]; f_ret := wire pt; f_body := fun a vs => (a + 1, Ret (match vs with [_; v] => v | _ => VUndef end)) |});
  (str "inc", {| f_args := [TNum 4 false]; f_ret := TNum 4 false; f_body := fun a vs => (a + 1, Ret (match vs with [VN z] => VN ((z + 1) mod 2 ^ 32) | _ => VUndef end)) |});
  (str "e", {| f_args := []; f_ret := TStr; f_body := fun a vs => (a + 1, Ret (VS (if a =? 7 then [] else [65]))) |})].
Definition prelude : list (list Z) := map str ["Maybe"; "Just"; "Either"; "Left"; "Ordering"; "EQ"; "True"]%string.
Definition geo : list Z := str "geo".
(** realToFrac without optimisation: by rational numbers, so that -0 becomes 0 and NaN becomes -infinity *)
Definition by_rational (b : Z) : Z :=
  if b =? 2 ^ 63 then 0 else if ((b / 2 ^ 52) mod 2 ^ 11 =? 2047) && negb (b mod 2 ^ 52 =? 0) then 2 ^ 63 + 2047 * 2 ^ 52 else b.
Example C102_conversion_nonvacuous : conversion (fun b => b) /\ conversion by_rational.
Proof.
  split; [intros b _ _; reflexivity|]. intros b _ (H1 & H2). unfold by_rational. destruct (Z.eqb_spec b (2 ^ 63)); [contradiction|].
  destruct (Z.eqb_spec ((b / 2 ^ 52) mod 2 ^ 11) 2047) as [E|E]; [|reflexivity]. destruct (Z.eqb_spec (b mod 2 ^ 52) 0) as [F|F]; [reflexivity|]. exfalso. apply H2. now split.
Qed.
Ltac id := eexists _, _; split; [reflexivity|]; split; [unfold letter; vm_compute; intuition congruence|]; repeat (apply Forall_cons; [unfold letter; left; vm_compute; intuition congruence|]); constructor.
Ltac rid := repeat (apply Forall_cons; [unfold letter; left; vm_compute; intuition congruence|]); constructor.
Lemma carried_pt : hcarried pt.
Proof.
  constructor; [|exists (str "point"); now left| |discriminate].
  - constructor; [constructor; [id|discriminate]|]. constructor; [constructor; [rid|constructor]|]. constructor; [|constructor]. apply ho_plain. constructor; [constructor|constructor; constructor].
  - change (NoDup [str "x"; []]). constructor; [intros [K|[]]; discriminate K|]. constructor; [intros []|constructor].
Qed.
Lemma mentioned_pt x : mentioned [sg] x -> x = shape pt.
Proof.
  intros (C & c & Hc & Hp). change (types_of [sg]) with [pt; CFloat 8; pt; CInt false 4; CInt false 4; CString] in Hc.
  assert (c = pt \/ exists b, shape c = b /\ parts b = [b] /\ ~ is_class b) as [->|(b & E & P & N)].
  { destruct Hc as [<-|[<-|[<-|[<-|[<-|[<-|[]]]]]]]; auto; right; eexists; (split; [reflexivity|]); split; try reflexivity; intros []. }
  - change (parts (shape pt)) with [shape pt; TInt true 4; Reflect_Spec.TMap TString (TArray TChar); TString; TArray TChar; TChar] in Hp.
    destruct Hp as [<-|[<-|[<-|[<-|[<-|[<-|[]]]]]]]; try (destruct C); reflexivity.
  - rewrite E, P in Hp. destruct Hp as [<-|[]]. contradiction.
Qed.
Lemma suitable_sg : hsuitable prelude geo sg.
Proof.
  constructor.
  - split; [id|discriminate].
  - change (types_of [sg]) with [pt; CFloat 8; pt; CInt false 4; CInt false 4; CString]. repeat (apply Forall_cons; [first [exact carried_pt|constructor]|]). constructor.
  - intros x y Hx Hy _. now rewrite (mentioned_pt x Hx), (mentioned_pt y Hy).
  - intros x Hx. rewrite (mentioned_pt x Hx). intros K.
    assert (E : existsb (str_eqb (capital (cname (shape pt)))) (prelude ++ hlibrary) = false) by (vm_compute; reflexivity).
    assert (E' : existsb (str_eqb (capital (cname (shape pt)))) (prelude ++ hlibrary) = true); [|congruence].
    apply existsb_exists. exists (capital (cname (shape pt))). split; [exact K|apply Rpc_Proof.str_eqb_refl].
  - intros x y m n Hx Hy _ _ _. now rewrite (mentioned_pt x Hx), (mentioned_pt y Hy).
  - intros x m p Hx Hm Hp. rewrite (mentioned_pt x Hx) in *. intros E. apply (f_equal (hd 0)) in E. change (hd 0 (field (cname (shape pt)) m)) with 112 in E. change (hd 0 (call_ (fst p))) with 99 in E. discriminate.
  - split.
    + repeat (apply Forall_cons; [split; [id|unfold small; vm_compute; reflexivity]|]). constructor.
    + change (NoDup [str "swap"; str "inc"; str "e"]). repeat (constructor; [cbn [In]; intros K; repeat (destruct K as [K|K]; [discriminate K|]); exact K|]). constructor.
Qed.
Example C102_suitable_nonvacuous : hsuitable prelude geo sg.
Proof. exact suitable_sg. Qed.
Example C102_offers_nonvacuous : hoffers (skipn 1 svc) {| s_name := str "geo"; s_procs := [(str "inc", (CInt false 4, [CInt false 4]))] |}.
Proof.
  intros m ret args [[= <- <- <-]|[]]. eexists. split; [exists [], (skipn 2 svc); split; [reflexivity|intros []]|]. split; [reflexivity|]. split; [reflexivity|]. intros a vs H. cbn [f_args f_ret f_body] in *.
  inversion H as [|t v ts vs' Hv Ht]; subst. inversion Ht; subst. destruct Hv as (_ & z & -> & Hz). exists (a + 1), (VN ((z + 1) mod 2 ^ 32)). split; [reflexivity|].
  pose proof (Z.mod_pos_bound (z + 1) (2 ^ 32) ltac:(lia)) as B. change (2 ^ 32) with 4294967296 in *. split; [|intros w [= <-]; lia].
  split; [lia|]. eexists. split; [reflexivity|]. cbn. lia.
Qed.
Lemma num_typed n sg z : (n > 0)%nat -> in_range n sg z -> has_type (TNum n sg) (VN z).
Proof. intros H1 H2. split; [exact H1|]. now exists z. Qed.
Ltac num := apply num_typed; [lia|vm_compute; intuition congruence].
Ltac text := eexists; split; [reflexivity|]; split; [repeat (apply Forall_cons; [unfold is_byte; vm_compute; intuition congruence|]); constructor|unfold small; vm_compute; reflexivity].
Definition arg : hv := HObj (str "Point") [HInt (-9); HMap [(HList [HChar 65], HList [HChar 66; HChar 255]); (HList [HChar 90], HList [])]].
Definition argv : val := VP (VN (-9)) (VP (VL [VP (VS [65]) (VL [VN 66; VN (-1)]); VP (VS [90]) (VL [])]) (VL [])).
Lemma argv_typed : has_type (wire pt) argv.
Proof.
  eexists _, _. split; [reflexivity|]. split; [num|]. eexists _, _. split; [reflexivity|]. split; [|exists []; repeat split; constructor].
  exists [(VS [65], VL [VN 66; VN (-1)]); (VS [90], VL [])]. split; [reflexivity|]. split; [unfold small; vm_compute; reflexivity|]. split.
  - constructor; [split; [text|exists [VN 66; VN (-1)]; split; [reflexivity|]; split; [unfold small; vm_compute; reflexivity|]; repeat (apply Forall_cons; [num|]); constructor]|].
    constructor; [split; [text|exists []; split; [reflexivity|]; split; [unfold small; vm_compute; reflexivity|constructor]]|]. constructor.
  - cbn [map fst]. repeat constructor.
Qed.
Example C102_call_nonvacuous : hproper sg (str "swap", [HDouble 4614256656552045848; arg]) /\ hproper sg (str "inc", [HInt 5]) /\ hproper sg (str "e", []).
Proof.
  split; [|split].
  - exists pt, [CFloat 8; pt], [VN 4614256656552045848; argv]. split; [now left|]. split; [constructor; [num|constructor; [exact argv_typed|constructor]]|].
    constructor; [cbn [fst snd]; split; [intros z [= <-]; split; [discriminate|intros (K & _); vm_compute in K; discriminate]|now exists 4614256656552045848]|]. constructor; [|constructor]. cbn [fst snd]. split.
    + intros x y [= <- <-]. split; [intros z _; exact I|]. intros x y [= <- <-]. split; [|exact I]. intros l E.
      assert (El : [(VS [65], VL [VN 66; VN (-1)]); (VS [90], VL [])] = l) by (apply pairs_inj; injection E as E; exact E). subst l.
      constructor; [|constructor; [|constructor]]; (split; [exact I|]); cbn [snd]; intros l [= <-]; repeat constructor; intros z _; exact I.
    + eexists. split; [reflexivity|]. eexists _, _, _, _. split; [reflexivity|]. split; [reflexivity|]. split; [now exists (-9)|]. eexists _, _, _, _. split; [reflexivity|]. split; [reflexivity|]. split; [|now split].
      exists [(VS [65], VL [VN 66; VN (-1)]); (VS [90], VL [])]. eexists _, _. split; [reflexivity|]. split; [reflexivity|]. split; [apply Permutation_refl|].
      constructor; [|constructor; [|constructor]]; cbn [fst snd]; (split; [eexists; split; reflexivity|]); eexists _, _; (split; [reflexivity|]); (split; [reflexivity|]); repeat constructor; eexists; split; reflexivity.
  - exists (CInt false 4), [CInt false 4], [VN 5]. split; [right; now left|]. split; [constructor; [num|constructor]|]. constructor; [|constructor]. cbn [fst snd]. split; [intros z _; exact I|now exists 5].
  - exists CString, [], []. split; [right; right; now left|]. split; constructor.
Qed.
(** A session: a record with a map as argument and as result, an unsigned number, a string that is empty the eighth time *)
Definition arg7 : hv := HObj (str "Point") [HInt 9; HMap [(HList [HChar 65], HList [HChar 66; HChar 255]); (HList [HChar 90], HList [])]].
Example C102_case_session : hrun by_rational 1 svc 5 2 prelude geo [sg] [(str "swap", [HDouble 4614256656552045848; arg7]); (str "inc", [HInt 4294967294]); (str "e", []); (str "e", [])] =
  (Ran (Val [arg7; HInt 4294967295; HList []; HList [HChar 65]]), 9).
Proof. vm_compute. reflexivity. Qed.

(** What other services and values get.  One procedure [e] each, which returns [v] and counts, and one more. *)
Definition one (ret : cty) (v : val) : list ssig * service Z :=
  ([{| s_name := str "s"; s_procs := [(str "e", (ret, [])); (str "next", (CInt true 4, []))] |}],
   [(str "e", {| f_args := []; f_ret := wire ret; f_body := fun a _ => (a + 1, Ret v) |}); (str "next", {| f_args := []; f_ret := TNum 4 true; f_body := fun a _ => (a + 1, Ret (VN a)) |})]).
Definition calls (c : list ssig * service Z) : hresult * Z := hrun by_rational 1 (snd c) 0 1 prelude geo (fst c) [(str "e", []); (str "next", [])].
Example C102_case_one : calls (one (CInt true 4) (VN 5)) = (Ran (Val [HInt 5; HInt 1]), 2).
Proof. vm_compute. reflexivity. Qed.
(** A negative result comes as a positive number. *)
Theorem C102_negative_refuted : hcarried (CInt true 4) /\ has_type (wire (CInt true 4)) (VN (-1)) /\ calls (one (CInt true 4) (VN (-1))) = (Ran (Val [HInt 4294967295; HInt 1]), 2).
Proof. split; [constructor|]. split; [num|]. vm_compute. reflexivity. Qed.
(** -0 comes as 0 where realToFrac goes by rational numbers. *)
Theorem C102_zero_refuted : hcarried (CFloat 8) /\ has_type (wire (CFloat 8)) (VN (2 ^ 63)) /\ conversion by_rational /\ calls (one (CFloat 8) (VN (2 ^ 63))) = (Ran (Val [HDouble 0; HInt 1]), 2).
Proof. split; [constructor|]. split; [num|]. split; [apply C102_conversion_nonvacuous|]. vm_compute. reflexivity. Qed.
(** Every integer type is Int, which is four bytes on the wire: the client waits for more of a shorter one for ever, and takes the rest of a longer one for the next answer. *)
Theorem C102_sizes_refuted : calls (one (CInt true 2) (VN 7)) = (Ran Hang, 1) /\ calls (one (CInt false 1) (VN 7)) = (Ran Hang, 1) /\
  calls (one (CInt true 8) (VN 7)) = (Ran (Exn (str "connection establish failed")), 1) /\ calls (one (CFloat 4) (VN 1065353216)) = (Ran Hang, 1).
Proof. repeat split; vm_compute; reflexivity. Qed.
(** An argument that is longer than the server expects: the rest is taken for the name of the next procedure. *)
Definition give (c : cty) (p : hv) : hresult * Z :=
  hrun by_rational 1 [(str "f", {| f_args := [wire c]; f_ret := TNum 4 true; f_body := fun a vs => (match vs with [VN z] => z | _ => -100 end, Ret (VN 1)) |})] 0 1 prelude geo
    [{| s_name := str "s"; s_procs := [(str "f", (CInt true 4, [c]))] |}] [(str "f", [p]); (str "f", [p])].
Theorem C102_long_argument_refuted : give (CInt true 4) (HInt 7) = (Ran (Val [HInt 1; HInt 1]), 7) /\ fst (give (CInt true 2) (HInt 7)) <> Ran (Val [HInt 1; HInt 1]) /\ give (CInt true 8) (HInt 7) = (Ran Hang, 0).
Proof. split; [vm_compute; reflexivity|]. split; [vm_compute; discriminate|vm_compute; reflexivity]. Qed.
(** Of a character, the lowest byte is sent. *)
Theorem C102_wide_refuted : give CChar (HChar 955) = (Ran (Val [HInt 1; HInt 1]), -69) /\ 955 mod 256 - 256 = -69.
Proof. split; [vm_compute|]; reflexivity. Qed.
Definition class (n m : String.string) : cty := CClass [OName (str n); ONamed (str m) (CInt true 4)].
(** The module does not compile: bool and streams, classes as keys or in keys, classes without members. *)
Theorem C102_types_refuted : calls (one CBool (VB true)) = (Not_compiled, 0) /\ calls (one CStream (VS [])) = (Not_compiled, 0) /\
  calls (one (CMap (CClass [OName (str "p"); ONamed (str "x") (CInt true 4)]) (CInt true 4)) (VL [])) = (Not_compiled, 0) /\
  calls (one (CMap (CMap CString (class "p" "x")) (CInt true 4)) (VL [])) = (Not_compiled, 0) /\
  calls (one (CMap (CMap (class "p" "x") CString) (CInt true 4)) (VL [])) = (Not_compiled, 0) /\ calls (one (CMap (CVector (class "p" "x")) (CInt true 4)) (VL [])) = (Not_compiled, 0) /\
  calls (one (CClass [OName (str "p")]) (VL [])) = (Not_compiled, 0).
Proof. repeat split; vm_compute; reflexivity. Qed.
(** The module does not compile: classes whose names differ in the first letter's case only, are not names in Haskell, or are known already; names of fields that are
    the same in two classes, or in a class and a procedure. *)
Definition two (c d : cty) : hresult * Z := calls (one (CClass [OName (str "outer"); ONamed (str "a") c; ONamed (str "b") d]) (VP (VP (VN 1) (VL [])) (VP (VP (VN 2) (VL [])) (VL [])))).
Theorem C102_names_refuted : two (class "p" "x") (class "q" "x") = (Ran (Val [HObj (str "Outer") [HObj (str "P") [HInt 1]; HObj (str "Q") [HInt 2]]; HInt 1]), 2) /\
  two (class "p" "x") (class "P" "x") = (Not_compiled, 0) /\ two (class "ns::p" "x") (class "q" "x") = (Not_compiled, 0) /\ two (class "_p" "x") (class "q" "x") = (Not_compiled, 0) /\
  two (class "map" "x") (class "q" "x") = (Not_compiled, 0) /\ two (class "p" "q_x") (class "p_q" "x") = (Not_compiled, 0) /\ two (class "call" "next") (class "q" "x") = (Not_compiled, 0).
Proof. repeat split; vm_compute; reflexivity. Qed.
(** A class without a name is another type at every place: what one procedure returns cannot be given to the other. *)
Definition nameless : cty := CClass [ONamed (str "x") (CInt true 4)].
Definition pass (n : String.string) : hresult * Z :=
  hrun by_rational 1 [(str "f", {| f_args := [wire nameless]; f_ret := wire nameless; f_body := fun a vs => (a + 1, Ret (hd VUndef vs)) |})] 0 1 prelude geo
    [{| s_name := str "s"; s_procs := [(str "f", (nameless, [nameless]))] |}] [(str "f", [HObj (str n) [HInt 5]])].
Theorem C102_nameless_refuted : pass "Anonymous1" = (Ran (Val [HObj (str "Anonymous0") [HInt 5]]), 1) /\ pass "Anonymous0" = (Not_compiled, 0).
Proof. split; vm_compute; reflexivity. Qed.
(** Only the first service gets a client; without any, the generator reads beyond the end of the list. *)
Theorem C102_second_refuted : forall A conv ver (svc : service A) a n taken file s r m ps, ~ In m (map fst (s_procs s)) ->
  (forall rs, fst (hrun conv ver svc a n taken file (s :: r) [(m, ps)]) <> Ran rs) /\ hgenerate [] = UB.
Proof.
  intros A conv ver svc0 a n taken file s r m ps Hm. split; [|reflexivity]. intros rs. unfold hrun, hprogram.
  unfold hgenerate. rewrite reflect_members_ok. cbn [obind]. fold (reflected s).
  assert (N : ~ In m (map fst (reflected s))).
  { intros K. apply in_map_iff in K as ([k (t & ts)] & E & K). cbn [fst] in E. subst k. apply fold_madd_in in K as [[]|(c & cs & Hc & _)]. apply Hm. exact (in_map fst _ _ Hc). }
  assert (G : forall l k l' k', name_all name_method l k = (l', k') -> map fst l' = map fst l).
  { induction l as [|[x (t & ts)] l IH]; intros k l' k' E; [injection E as <- _; reflexivity|]. cbn [name_all name_method] in E.
    destruct (name_types t k) as (t' & k1). destruct (name_all name_types ts k1) as (ts' & k2). destruct (name_all name_method l k2) as (l2 & k3) eqn:E3. injection E as <- _. cbn [map fst]. now rewrite (IH _ _ _ E3). }
  destruct (name_all name_method (reflected s) 0) as (l & k) eqn:E. apply G in E. rewrite <- E in N.
  destruct (compile taken file _); try discriminate. cbn [forallb]. assert (T : call_typed {| hclasses := collect (flat_map (fun p => fst (snd p) :: snd (snd p)) l); hprocs := l |} (m, ps) = false).
  { unfold call_typed. cbn [fst hprocs]. clear - N. induction l as [|[x y] l IH]; [reflexivity|]. cbn [hproc]. cbn [map fst] in N. destruct (str_eqb x m) eqn:E; [apply Rpc_Proof.str_eqb_eq in E; subst; exfalso; apply N; now left|].
    apply IH. intros K. apply N. now right. }
  rewrite T. discriminate.
Qed.
Example C102_case_second : hrun by_rational 1 (snd (one (CInt true 4) (VN 5))) 0 1 prelude geo ({| s_name := str "t"; s_procs := [] |} :: fst (one (CInt true 4) (VN 5))) [(str "e", [])] = (Not_compiled, 0).
Proof. vm_compute. reflexivity. Qed.

Print Assumptions C102_session_partial.
Print Assumptions C102_version_refuted.
Print Assumptions C102_negative_refuted.
Print Assumptions C102_zero_refuted.
Print Assumptions C102_sizes_refuted.
Print Assumptions C102_long_argument_refuted.
Print Assumptions C102_wide_refuted.
Print Assumptions C102_types_refuted.
Print Assumptions C102_names_refuted.
Print Assumptions C102_nameless_refuted.
Print Assumptions C102_second_refuted.
