(** C98: the PHP clients that the generator makes, with the PHP library, against the C++ server. *)
From Verif Require Import Common NumText_Model Reflect_Spec Archive_Model Archive_Spec Rpc_Spec Rpc_Model Php_Spec Php_Model Php_Proof.
From Coq Require Import Lia Permutation.
Local Open Scope Z_scope.

(** The generated program loads, the client connects, and every call gives the PHP value for what the C++ function returns on the C++ values of the arguments.
    Missing for the full claim: versions other than 1, results with empty strings, types that are not [carried], signatures that are not [suitable], fread that
    gets less than it asks for. *)
Theorem C98_session_partial : forall A (svc : service A) taken sigs s a n, suitable taken sigs -> In s sigs -> offers svc s -> (0 < n)%nat ->
  exists d0, forall d, (d0 <= d)%nat -> forall calls, Forall (proper_call s) calls ->
  exists rs a', run 1 svc a n [] d taken sigs (s_name s) calls = (Val rs, a') /\ answered svc s a calls a' rs.
Proof. intros A svc taken sigs s a [|n] S Hs Of Hn; [lia|]. now apply session. Qed.
(** The client sends the version 1 always: a server of any other version refuses every call. *)
Theorem C98_version_refuted : forall A (svc : service A) taken sigs s a n ver, suitable taken sigs -> In s sigs -> offers svc s -> (0 < n)%nat -> ver <> 1 -> int32 ver ->
  exists d0, forall d, (d0 <= d)%nat -> forall c calls, proper_call s c ->
  run ver svc a n [] d taken sigs (s_name s) (c :: calls) = (Exn (str "result code is not OK: VersionMismatch " ++ show_int ver ++ str " 1"), a).
Proof. intros A svc taken sigs s a [|n] ver S Hs Of Hn Hv H32; [lia|]. now apply session_version. Qed.

(** A service for the examples *)
Definition pt : cty := CClass [OName (str "point"); ONamed (str "x") (CInt true 4); ONamed (str "tags") (CMap CString (CVector (CInt true 2)))].
Definition sg : ssig := {| s_name := str "geo"; s_procs := [(str "swap", (pt, [CInt true 1; pt])); (str "inc", (CInt false 4, [CInt false 4])); (str "e", (CString, []))] |}.
Definition svc : service Z := [
  (str "swap", {| f_args := map wire [CInt true 1; pt]; f_ret := wire pt; f_body := fun a vs => (a + 1, Ret (match vs with [_; v] => v | _ => VUndef end)) |});
  (str "inc", {| f_args := [TNum 4 false]; f_ret := TNum 4 false; f_body := fun a vs => (a + 1, Ret (match vs with [VN z] => VN ((z + 1) mod 2 ^ 32) | _ => VUndef end)) |});
  (str "e", {| f_args := []; f_ret := TStr; f_body := fun a vs => (a + 1, Ret (VS (if a =? 7 then [] else [65]))) |})].
Definition words : list (list Z) := map str ["class"; "echo"; "exception"; "function"; "stdclass"; "list"; "array"]%string.
Definition arg : pv := PObj (str "stdClass") [(str "tags", PArr [(KStr (str "zz"), PArr []); (KInt 12, PArr [(KInt 0, PInt (-5)); (KInt 1, PInt 7)])]); (str "x", PInt (-9))].
Definition argv : val := VP (VN (-9)) (VP (VL [VP (VS (str "12")) (VL [VN (-5); VN 7]); VP (VS (str "zz")) (VL [])]) (VL [])).
Ltac id := eexists _, _; split; [reflexivity|]; split; [unfold letter; vm_compute; intuition congruence|]; repeat (apply Forall_cons; [unfold letter; left; vm_compute; intuition congruence|]); constructor.
Lemma carried_pt : carried pt.
Proof.
  constructor; [|exists (str "point"); now left|].
  - constructor; [constructor; id|]. constructor; [constructor; [id|constructor; cbn; auto]|]. constructor; [constructor; [id|constructor; [constructor|constructor; constructor; cbn; auto]]|]. constructor.
  - change (NoDup [str "x"; str "tags"]). constructor; [intros [K|[]]; discriminate K|]. constructor; [intros []|constructor].
Qed.
Lemma mentioned_pt x : mentioned [sg] x -> x = shape pt.
Proof.
  intros (C & c & Hc & Hp). change (types_of [sg]) with [pt; CInt true 1; pt; CInt false 4; CInt false 4; CString] in Hc.
  assert (c = pt \/ exists b, shape c = b /\ parts b = [b] /\ ~ is_class b) as [->|(b & E & P & N)].
  { destruct Hc as [<-|[<-|[<-|[<-|[<-|[<-|[]]]]]]]; auto; right; eexists; (split; [reflexivity|]); split; try reflexivity; intros []. }
  - change (parts (shape pt)) with [shape pt; TInt true 4; Reflect_Spec.TMap TString (TArray (TInt true 2)); TString; TArray (TInt true 2); TInt true 2] in Hp.
    destruct Hp as [<-|[<-|[<-|[<-|[<-|[<-|[]]]]]]]; try (destruct C); reflexivity.
  - rewrite E, P in Hp. destruct Hp as [<-|[]]. contradiction.
Qed.
Lemma suitable_sg : suitable words [sg].
Proof.
  constructor.
  - change (types_of [sg]) with [pt; CInt true 1; pt; CInt false 4; CInt false 4; CString]. repeat (apply Forall_cons; [first [exact carried_pt|constructor; cbn; auto]|]). constructor.
  - intros x y Hx Hy _. now rewrite (mentioned_pt x Hx), (mentioned_pt y Hy).
  - intros x Hx. rewrite (mentioned_pt x Hx).
    intros K. assert (E : existsb (str_eqb (lower (cname (shape pt)))) (words ++ library ++ map (fun s => lower (s_name s ++ str "_client")) [sg]) = false) by (vm_compute; reflexivity).
    assert (E' : existsb (str_eqb (lower (cname (shape pt)))) (words ++ library ++ map (fun s => lower (s_name s ++ str "_client")) [sg]) = true); [|congruence].
    apply existsb_exists. exists (lower (cname (shape pt))). split; [exact K|apply Rpc_Proof.str_eqb_refl].
  - constructor; [|constructor]. split; [id|]. intros K.
    assert (E : existsb (str_eqb (lower (s_name sg ++ str "_client"))) (words ++ library) = false) by (vm_compute; reflexivity).
    assert (E' : existsb (str_eqb (lower (s_name sg ++ str "_client"))) (words ++ library) = true); [|congruence].
    apply existsb_exists. exists (lower (s_name sg ++ str "_client")). split; [exact K|apply Rpc_Proof.str_eqb_refl].
  - constructor; [intros []|constructor].
  - constructor; [|constructor]. split.
    + repeat (apply Forall_cons; [split; [id|unfold small; vm_compute; reflexivity]|]). constructor.
    + change (NoDup [str "swap"; str "inc"; str "e"]). repeat (constructor; [cbn [In]; intros K; repeat (destruct K as [K|K]; [discriminate K|]); exact K|]). constructor.
Qed.
(** The hypotheses can be met, also by arguments with maps and objects. *)
Example C98_suitable_nonvacuous : suitable words [sg] /\ In sg [sg].
Proof. split; [exact suitable_sg|now left]. Qed.
Example C98_offers_nonvacuous : offers (skipn 1 svc) {| s_name := str "geo"; s_procs := [(str "inc", (CInt false 4, [CInt false 4]))] |}.
Proof.
  intros m ret args [[= <- <- <-]|[]]. eexists. split; [exists [], (skipn 2 svc); split; [reflexivity|intros []]|]. split; [reflexivity|]. split; [reflexivity|]. intros a vs H. cbn [f_args f_ret f_body] in *.
  inversion H as [|t v ts vs' Hv Ht]; subst. inversion Ht; subst. destruct Hv as (_ & z & -> & Hz). exists (a + 1), (VN ((z + 1) mod 2 ^ 32)). split; [reflexivity|]. split; [|constructor].
  split; [lia|]. eexists. split; [reflexivity|]. cbn. pose proof (Z.mod_pos_bound (z + 1) (2 ^ 32) ltac:(lia)). change (2 ^ 32) with 4294967296 in *. lia.
Qed.
Lemma num_typed n sg z : (n > 0)%nat -> in_range n sg z -> has_type (TNum n sg) (VN z).
Proof. intros H1 H2. split; [exact H1|]. now exists z. Qed.
Ltac num := apply num_typed; [lia|vm_compute; intuition congruence].
Ltac text := eexists; split; [reflexivity|]; split; [repeat (apply Forall_cons; [unfold is_byte; vm_compute; intuition congruence|]); constructor|unfold small; vm_compute; reflexivity].
Lemma argv_typed : has_type (wire pt) argv.
Proof.
  exists (VN (-9)), (VP (VL [VP (VS (str "12")) (VL [VN (-5); VN 7]); VP (VS (str "zz")) (VL [])]) (VL [])). split; [reflexivity|]. split; [num|].
  exists (VL [VP (VS (str "12")) (VL [VN (-5); VN 7]); VP (VS (str "zz")) (VL [])]), (VL []). split; [reflexivity|]. split; [|exists []; repeat split; constructor].
  exists [(VS (str "12"), VL [VN (-5); VN 7]); (VS (str "zz"), VL [])]. split; [reflexivity|]. split; [unfold small; vm_compute; reflexivity|]. split.
  - constructor; [split; [text|exists [VN (-5); VN 7]; split; [reflexivity|]; split; [unfold small; vm_compute; reflexivity|]; repeat (apply Forall_cons; [num|]); constructor]|].
    constructor; [split; [text|exists []; split; [reflexivity|]; split; [unfold small; vm_compute; reflexivity|constructor]]|]. constructor.
  - cbn [map fst]. repeat constructor.
Qed.
Lemma arg_represents : represents pt argv arg.
Proof.
  eexists _, _. split; [reflexivity|]. eexists _, _, _. split; [reflexivity|]. split; [apply at_next; [discriminate|]; apply at_here|]. split; [exists (-9); now split|].
  eexists _, _, _. split; [reflexivity|]. split; [apply at_here|]. split; [|reflexivity].
  exists [(VS (str "12"), VL [VN (-5); VN 7]); (VS (str "zz"), VL [])], [(KInt 12, PArr [(KInt 0, PInt (-5)); (KInt 1, PInt 7)]); (KStr (str "zz"), PArr [])], [(KStr (str "zz"), PArr []); (KInt 12, PArr [(KInt 0, PInt (-5)); (KInt 1, PInt 7)])].
  split; [reflexivity|]. split; [reflexivity|]. split; [apply perm_swap|]. constructor; [|constructor; [|constructor]]; cbn [fst snd].
  - split; [left; exists 12; split; [unfold int64; lia|]; split; reflexivity|]. exists [VN (-5); VN 7], [PInt (-5); PInt 7]. split; [reflexivity|]. split; [reflexivity|]. constructor; [now exists (-5)|]. constructor; [now exists 7|constructor].
  - split; [|exists [], []; split; [reflexivity|]; split; [reflexivity|constructor]]. right. split; [|reflexivity]. intros z Hz E. pose proof (f_equal num_of E) as E'. rewrite num_of_show in E'. vm_compute in E'. subst z. vm_compute in E. discriminate E.
Qed.
Example C98_call_nonvacuous : proper_call sg (str "swap", [PInt 3; arg]) /\ proper_call sg (str "inc", [PInt 5]).
Proof.
  split.
  - exists pt, [CInt true 1; pt], [VN 3; argv]. split; [now left|]. split.
    + constructor; [num|]. constructor; [exact argv_typed|constructor].
    + constructor; [exists 3; now split|]. constructor; [exact arg_represents|constructor].
  - exists (CInt false 4), [CInt false 4], [VN 5]. split; [right; now left|]. split.
    + constructor; [num|constructor].
    + constructor; [|constructor]. exists 5. now split.
Qed.
(** A session: an object with a map as argument and as result, an unsigned number, a string; PHP does not mind the case of names of functions. *)
Example C98_case_session : run 1 svc 0 2 [] 2 words [sg] (str "geo") [(str "swap", [PInt 3; arg]); (str "inc", [PInt 4294967294]); (str "INC", [PInt 4294967295]); (str "e", [])] =
  (Val [PObj (str "point") [(str "x", PInt (-9)); (str "tags", PArr [(KInt 12, PArr [(KInt 0, PInt (-5)); (KInt 1, PInt 7)]); (KStr (str "zz"), PArr [])])]; PInt 4294967295; PInt 0; PStr [65]], 4).
Proof. vm_compute. reflexivity. Qed.

(** What the services whose types or values are not covered get.  The first is [suitable] even; one procedure [e] each, which returns [v] and counts. *)
Definition one (ret : cty) (v : val) : list ssig * service Z :=
  ([{| s_name := str "s"; s_procs := [(str "e", (ret, [])); (str "next", (CInt true 4, []))] |}],
   [(str "e", {| f_args := []; f_ret := wire ret; f_body := fun a _ => (a + 1, Ret v) |}); (str "next", {| f_args := []; f_ret := TNum 4 true; f_body := fun a _ => (a + 1, Ret (VN a)) |})]).
Definition calls (c : list ssig * service Z) (cuts : list nat) : pres (list pv) * Z := run 1 (snd c) 0 1 cuts 3 words (fst c) (str "s") [(str "e", []); (str "next", [])].
(** An empty string is read as false: fread refuses to read nothing. *)
Theorem C98_empty_string_refuted : carried CString /\ has_type (wire CString) (VS []) /\ calls (one CString (VS [])) [] = (Val [PBool false; PInt 1], 2).
Proof. split; [constructor|]. split; [text|]. vm_compute. reflexivity. Qed.
(** In a map, the key that is empty becomes 0, and may replace the value of 0. *)
Theorem C98_empty_key_refuted : carried (CMap CString (CInt true 4)) /\ has_type (wire (CMap CString (CInt true 4))) (VL [VP (VS []) (VN 5); VP (VS (str "0")) (VN 6)]) /\
  calls (one (CMap CString (CInt true 4)) (VL [VP (VS []) (VN 5); VP (VS (str "0")) (VN 6)])) [] = (Val [PArr [(KInt 0, PInt 6)]; PInt 1], 2).
Proof.
  split; [constructor; [constructor|constructor; cbn; auto]|]. split; [|vm_compute; reflexivity].
  exists [(VS [], VN 5); (VS (str "0"), VN 6)]. split; [reflexivity|]. split; [unfold small; vm_compute; reflexivity|]. split; [|repeat constructor].
  constructor; [split; [text|num]|]. constructor; [split; [text|num]|constructor].
Qed.
(** A number of eight bytes is not read: the result is null, and its bytes stay for the next call, which fails. *)
Theorem C98_long_refuted : calls (one (CInt true 8) (VN 7)) [] = (Exn (str "connection establish failed"), 1) /\
  run 1 (snd (one (CInt true 8) (VN 7))) 0 1 [] 3 words (fst (one (CInt true 8) (VN 7))) (str "s") [(str "e", [])] = (Val [PNull], 1).
Proof. split; vm_compute; reflexivity. Qed.
(** A float of four bytes is read as eight, of which only four come: null. *)
Theorem C98_float_refuted : calls (one (CFloat 4) (VN 1065353216)) [] = (Val [PNull; PInt 1], 2).
Proof. vm_compute. reflexivity. Qed.
(** bool, char: the classes are not there, the client cannot be made at all. *)
Theorem C98_bool_refuted : calls (one CBool (VB true)) [] = (Fatal, 0) /\ calls (one CChar (VN 65)) [] = (Fatal, 0).
Proof. split; vm_compute; reflexivity. Qed.
(** A stream: the file does not parse. *)
Theorem C98_stream_refuted : calls (one CStream (VS (str "x"))) [] = (Fatal, 0) /\
  loads words (prog (fst (one CStream (VS (str "x"))))) = false /\ loads words (prog (fst (one CBool (VB true)))) = true.
Proof. repeat split; vm_compute; reflexivity. Qed.
(** Two classes of the same name: one of them is read like the other. *)
Definition two : list ssig * service Z :=
  let a := CClass [OName (str "p"); ONamed (str "x") (CInt true 4)] in let b := CClass [OName (str "p"); ONamed (str "y") (CInt true 4); ONamed (str "z") (CInt true 4)] in
  ([{| s_name := str "s"; s_procs := [(str "e", (a, [])); (str "next", (b, []))] |}],
   [(str "e", {| f_args := []; f_ret := wire a; f_body := fun n _ => (n + 1, Ret (VP (VN 5) (VL []))) |});
    (str "next", {| f_args := []; f_ret := wire b; f_body := fun n _ => (n + 1, Ret (VP (VN 5) (VP (VN 6) (VL [])))) |})]).
Theorem C98_same_name_refuted : calls two [] = (Hang, 1).
Proof. vm_compute. reflexivity. Qed.
(** fread may get less than it asked for: the string is cut off, and its rest is taken for the answer to the next call. *)
Theorem C98_cut_refuted : calls (one CString (VS (str "hello"))) [] = (Val [PStr (str "hello"); PInt 1], 2) /\
  run 1 (snd (one CString (VS (str "hello")))) 0 1 [4; 10; 4; 2; 4; 1]%nat 3 words (fst (one CString (VS (str "hello")))) (str "s") [(str "e", [])] = (Val [PStr (str "he")], 1).
Proof. split; vm_compute; reflexivity. Qed.

Print Assumptions C98_session_partial.
Print Assumptions C98_version_refuted.
Print Assumptions C98_empty_string_refuted.
Print Assumptions C98_empty_key_refuted.
Print Assumptions C98_long_refuted.
Print Assumptions C98_float_refuted.
Print Assumptions C98_bool_refuted.
Print Assumptions C98_stream_refuted.
Print Assumptions C98_same_name_refuted.
Print Assumptions C98_cut_refuted.
