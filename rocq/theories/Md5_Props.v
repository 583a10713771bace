(** C14: MD5. *)
From Verif Require Import Common Md5_Model Md5_Spec Md5_Proof.
Local Open Scope Z_scope.

(** For every byte string the digest is the one RFC 1321 defines, for whatever constants
    the table holds (with the RFC's constants it is the RFC's digest). *)
Theorem C14_md5_rfc1321 : forall T s, bytes s -> Z.of_nat (length s) < 2 ^ 64 -> md5sum T s = Ok (rfc1321 T s).
Proof. exact md5_rfc. Qed.
(** The printed form is the hexadecimal of the digest bytes. *)
Theorem C14_md5_text : forall T s, bytes s -> Z.of_nat (length s) < 2 ^ 64 ->
  omap md5_print (md5sum T s) = Ok (flat_map hexadecimal (digest_bytes (rfc1321 T s))).
Proof. intros T s Hs Hn. rewrite (md5_rfc T s Hs Hn). cbn [omap]. now rewrite md5_print_hexadecimal. Qed.
(** operator< is a strict total order. *)
Theorem C14_md5_order : forall x y z, (md5_lt x y = true \/ x = y \/ md5_lt y x = true) /\ md5_lt x x = false /\
  (md5_lt x y = true -> md5_lt y z = true -> md5_lt x z = true).
Proof. intros x y z. destruct (md5_lt_total x y) as (H1 & H2 & _). split; [exact H1|]. split; [exact H2|apply md5_lt_trans]. Qed.

(** The RFC's test suite. *)
Example C14_case : omap md5_print (md5sum rfc_T []) = Ok (str "d41d8cd98f00b204e9800998ecf8427e") /\
  omap md5_print (md5sum rfc_T (str "abc")) = Ok (str "900150983cd24fb0d6963f7d28e17f72") /\
  omap md5_print (md5sum rfc_T (str "abcdefghijklmnopqrstuvwxyz")) = Ok (str "c3fcd3d76192e4007dfb496cca67e13b") /\
  omap md5_print (md5sum rfc_T (str "12345678901234567890123456789012345678901234567890123456789012345678901234567890")) = Ok (str "57edf4a22be3c955ac49da2e2107b67a").
Proof. vm_compute. auto. Qed.
Example C14_hyp : bytes (str "abc") /\ Z.of_nat (length (str "abc")) < 2 ^ 64.
Proof. split; [repeat (apply Forall_cons; [unfold is_byte; vm_compute; split; congruence|]); apply Forall_nil|reflexivity]. Qed.

Print Assumptions C14_md5_rfc1321.
Print Assumptions C14_md5_text.
Print Assumptions C14_md5_order.
