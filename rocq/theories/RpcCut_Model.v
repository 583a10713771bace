(** Model of src/network/rpc/caller.h:78-82 over a stream that holds some bytes and then ends, because the server, the network or the
    server's timeout for writing (base.cpp:174-178, C109) has cut the reply. *)
From Verif Require Import Common Archive_Model Rpc_Spec Rpc_Model.
Local Open Scope Z_scope.

Definition take_reply (ret : ty) (bs : list Z) : outcome result :=
  let* (code, s1) := read TStr (VS []) (bs, true) in                                            (* 78-79 *)
  if negb (str_eqb (chars code) (str "OK")) then gen_exception (chars code)                     (* 80 *)
  else let* (v, s2) := read ret (uninit ret) s1 in                                              (* 73, 81 *)
       Ok (if snd s2 then Value v else Error (str "cannot recv return value")).                 (* 82 *)
