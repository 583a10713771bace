(** Model of src/network/rpc/base.cpp:168-231 for a server with timeout_sec > 0, with the clients of Rpc_Model: a worker that has waited too long for bytes
    in a read finds its stream failed (socket.cpp's read returns -1 as at the end of the connection, network/iostream.h:119-131), leaves its loop and
    closes the connection; what it writes before still reaches the client.  set_timeout succeeds (C109); a worker does not wait in a write. *)
From Verif Require Import Common Archive_Model Rpc_Spec Rpc_Model RpcTime_Spec.
Local Open Scope Z_scope.

Section timeouts.
Context {A : Type} (ver : Z) (svc : service A).
(** base.cpp:174-178, 183-191: the worker of [c] has waited too long. *)
Definition expire (c : nat) (w : world A) : outcome (world A) :=
  match ss w c with
  | Some k => match pending k with Some u => run_worker ver svc true c k u w | None => Ok w end
  | None => Ok w
  end.
(** caller.h:78-82: behind oa.flush(). *)
Definition reply (r : request) (w : world A) : outcome (result * world A) :=
  let c := r_client r in
  let* (code, w3) := recv TStr (VS []) c w in
  match code with
  | None => Ok (Hangs, w3)
  | Some cd =>
      if negb (str_eqb (chars cd) (str "OK")) then let* x := gen_exception (chars cd) in Ok (x, w3)
      else let* (ret, w4) := recv (r_ret r) (uninit (r_ret r)) c w3 in
           match ret with
           | None => Ok (Hangs, w4)
           | Some v => if is_good c w4 then Ok (Value v, w4) else Ok (Error (str "cannot recv return value"), w4)
           end
  end.
(** caller.h:66-82: a call of which [n] bytes arrive in time. *)
Definition late (n : nat) (r : request) (w : world A) : outcome (result * world A) :=
  let c := r_client r in
  let* (g, w1) := get_connection ver svc 2 c w in
  match g with
  | Stuck => Ok (Hangs, w1)
  | Gave_up => Ok (No_connection, w1)
  | Got =>
      if negb (is_good c w1) then Ok (No_connection, w1) else
      let b := wstr (r_name r) ++ wint (r_ver r) ++ write_args (r_args r) (r_vals r) in
      let* w2 := send ver svc c (firstn n b) w1 in
      let* w3 := expire c w2 in
      let* w4 := send ver svc c (skipn n b) w3 in
      reply r w4
  end.
Definition act1 (t : act) (w : world A) : outcome (list result * world A) :=
  match t with
  | Call r => let* (x, w) := call ver svc r w in Ok ([x], w)
  | Late n r => let* (x, w) := late n r w in Ok ([x], w)
  | Quiet c => let* w := expire c w in Ok ([], w)
  end.
Fixpoint acts (ts : list act) (w : world A) : outcome (list result * world A) :=
  match ts with
  | [] => Ok ([], w)
  | t :: r => let* (x, w1) := act1 t w in let* (xs, w2) := acts r w1 in Ok (x ++ xs, w2)
  end.
End timeouts.
