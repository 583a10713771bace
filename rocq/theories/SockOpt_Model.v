(** Model of the calls of setsockopt in src/network/socket.cpp:320-365, 442-500, 536-543 and src/network/mprpc/socket.cpp:141-252.  The system answers the calls in order; while answers
    are missing the call is not over (Fuel).  The structures of options are as in SockOpt_Spec, the times as in Timeout_Model; descriptors are in Fd_Model. *)
From Verif Require Import Common Thread_Spec Thread_Model Timeout_Model SockOpt_Spec.
From Coq Require Import QArith.
Local Open Scope Z_scope.

(** a socket: its descriptor (negative: none) and what the system keeps for it; the answers to come *)
Definition st : Type := options * list answer.
(** syscall.h:38-44 around setsockopt; true: SUCCEEDED *)
Fixpoint no_intr (level name : Z) (v : value) (o : options) (l : list answer) : outcome (bool * st) :=
  match l with
  | [] => Fuel
  | Intr :: l => no_intr level name v o l
  | Failed :: l => Ok (false, (o, l))
  | Done :: l => match sets level name v o with Some o' => Ok (true, (o', l)) | None => Ok (false, (o, l)) end
  end.
Definition setsockopt (level name : Z) (v : value) (s : st) : outcome (bool * st) := no_intr level name v (fst s) (snd s).
(** socket.cpp:352-365, mprpc/socket.cpp:194-207: SOL_TCP 6, TCP_NODELAY 1, SOL_SOCKET 1, TCP_DEFER_ACCEPT 9 *)
Definition set_nodelay (fd : Z) (on : bool) (s : st) : outcome (bool * st) :=
  if fd <? 0 then Ok (false, s) else
  let n := if on then 1 else 0 in
  let* (ok, s) := setsockopt 6 1 (Int n) s in
  if negb ok then Ok (false, s) else setsockopt 1 9 (Int n) s.
(** socket.cpp:327-350 (checked: sec<0 is refused), mprpc/socket.cpp:231-252 *)
Definition set_timeo (checked : bool) (rnd : Q -> Q) (fd name : Z) (sec : dbl) (s : st) : outcome (bool * st) :=
  if fd <? 0 then Ok (false, s) else
  let* tv := if checked then Timeout_Model.set_timeo rnd sec else Timeout_Model.set_timeout_sockopt rnd sec in
  match tv with None => Ok (false, s) | Some (a, b) => setsockopt 1 name (Timeval a b) s end.
(** socket.cpp:320-325, mprpc/socket.cpp:225-229: SO_RCVTIMEO 20, SO_SNDTIMEO 21 *)
Definition set_timeout (checked : bool) (rnd : Q -> Q) (fd : Z) (sec : dbl) (s : st) : outcome (bool * st) :=
  let* (ok, s) := set_timeo checked rnd fd 20 sec s in
  if negb ok then Ok (false, s) else set_timeo checked rnd fd 21 sec s.
(** socket.cpp:536-543: connected, timeout_sec; the descriptor is not negative when connected *)
Definition server_set_timeout (rnd : Q -> Q) (connected : bool) (timeout_sec : dbl) (sec : dbl) (s : st) : outcome (bool * dbl * st) :=
  if negb connected then Ok (false, timeout_sec, s) else
  let* (ok, s) := set_timeout true rnd 0 sec s in
  Ok (ok, if ok then sec else timeout_sec, s).
(** socket.cpp:452-478, mprpc/socket.cpp:151-177: the options of a listening socket; bind answers in between *)
Definition prepare_listen (bind_ok : bool) (s : st) : outcome (bool * st) :=
  let* (ok, s) := setsockopt 1 2 (Int 1) s in
  if negb ok then Ok (false, s) else
  if negb bind_ok then Ok (false, s) else setsockopt 1 13 (Linger 0 0) s.
