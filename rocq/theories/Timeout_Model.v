(** Model of the timeouts that are handed to the system: src/network/socket.cpp:327-338, 536-543,
    src/network/mprpc/socket.cpp:241-252, src/concurrent/internal.cpp:40-46 with condition.cpp:141, rwmutex.cpp:101, 122 and
    src/system/time_util.h:52-54.  Doubles are rational numbers or not finite (Thread_Spec); rnd rounds to double.
    Conversion of a double that the integer type cannot hold is UB. *)
From Verif Require Import Common Thread_Spec Thread_Model.
From Coq Require Import QArith Qround.
Local Open Scope Z_scope.

Definition to_int32 (q : Q) : outcome Z := let z := trunc q in if (- 2 ^ 31 <=? z) && (z <? 2 ^ 31) then Ok z else UB.
Definition less0 (d : dbl) : bool := match d with Fin q => negb (Qle_bool 0 q) | Inf neg => neg | NaN => false end.

(** socket.cpp:331-333, mprpc/socket.cpp:245-247 *)
Definition timeval (rnd : Q -> Q) (q : Q) : outcome (Z * Z) :=
  let* s := to_int32 q in
  let tv_sec := Z.max 0 s in
  let* u := to_int32 (rnd (rnd (q - rnd (inject_Z tv_sec)) * 1000000)%Q) in
  Ok (tv_sec, Z.min 999999 (Z.max 0 u)).
(** socket.cpp:327-338: what setsockopt is called with; None: it is not called, false is returned *)
Definition set_timeo (rnd : Q -> Q) (sec : dbl) : outcome (option (Z * Z)) :=
  if less0 sec then Ok None
  else match sec with Fin q => let* tv := timeval rnd q in Ok (Some tv) | _ => UB end.
(** mprpc/socket.cpp:241-252, for a socket that is open *)
Definition set_timeout_sockopt (rnd : Q -> Q) (sec : dbl) : outcome (option (Z * Z)) :=
  match sec with Fin q => let* tv := timeval rnd q in Ok (Some tv) | _ => UB end.

(** internal.cpp:40-46 *)
Definition to_timespec (rnd : Q -> Q) (q : Q) : outcome (Z * Z) :=
  let* s := to_int64 q in
  let tv_sec := Z.max 0 s in
  let* n := to_int64 (rnd (rnd (q - rnd (inject_Z tv_sec)) * 1000000000)%Q) in
  Ok (tv_sec, Z.min 999999999 (Z.max 0 n)).
(** time_util.h:52-54 *)
Definition clock_double (rnd : Q -> Q) (s u : Z) : Q := rnd (rnd (inject_Z s) + rnd (inject_Z u * rnd (1 # 1000000)))%Q.
(** condition.cpp:141, rwmutex.cpp:101, 122; [s], [u]: the clock, in seconds and microseconds *)
Definition deadline (rnd : Q -> Q) (s u : Z) (sec : dbl) : outcome (Z * Z) :=
  match sec with Fin q => to_timespec rnd (rnd (clock_double rnd s u + q))%Q | _ => UB end.
