(** The options of a socket as Linux keeps them (socket(7), tcp(7); numbers as on x86). *)
From Verif Require Import Common.
Local Open Scope Z_scope.

Record options := mkO { nodelay : bool; keepalive : bool; defer_accept : bool; reuseaddr : bool; linger : option Z; recv_timeout : Z * Z; send_timeout : Z * Z }.
Definition fresh : options := mkO false false false false None (0, 0) (0, 0).
Inductive value := Int (n : Z) | Linger (on sec : Z) | Timeval (sec usec : Z).
Definition true_ (n : Z) : bool := negb (n =? 0).
(** setsockopt(fd, level, name, value): None: refused.  Level 1: SOL_SOCKET with SO_REUSEADDR 2, SO_KEEPALIVE 9, SO_LINGER 13, SO_RCVTIMEO 20, SO_SNDTIMEO 21;
    level 6: SOL_TCP with TCP_NODELAY 1, TCP_DEFER_ACCEPT 9. *)
Definition sets (level name : Z) (v : value) (o : options) : option options :=
  let 'mkO nd ka da ra li rt st := o in
  match v with
  | Int n =>
      if (level =? 6) && (name =? 1) then Some (mkO (true_ n) ka da ra li rt st)
      else if (level =? 6) && (name =? 9) then Some (mkO nd ka (true_ n) ra li rt st)
      else if (level =? 1) && (name =? 9) then Some (mkO nd (true_ n) da ra li rt st)
      else if (level =? 1) && (name =? 2) then Some (mkO nd ka da (true_ n) li rt st)
      else None
  | Linger on sec => if (level =? 1) && (name =? 13) then Some (mkO nd ka da ra (if on =? 0 then None else Some sec) rt st) else None
  | Timeval s u =>
      if (0 <=? u) && (u <? 1000000) then
        if (level =? 1) && (name =? 20) then Some (mkO nd ka da ra li (s, u) st)
        else if (level =? 1) && (name =? 21) then Some (mkO nd ka da ra li rt (s, u))
        else None
      else None
  end.
(** what the system says to a call: interrupted by a signal, failed, or done *)
Inductive answer := Intr | Failed | Done.
(** the options named are alike; all the others are *)
Definition same_but_nodelay (o o' : options) : Prop :=
  keepalive o' = keepalive o /\ defer_accept o' = defer_accept o /\ reuseaddr o' = reuseaddr o /\ linger o' = linger o /\ recv_timeout o' = recv_timeout o /\ send_timeout o' = send_timeout o.
Definition same_but_timeouts (o o' : options) : Prop :=
  nodelay o' = nodelay o /\ keepalive o' = keepalive o /\ defer_accept o' = defer_accept o /\ reuseaddr o' = reuseaddr o /\ linger o' = linger o.
