(** Model of the descriptors of the socket classes: stream_socket and server_socket (src/network/socket.cpp:71-198, 320-395,
    429-564), mprpc::socket (src/network/mprpc/socket.cpp), the descriptor of object_stream (object_stream.cpp:53-65), and
    what rpc_client.cpp:48-75 and rpc_server.cpp:137-153 do with them.
    The kernel is an oracle: the n-th call gets the n-th answer.  The kernel never hands out a number which is open in the
    process; the rest of the process opens and closes descriptors of its own between any two calls.
    Simplifications: buffers and data are in Socket_Model; a call which is retried after EINTR is logged once, unless it is ::close;
    running out of memory is not modelled; addresses are numbers, and the resolver's answer is given. *)
From Verif Require Import Common Fd_Spec.
Local Open Scope Z_scope.

(** One answer.  [others]: the descriptors of the rest of the process at that time.  [intrs]: how often ::close fails with EINTR
    before the final answer; for each whether the descriptor is released nevertheless (it is on Linux, POSIX leaves it open), and
    what the rest of the process has open then.  [yes]: whether the call succeeds, [shut]: whether it does if it is ::close
    (which releases the descriptor in either case).  [val]: the new descriptor (if it is free), or
    the port that getsockname reports. *)
Record ans := mkA { others : list Z; intrs : list (bool * list Z); yes : bool; shut : bool; val : Z }.
Record kern := mkK { calls : nat; mine : list Z; oth : list Z; log : list ev }.
Definition start : kern := mkK 0 [] [] [].

Definition M (A : Type) : Type := kern -> A * kern.
Definition ret {A} (a : A) : M A := fun k => (a, k).
Definition bind {A B} (m : M A) (f : A -> M B) : M B := fun k => let (a, k) := m k in f a k.
Notation "'do' x <- m ; f" := (bind m (fun x => f)) (at level 200, x pattern, m at level 100, f at level 200).

Section Kernel.
Context (orc : nat -> ans).

Definition outside (m l : list Z) : list Z := filter (fun x => (0 <=? x) && negb (mem x m)) l.
(** a number that is not open: the kernel's choice *)
Definition pick (k : kern) (v : Z) : Z :=
  if (0 <=? v) && negb (mem v (mine k)) && negb (mem v (oth k)) then v else 1 + fold_right Z.max 0 (mine k ++ oth k).
(** the next answer, after the rest of the process has done something *)
Definition next (k : kern) : ans * kern :=
  let a := orc (calls k) in (a, mkK (S (calls k)) (mine k) (outside (mine k) (others a)) (log k)).
Definition note (e : ev) (k : kern) : kern := mkK (calls k) (mine k) (oth k) (log k ++ [e]).

(** ::socket *)
Definition sys_socket : M Z := fun k =>
  let (a, k) := next k in
  if yes a then let fd := pick k (val a) in (fd, mkK (calls k) (fd :: mine k) (oth k) (log k ++ [Gave fd])) else (-1, k).
(** a call on a descriptor *)
Definition is_open (fd : Z) (k : kern) : bool := mem fd (mine k) || mem fd (oth k).
Definition sys_on (c : call) (fd : Z) : M bool := fun k =>
  let (a, k) := next k in let ok := yes a && is_open fd k in (ok, note (On c fd ok) k).
Definition sys_name (fd : Z) : M (bool * Z) := fun k =>
  let (a, k) := next k in let ok := yes a && is_open fd k in (ok, val a, note (On KName fd ok) k).
(** ::accept *)
Definition sys_accept (fd : Z) : M Z := fun k =>
  let (a, k) := next k in
  let ok := yes a && is_open fd k in
  let k := note (On KAccept fd ok) k in
  if ok then let nfd := pick k (val a) in (nfd, mkK (calls k) (nfd :: mine k) (oth k) (log k ++ [Gave nfd])) else (-1, k).
(** ::close: an attempt that releases (if fd is open at all), or not *)
Definition drop (fd : Z) (gone : bool) (k : kern) : kern :=
  let k := note (Close fd gone) k in
  if gone then mkK (calls k) (remove Z.eq_dec fd (mine k)) (remove Z.eq_dec fd (oth k)) (log k) else k.
Definition intr1 (fd : Z) (k : kern) (i : bool * list Z) : kern :=
  if is_open fd k then let k := drop fd (fst i) k in mkK (calls k) (mine k) (outside (mine k) (snd i)) (log k) else note (Close fd false) k.
(** syscall.h:38-44, NO_INTR around ::close *)
Definition sys_close (fd : Z) : M bool := fun k =>
  let (a, k) := next k in
  let k := fold_left (intr1 fd) (intrs a) k in
  let o := is_open fd k in (shut a && o, drop fd o k).
(** ::close without NO_INTR: interrupted or not, it is called once *)
Definition sys_close_once (fd : Z) : M unit := fun k =>
  let (a, k) := next k in
  match intrs a with
  | i :: _ => (tt, intr1 fd k i)
  | [] => (tt, drop fd (is_open fd k) k)
  end.

(** * stream_socket *)
Record stream := mkS { sconn : bool; ssock : Z; raddr : Z; rport : Z }.
(** socket.cpp:167-177 *)
Definition s_open (s : stream) : M (bool * stream) :=
  if 0 <=? ssock s then ret (false, s)
  else do fd <- sys_socket; if fd <? 0 then ret (false, mkS (sconn s) (-1) (raddr s) (rport s)) else ret (true, mkS (sconn s) fd (raddr s) (rport s)).
(** socket.cpp:71-83 *)
Definition s_new : M stream := do (_, s) <- s_open (mkS false (-1) 0 0); ret s.
(** socket.cpp:179-198 *)
Definition s_close (s : stream) : M (bool * stream) :=
  if ssock s <? 0 then ret (false, s)
  else do ok <- sys_close (ssock s); if ok then ret (true, mkS false (-1) 0 0) else ret (false, mkS false (-1) (raddr s) (rport s)).
(** socket.cpp:119-133: the addresses in order; the index of the one that answers *)
Fixpoint try_all (fd : Z) (ips : list Z) (port : Z) : M (option Z) :=
  match ips with
  | [] => ret None
  | ip :: ips => do ok <- sys_on (KConnect ip port) fd; if ok then ret (Some ip) else try_all fd ips port
  end.
(** socket.cpp:98-138 *)
Definition s_connect (ips : list Z) (port : Z) (s : stream) : M (bool * stream) :=
  if ssock s <? 0 then ret (false, s) else
  let go (s : stream) : M (bool * stream) :=
    do r <- try_all (ssock s) ips port;
    match r with
    | Some ip => ret (true, mkS true (ssock s) ip port)
    | None => do (_, s) <- s_close s; ret (false, s)
    end in
  if sconn s then
    do (c, s) <- s_close s;
    if negb c then ret (false, s) else
    do (o, s) <- s_open s;
    if negb o then ret (false, s) else go s
  else go s.
(** socket.cpp:140-145 *)
Definition s_shutdown (s : stream) : M (bool * stream) :=
  do (c, s) <- s_close s;
  if negb c then ret (false, s) else
  do (o, s) <- s_open s; ret (o, s).
(** socket.cpp:152-165 *)
Definition s_bind (fd addr port : Z) (s : stream) : M (bool * stream) :=
  if fd <? 0 then ret (false, s) else
  do (c, s) <- (if 0 <=? ssock s then s_close s else ret (true, s));
  if negb c then ret (false, s) else ret (true, mkS true fd addr port).
(** socket.cpp:367-395: recv and send *)
Definition s_io (s : stream) : M stream :=
  if negb (sconn s) then ret s
  else do ok <- sys_on KIo (ssock s); if ok then ret s else do (_, s) <- s_close s; ret s.
(** socket.cpp:85-89: flush (272-281) calls send until all is sent or a call fails, at most n times *)
Fixpoint s_flush (n : nat) (s : stream) : M stream :=
  match n with O => ret s | S n => do s <- s_io s; s_flush n s end.
Definition s_delete (n : nat) (s : stream) : M unit := do s <- s_flush n s; do (_, _) <- s_close s; ret tt.
(** socket.cpp:320-365: each call for an option *)
Definition s_option (s : stream) : M bool := if ssock s <? 0 then ret false else sys_on KOpt (ssock s).

(** * server_socket *)
Record server := mkV { vsock : Z; vconn : bool; vport : Z }.
(** socket.cpp:429-435 *)
Definition v_new : server := mkV (-1) false 65535.
(** socket.cpp:442-500; None: failed after ::socket, and closed *)
Definition v_setup (fd port backlog : Z) : M (option Z) :=
  let fail : M (option Z) := do _ <- sys_close fd; ret None in
  do ok <- sys_on KReuse fd; if negb ok then fail else
  do ok <- sys_on (KBind port) fd; if negb ok then fail else
  do ok <- sys_on KLinger fd; if negb ok then fail else
  do ok <- sys_on (KListen backlog) fd; if negb ok then fail else
  if negb (port =? 0) then ret (Some port)
  else do (ok, p) <- sys_name fd; if negb ok then fail else ret (Some (p mod 2 ^ 16)).
Definition v_create (port backlog : Z) (v : server) : M (bool * server) :=
  do fd <- sys_socket;
  if fd <? 0 then ret (false, mkV (-1) (vconn v) (vport v)) else
  do r <- v_setup fd port backlog;
  match r with
  | None => ret (false, mkV fd (vconn v) (vport v))
  | Some p => ret (true, mkV fd true p)
  end.
(** socket.cpp:502-519 *)
Definition v_close (v : server) : M (bool * server) :=
  if negb (vconn v) then ret (false, v) else do ok <- sys_close (vsock v); ret (ok, mkV (-1) false (vport v)).
(** socket.cpp:536-543: the second option is set if the first succeeded *)
Definition v_timeout (v : server) : M bool :=
  if negb (vconn v) then ret false else do ok <- sys_on KOpt (vsock v); if ok then sys_on KOpt (vsock v) else ret false.
(** socket.cpp:545-564; what bind_socket returns is not looked at *)
Definition v_accept (addr port : Z) (v : server) : M (option stream) :=
  if negb (vconn v) then ret None else
  do c <- sys_accept (vsock v);
  if c <? 0 then ret None else
  do s <- s_new; do (_, s) <- s_bind c addr port s; ret (Some s).

(** * mprpc::socket: the number fd *)
(** mprpc/socket.cpp:59-74 *)
Definition m_close (fd : Z) : M (bool * Z) :=
  if fd <? 0 then ret (false, fd) else do _ <- sys_on KDown fd; do ok <- sys_close fd; ret (ok, -1).
(** mprpc/socket.cpp:114-139 *)
Definition connect_sock (ips : list Z) (port : Z) : M Z :=
  do fd <- sys_socket;
  if fd <? 0 then ret (-1) else
  do r <- try_all fd ips port;
  match r with Some _ => ret fd | None => do _ <- sys_close fd; ret (-1) end.
(** mprpc/socket.cpp:141-186 *)
Definition listen_sock (port backlog : Z) : M Z :=
  do fd <- sys_socket;
  if fd <? 0 then ret (-1) else
  let fail : M Z := do _ <- sys_close fd; ret (-1) in
  do ok <- sys_on KReuse fd; if negb ok then fail else
  do ok <- sys_on (KBind port) fd; if negb ok then fail else
  do ok <- sys_on KLinger fd; if negb ok then fail else
  do ok <- sys_on (KListen backlog) fd; if negb ok then fail else ret fd.
(** mprpc/socket.cpp:77-97 *)
Definition m_take (get : M Z) (fd : Z) : M (bool * Z) :=
  do nfd <- get; if nfd <? 0 then ret (false, fd) else do (_, _) <- m_close fd; ret (true, nfd).
Definition m_connect (ips : list Z) (port : Z) (fd : Z) : M (bool * Z) := m_take (connect_sock ips port) fd.
Definition m_listen (port backlog : Z) (fd : Z) : M (bool * Z) := m_take (listen_sock port backlog) fd.
(** mprpc/socket.cpp:189-253: two options, the second if the first could be set *)
Definition m_option (fd : Z) : M bool :=
  if fd <? 0 then ret false else do ok <- sys_on KOpt fd; if ok then sys_on KOpt fd else ret false.
(** object_stream.cpp:61-65 *)
Definition o_delete (fd : Z) : M unit := do _ <- sys_on KDown fd; sys_close_once fd.
(** rpc_server.cpp:140-153: a connection accepted on the descriptor becomes that of an object_stream; None: nothing came of it *)
Definition serve (timeout : bool) (fd : Z) : M (option Z) :=
  do s <- sys_accept fd;
  if s <? 0 then ret None else
  do _ <- m_option s;
  do ok <- (if timeout then m_option s else ret true);
  if ok then ret (Some s) else do (_, _) <- m_close s; ret None.
(** rpc_client.cpp:48-75: two attempts, each with a socket of its own *)
Fixpoint get_connection (n : nat) (ips : list Z) (port : Z) (timeout : bool) : M (option Z) :=
  match n with
  | O => ret None
  | S n =>
      do (ok, fd) <- m_connect ips port (-1);
      if negb ok then get_connection n ips port timeout else
      do ok <- (if timeout then m_option fd else ret true);
      do ok <- (if ok then m_option fd else ret false);
      if ok then ret (Some fd) else do (_, _) <- m_close fd; get_connection n ips port timeout
  end.

(** * Programs that use the classes *)
Inductive obj := OStream (s : stream) | OServer (v : server) | OSock (fd : Z) | OObject (fd : Z).
(** the objects made so far, None once deleted; the descriptor that a thread of mprpc's server has read from the socket *)
Record world := mkW { objs : list (option obj); reg : Z }.
Definition empty : world := mkW [] (-1).
Inductive op :=
| NewStream | NewServer | NewSock
| NewObject (ips : list Z) (port : Z)                         (* object_stream.cpp:57-59 *)
| Client (ips : list Z) (port : Z) (timeout : bool)           (* rpc_client::get_connection *)
| Connect (i : nat) (ips : list Z) (port : Z)                 (* of a stream_socket or an mprpc::socket *)
| Shutdown (i : nat)                                          (* stream_socket::shutdown *)
| Io (i : nat)                                                (* a call of ::recv or ::send, or object_stream::read or write *)
| Option_ (i : nat)
| Listen (i : nat) (port backlog : Z)                         (* server_socket::create, mprpc::socket::listen *)
| CloseOp (i : nat)                                           (* of a server_socket or an mprpc::socket *)
| Accept (i : nat) (addr port : Z)                            (* server_socket::accept *)
| Serve (i : nat) (timeout : bool)                            (* rpc_server::process, with nothing happening between sock.get() and ::accept *)
| Delete (i : nat) (n : nat)
| Copy (i : nat)                                              (* stream_socket and server_socket have the implicit copy constructor *)
| Fetch (i : nat) | ServeAt (timeout : bool).                 (* rpc_server.cpp:141, in two steps: sock.get(), and ::accept *)

Definition get (w : world) (i : nat) : option obj := match nth_error (objs w) i with Some o => o | None => None end.
Definition put (w : world) (i : nat) (o : option obj) : world := mkW (firstn i (objs w) ++ o :: skipn (S i) (objs w)) (reg w).
Definition add (w : world) (o : obj) : world := mkW (objs w ++ [Some o]) (reg w).
Definition add_opt (w : world) (fd : option Z) : world := match fd with Some fd => add w (OObject fd) | None => w end.

(** an operation that its object does not have, or on no object, does nothing *)
Definition step (o : op) (w : world) : M world :=
  match o with
  | NewStream => do s <- s_new; ret (add w (OStream s))
  | NewServer => ret (add w (OServer v_new))
  | NewSock => ret (add w (OSock (-1)))
  | NewObject ips port => do fd <- connect_sock ips port; ret (add w (OObject fd))
  | Client ips port t => do r <- get_connection 2 ips port t; ret (add_opt w r)
  | Connect i ips port =>
      match get w i with
      | Some (OStream s) => do (_, s) <- s_connect ips port s; ret (put w i (Some (OStream s)))
      | Some (OSock fd) => do (_, fd) <- m_connect ips port fd; ret (put w i (Some (OSock fd)))
      | _ => ret w
      end
  | Shutdown i => match get w i with Some (OStream s) => do (_, s) <- s_shutdown s; ret (put w i (Some (OStream s))) | _ => ret w end
  | Io i =>
      match get w i with
      | Some (OStream s) => do s <- s_io s; ret (put w i (Some (OStream s)))
      | Some (OObject fd) => do _ <- sys_on KIo fd; ret w
      | _ => ret w
      end
  | Option_ i =>
      match get w i with
      | Some (OStream s) => do _ <- s_option s; ret w
      | Some (OServer v) => do _ <- v_timeout v; ret w
      | Some (OSock fd) => do _ <- m_option fd; ret w
      | _ => ret w
      end
  | Listen i port backlog =>
      match get w i with
      | Some (OServer v) => do (_, v) <- v_create port backlog v; ret (put w i (Some (OServer v)))
      | Some (OSock fd) => do (_, fd) <- m_listen port backlog fd; ret (put w i (Some (OSock fd)))
      | _ => ret w
      end
  | CloseOp i =>
      match get w i with
      | Some (OServer v) => do (_, v) <- v_close v; ret (put w i (Some (OServer v)))
      | Some (OSock fd) => do (_, fd) <- m_close fd; ret (put w i (Some (OSock fd)))
      | _ => ret w
      end
  | Accept i addr port =>
      match get w i with
      | Some (OServer v) => do r <- v_accept addr port v; ret (match r with Some s => add w (OStream s) | None => w end)
      | _ => ret w
      end
  | Serve i t => match get w i with Some (OSock fd) => do r <- serve t fd; ret (add_opt w r) | _ => ret w end
  | Delete i n =>
      match get w i with
      | Some (OStream s) => do _ <- s_delete n s; ret (put w i None)
      | Some (OServer v) => do (_, _) <- v_close v; ret (put w i None)
      | Some (OSock fd) => do (_, _) <- m_close fd; ret (put w i None)
      | Some (OObject fd) => do _ <- o_delete fd; ret (put w i None)
      | None => ret w
      end
  | Copy i =>
      match get w i with
      | Some (OStream s) => ret (add w (OStream s))
      | Some (OServer v) => ret (add w (OServer v))
      | _ => ret w
      end
  | Fetch i => match get w i with Some (OSock fd) => ret (mkW (objs w) fd) | _ => ret w end
  | ServeAt t => do r <- serve t (reg w); ret (add_opt w r)
  end.
Fixpoint run (p : list op) (w : world) : M world := match p with [] => ret w | o :: p => do w <- step o w; run p w end.

(** A program that takes care: it copies no socket, does not stop mprpc's server while a thread is about to accept, and does not
    call create for a server_socket that is alive. *)
Definition careful1 (o : op) (w : world) : bool :=
  match o with
  | Copy _ | ServeAt _ => false
  | Listen i _ _ => match get w i with Some (OServer v) => negb (vconn v) | _ => true end
  | _ => true
  end.
Fixpoint careful (p : list op) (w : world) (k : kern) : bool :=
  match p with [] => true | o :: p => careful1 o w && (let (w, k) := step o w k in careful p w k) end.
End Kernel.
