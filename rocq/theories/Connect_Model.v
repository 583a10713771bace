(** Model of how a name becomes a connection: normal_dns_resolver (src/network/dns.cpp:59-97), the loops over addresses of
    stream_socket::connect (socket.cpp:118-137) and mprpc::socket::connect_sock (mprpc/socket.cpp:124-138), the peer of an accepted
    connection (socket.cpp:549-561), and the choice of the resolver (socket.cpp:91-117, mprpc/socket.cpp:99-112).
    The descriptors are in Fd_Model, the cached resolver in Dns_Model, ipv4_address in Ipv4_Model.
    getaddrinfo and ::connect are oracles; getnameinfo with NI_NUMERICHOST and inet_ntop print, and inet_addr reads, as documented.
    Running out of memory is not modelled. *)
From Verif Require Import Common NumText_Model Ipv4_Spec Ipv4_Model Connect_Spec.
Local Open Scope Z_scope.

(** htons, seen as bytes in memory, and ntohs *)
Definition htons (p : Z) : list Z := [p / 256; p mod 256].
Definition ntohs (b : list Z) : Z := match b with [h; l] => 256 * h + l | _ => 0 end.
(** getnameinfo with NI_NUMERICHOST, inet_ntop: an AF_INET address as text *)
Definition numeric (sa : sockaddr) : list Z :=
  match ip sa with [w; x; y; z] => show_int w ++ [46] ++ show_int x ++ [46] ++ show_int y ++ [46] ++ show_int z | _ => [] end.

(** inet_addr (inet(3)): decimal, octal after 0, hexadecimal after 0x; one to four parts, the last fills the rest; white space may follow *)
Definition digit_of (c : Z) : Z :=
  if (48 <=? c) && (c <=? 57) then c - 48
  else if (97 <=? c) && (c <=? 102) then c - 87 else if (65 <=? c) && (c <=? 70) then c - 55 else 99.
Fixpoint read (b acc : Z) (s : list Z) : Z * list Z :=
  match s with c :: r => if digit_of c <? b then read b (b * acc + digit_of c) r else (acc, s) | [] => (acc, []) end.
Definition part (s : list Z) : option (Z * list Z) :=
  match s with
  | c :: r =>
      if isdigit c then
        if c =? 48 then
          match r with
          | x :: h :: r' => if ((x =? 120) || (x =? 88)) && (digit_of h <? 16) then Some (read 16 0 (h :: r')) else Some (read 8 0 r)
          | _ => Some (read 8 0 r)
          end
        else Some (read 10 0 s)
      else None
  | [] => None
  end.
Definition isspace (c : Z) : bool := (c =? 32) || ((9 <=? c) && (c <=? 13)).
Fixpoint parts (k : nat) (s : list Z) : option (list Z) :=
  match k with
  | O => None
  | S k => match part s with
           | None => None
           | Some (v, rest) =>
               match rest with
               | [] => Some [v]
               | c :: r => if c =? 46 then option_map (cons v) (parts k r) else if isspace c then Some [v] else None
               end
           end
  end.
Definition small (v : Z) : bool := v <? 256.
Definition inet_addr (s : list Z) : list Z :=
  match parts 4 (c_str s) with
  | Some [a] => if a <? 2 ^ 32 then [a / 2 ^ 24; a / 2 ^ 16 mod 256; a / 256 mod 256; a mod 256] else [255; 255; 255; 255]
  | Some [a; b] => if small a && (b <? 2 ^ 24) then [a; b / 2 ^ 16; b / 256 mod 256; b mod 256] else [255; 255; 255; 255]
  | Some [a; b; c] => if small a && small b && (c <? 2 ^ 16) then [a; b; c / 256; c mod 256] else [255; 255; 255; 255]
  | Some [a; b; c; d] => if small a && small b && small c && small d then [a; b; c; d] else [255; 255; 255; 255]
  | _ => [255; 255; 255; 255]
  end.

Section World.
(** getaddrinfo for AF_INET and SOCK_STREAM: name and service to addresses; whether getnameinfo succeeds *)
Context (gai : list Z -> list Z -> option (list sockaddr)) (gni : sockaddr -> bool).

(** dns.cpp:75-87 *)
Fixpoint addresses (l : list sockaddr) : list addr :=
  match l with
  | [] => []
  | sa :: l => if gni sa then let a := parse (numeric sa) in if negb (eq a none) then a :: addresses l else addresses l
               else addresses l
  end.
(** dns.cpp:59-97 *)
Definition resolve (host : list Z) (port : Z) : list addr :=
  match gai (c_str host) (c_str (show_int port)) with None => [] | Some l => addresses l end.

(** socket.cpp:121-124, mprpc/socket.cpp:126-129 *)
Definition target (a : addr) (port : Z) : outcome sockaddr := let* t := to_string a in Ok (mkSa 2 (inet_addr t) (htons port)).
(** socket.cpp:120-134, mprpc/socket.cpp:125-135 with NO_INTR (syscall.h:38-44): the calls of ::connect with their answers, and the
    address that answered.  Fuel: the system has not answered yet. *)
Fixpoint again (sa : sockaddr) (a : addr) (rest : list answer -> outcome (option addr * list (sockaddr * answer))) (ans : list answer)
  : outcome (option addr * list (sockaddr * answer)) :=
  match ans with
  | [] => Fuel
  | Intr :: ans => let* (r, log) := again sa a rest ans in Ok (r, (sa, Intr) :: log)
  | Yes :: _ => Ok (Some a, [(sa, Yes)])
  | No :: ans => let* (r, log) := rest ans in Ok (r, (sa, No) :: log)
  end.
Fixpoint attempts (ips : list addr) (port : Z) (ans : list answer) : outcome (option addr * list (sockaddr * answer)) :=
  match ips with
  | [] => Ok (None, [])
  | a :: ips => let* sa := target a port in again sa a (attempts ips port) ans
  end.
(** connected, remote_addr(), remote_port() *)
Record conn := mkC { connected : bool; raddr : addr; rport : Z }.
(** socket.cpp:118-137, with the resolver's answer, for a socket that is not connected *)
Definition connect_ips (ips : list addr) (port : Z) (ans : list answer) : outcome (conn * list (sockaddr * answer)) :=
  let* (r, log) := attempts ips port ans in
  Ok (match r with Some a => mkC true a port | None => mkC false (0, 0, 0, 0) 0 end, log).
Definition connect (host : list Z) (port : Z) (ans : list answer) : outcome (conn * list (sockaddr * answer)) :=
  connect_ips (resolve host port) port ans.
End World.

(** socket.cpp:549-561: what accept makes of the peer's address *)
Definition accepted (sa : sockaddr) : conn := mkC true (parse (numeric sa)) (ntohs (portb sa)).

(** * The resolver *)
(** A program's calls, in the order in which they get the mutex: set_dns_resolver (a null pointer: None), and connect.
    [ok]: whether pthread_mutex_lock succeeds; [ok2]: whether it does for the second time, in set_dns_resolver. *)
Inductive rop := Set_ (r : option nat) (ok : bool) | Take (ok ok2 : bool).
Record rst := mkR { cur : option rid; made : nat; rlog : list rev }.
Definition rstart : rst := mkR None 0 [].
Definition rstep (s : rst) (o : rop) : outcome rst :=
  match o with
  | Set_ r ok =>                                                                                        (* socket.cpp:91-96 *)
      if ok then Ok (mkR (match r with Some n => Some (Given n) | None => None end) (made s) (rlog s ++ [SetTo r])) else Ok s
  | Take ok ok2 =>                                                                                      (* socket.cpp:109-118 *)
      if ok then
        let s := match cur s with Some _ => s | None => if ok2 then mkR (Some (Default (made s))) (S (made s)) (rlog s) else s end in
        match cur s with Some k => Ok (mkR (cur s) (made s) (rlog s ++ [Took k])) | None => UB end
      else UB
  end.
Fixpoint rrun (s : rst) (l : list rop) : outcome rst := match l with [] => Ok s | o :: l => let* s := rstep s o in rrun s l end.
