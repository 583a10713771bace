(** Model of stream_socket: src/network/socket.cpp:71-427.
    The kernel is the environment: [rc n] and [sc n] are what the n-th call of ::recv or ::send answers
    (after NO_INTR has retried EINTR): a number <= 0 is an error or the end of the stream, a positive number how many bytes
    the kernel would move, cut down to what is asked for and available.
    Simplifications: int does not overflow (sizes below 2^31); timeouts and socket options are kernel answers. *)
From Verif Require Import Common Socket_Spec.
Local Open Scope Z_scope.

(** socket.cpp:54 *)
Definition buf_size : nat := Z.to_nat 8192.

(** The members: connected, sock>=0, rdbuf[rdbuf_p..rdbuf_end), wrbuf[0..wrbuf_size). *)
Record sock := mkS { conn : bool; isopen : bool; rb : list Z; wb : list Z }.
(** One kernel connection: bytes still to come from the peer, bytes taken over for it so far; and the number of calls made. *)
Record kern := mkK { kin : list Z; kout : list Z; calls : nat }.
Definition st : Type := sock * kern.

Section Kernel.
Context (rc sc : nat -> Z).

Definition tick (k : kern) : kern := mkK (kin k) (kout k) (S (calls k)).
(** socket.cpp:179-198: the outcome of ::close does not matter for connected and sock *)
Definition close_ (s : sock) : sock := if isopen s then mkS false false (rb s) (wb s) else s.

(** socket.cpp:367-380; the bytes received, or what ::recv returned *)
Definition recv (size : nat) (x : st) : (list Z + Z) * st :=
  let (s, k) := x in
  if negb (conn s) then (inr 0, x) else
  let n := rc (calls k) in
  if n <=? 0 then (inr n, (close_ s, tick k)) else
  match firstn (Nat.min (Z.to_nat n) size) (kin k) with
  | [] => (inr 0, (close_ s, tick k))
  | d => (inl d, (s, mkK (skipn (length d) (kin k)) (kout k) (S (calls k))))
  end.
(** socket.cpp:382-395; the number of bytes sent *)
Definition send (dat : list Z) (x : st) : Z * st :=
  let (s, k) := x in
  if negb (conn s) then (0, x) else
  let n := sc (calls k) in
  if n <=? 0 then (n, (close_ s, tick k)) else
  let d := firstn (Z.to_nat n) dat in
  (Z.of_nat (length d), (s, mkK (kin k) (kout k ++ d) (S (calls k)))).
(** socket.cpp:397-408 *)
Fixpoint send_all_loop (f : nat) (dat : list Z) (sent : Z) (x : st) : outcome (Z * st) :=
  match f with
  | O => Fuel
  | S f' =>
      match dat with
      | [] => Ok (sent, x)
      | _ => let (w, x') := send dat x in
             if w <=? 0 then Ok (sent, x') else send_all_loop f' (skipn (Z.to_nat w) dat) (sent + w) x'
      end
  end.
Definition send_all (dat : list Z) (x : st) : outcome (Z * st) := send_all_loop (S (length dat)) dat 0 x.

(** socket.cpp:272-281 *)
Definition flush (x : st) : outcome (Z * st) :=
  match wb (fst x) with
  | [] => Ok (-1, x)
  | w => let* (n, x') := send_all w x in
         let x'' := (mkS (conn (fst x')) (isopen (fst x')) (rb (fst x')) [], snd x') in
         Ok (if n =? Z.of_nat (length w) then -1 else n, x'')
  end.
Definition set_wb (x : st) (w : list Z) : st := (mkS (conn (fst x)) (isopen (fst x)) (rb (fst x)) w, snd x).
Definition set_rb (x : st) (r : list Z) : st := (mkS (conn (fst x)) (isopen (fst x)) r (wb (fst x)), snd x).
(** socket.cpp:241-268 *)
Definition write (dat : list Z) (x : st) : outcome (Z * st) :=
  let init := Z.of_nat (length (wb (fst x))) in
  let room := (buf_size - length (wb (fst x)))%nat in
  let x1 := set_wb x (wb (fst x) ++ firstn room dat) in
  let rest := skipn room dat in
  let cont (x : st) :=
    if (buf_size <=? length rest)%nat then
      let* (n, x') := send_all rest x in Ok (Z.of_nat (length dat - length rest) + n, x')
    else Ok (Z.of_nat (length dat), set_wb x (wb (fst x) ++ rest)) in
  if (length (wb (fst x1)) =? buf_size)%nat then
    let* (res, x2) := flush x1 in
    if 0 <=? res then Ok (Z.max 0 (res - init), x2) else cont x2
  else cont x1.
(** socket.cpp:314-318 *)
Definition puts (s : list Z) (x : st) : outcome (bool * st) :=
  let* (n, x') := write s x in Ok (n =? Z.of_nat (length s), x').

(** socket.cpp:215-239: the bytes read *)
Fixpoint read_loop (f : nat) (got : list Z) (size : nat) (x : st) : outcome (list Z * st) :=
  match f with
  | O => Fuel
  | S f' =>
      if (size =? 0)%nat then Ok (got, x) else
      match recv size x with
      | (inr _, x') => Ok (got, x')
      | (inl d, x') => read_loop f' (got ++ d) (size - length d) x'
      end
  end.
Definition read (size : nat) (x : st) : outcome (list Z * st) :=
  let b := rb (fst x) in
  if (size <=? length b)%nat && negb (length b =? 0)%nat then Ok (firstn size b, set_rb x (skipn size b))
  else read_loop (S size) b (size - length b) (set_rb x []).

(** The same for any int: with a negative size, memcpy copies (size_t)size bytes if something is buffered; else p<q is false. *)
Definition read_int (size : Z) (x : st) : outcome (list Z * st) :=
  if size <? 0 then match rb (fst x) with [] => Ok ([], x) | _ => UB end else read (Z.to_nat size) x.

(** socket.cpp:283-289, 410-427: -1 is EOF *)
Definition getc (x : st) : Z * st :=
  match rb (fst x) with
  | c :: r => (c, set_rb x r)
  | [] => match recv buf_size x with
          | (inl (c :: r), x') => (c, set_rb x' r)
          | (_, x') => (-1, set_rb x' [])
          end
  end.
Definition last_is (c : Z) (s : list Z) : bool := match rev s with d :: _ => d =? c | [] => false end.
(** socket.cpp:291-312: None is false; n is limit - i, or None for limit < 0 *)
Fixpoint getline_loop (f : nat) (ret : list Z) (n : option nat) (x : st) : outcome (option (list Z) * st) :=
  match f with
  | O => Fuel
  | S f' =>
      match n with
      | Some O => Ok (Some ret, x)
      | _ =>
          let (c, x') := getc x in
          if c =? 10 then Ok (Some (if last_is 13 ret then removelast ret else ret), x')
          else if c =? -1 then Ok (match ret with [] => None | _ => Some ret end, x')
          else getline_loop f' (ret ++ [c]) (match n with Some m => Some (m - 1)%nat | None => None end) x'
      end
  end.
(** Each round consumes a byte, so there are at most as many as bytes to come, and one more. *)
Definition getline (limit : Z) (x : st) : outcome (option (list Z) * st) :=
  getline_loop (S (S (length (rb (fst x)) + length (kin (snd x)))))%nat [] (if limit <? 0 then None else Some (Z.to_nat limit)) x.

(** socket.cpp:98-138 connect: [closed] and [opened] are the answers of ::close and ::socket, [oks] those of ::connect for
    each resolved address, [inb] what the new peer will send.  The result has the kernel's new connection. *)
Definition connect (closed opened : bool) (oks : list bool) (inb : list Z) (x : st) : bool * st :=
  let (s, k) := x in
  if negb (isopen s) then (false, x) else
  if conn s && negb closed then (false, (close_ s, k)) else
  if conn s && negb opened then (false, (close_ s, k)) else
  let s1 := if conn s then mkS false true (rb s) (wb s) else s in
  if existsb (fun b => b) oks then (true, (mkS true true (rb s1) (wb s1), mkK inb [] (calls k)))
  else (false, (close_ s1, k)).
(** socket.cpp:71-83: a new stream_socket *)
Definition new_sock (opened : bool) : sock := mkS false opened [] [].
(** A connection just made, by connect on a new stream_socket (socket.cpp:98-138) or by bind_socket
    (socket.cpp:152-165) in server_socket::accept (socket.cpp:545-564); [n] counts the kernel calls. *)
Definition fresh (inb : list Z) (n : nat) : st := (mkS true true [] [], mkK inb [] n).
(** socket.cpp:140-145: shutdown *)
Definition shutdown (closed opened : bool) (x : st) : bool * st :=
  let (s, k) := x in
  if negb (isopen s) then (false, x) else
  if negb closed then (false, (close_ s, k)) else (opened, (mkS false opened (rb s) (wb s), k)).

(** A client's calls. *)
Definition do_call (c : call) (x : st) : outcome (result * st) :=
  match c with
  | Write d => let* (n, x') := write d x in Ok (RNum n, x')
  | Puts d => let* (b, x') := puts d x in Ok (RBool b, x')
  | Flush => let* (n, x') := flush x in Ok (RNum n, x')
  | Read n => let* (d, x') := read n x in Ok (RBytes d, x')
  | Getc => let (n, x') := getc x in Ok (RNum n, x')
  | Getline l => let* (s, x') := getline l x in Ok (RLine s, x')
  end.
Fixpoint run (cs : list call) (x : st) : outcome (list result * st) :=
  match cs with
  | [] => Ok ([], x)
  | c :: cs' => let* (r, x') := do_call c x in let* (rs, x'') := run cs' x' in Ok (r :: rs, x'')
  end.
End Kernel.
