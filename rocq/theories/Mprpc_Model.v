(** Model of src/network/mprpc: object_stream, rpc_stream, and what server and caller do with a message.
    msgpack-c itself is not part of the repository: [msgpack] at the end describes its format (specification of 2011: raw, no str/bin/ext);
    the theorems hold for any codec which does its job ([codec_ok]).  System calls are lists of what they returned; get_clock_time enters as
    the flag that the timeout (if any) has passed. *)
From Verif Require Import Common Mprpc_Spec.
Local Open Scope Z_scope.

Definition int_of (x : Z) : Z := (x + 2 ^ 31) mod 2 ^ 32 - 2 ^ 31.

(** * object_stream::write, object_stream.cpp:99-121 *)
Inductive wres := WDone (ret : Z) | WFail | WTimeout | WBlocked. (* WBlocked: in the next system call still *)
(** the bytes taken by the kernel, and what became of the call; size is that of the whole *)
Fixpoint write_loop (size : Z) (p : list Z) (evs : list wev) : list Z * wres * list wev :=
  match p with
  | [] => ([], WDone (int_of size), evs)
  | _ =>
    match evs with
    | [] => ([], WBlocked, [])
    | Took n :: evs =>
        if n <=? 0 then ([], WFail, evs)
        else let '(s, r, evs') := write_loop size (skipn (Z.to_nat n) p) evs in (firstn (Z.to_nat n) p ++ s, r, evs')
    | WErr EINTR _ :: evs => write_loop size p evs
    | WErr _ true :: evs => ([], WTimeout, evs)
    | WErr EAGAIN false :: evs => write_loop size p evs
    | WErr EOTHER false :: evs => ([], WFail, evs)
    end
  end.
Definition os_write (data : list Z) (evs : list wev) : list Z * wres * list wev := write_loop (Z.of_nat (length data)) data evs.

(** * object_stream::read, object_stream.cpp:67-97; a read of no bytes is the end of the stream *)
Inductive rres := RObj (o : obj) | RFail | RTimeout | RThrow | RBlocked. (* RThrow: unpack_error *)
Fixpoint os_read (c : codec) (evs : list rev) (buf : list Z) : rres * list Z * list rev :=
  match parse c buf with
  | Got o rest => (RObj o, rest, evs)
  | Bad => (RThrow, buf, evs)
  | More =>
      match evs with
      | [] => (RBlocked, buf, [])
      | RData [] :: evs => (RFail, buf, evs)
      | RData b :: evs => os_read c evs (buf ++ b)
      | RErr EINTR _ :: evs => os_read c evs buf
      | RErr _ true :: evs => (RTimeout, buf, evs)
      | RErr EAGAIN false :: evs => os_read c evs buf
      | RErr EOTHER false :: evs => (RFail, buf, evs)
      end
  end.

(** * Messages *)
(** message.h:45-69: obj.convert to tuple<uint8_t, uint32_t, object, object>; None: type_error *)
Definition as_uint (bits : Z) (o : obj) : option Z := match o with OInt z => if (0 <=? z) && (z <? 2 ^ bits) then Some z else None | _ => None end.
Definition to_msg (o : obj) : option (Z * Z * obj * obj) :=
  match o with
  | OArr (a :: b :: x :: y :: _) => match as_uint 8 a, as_uint 32 b with Some k, Some i => Some (k, i, x, y) | _, _ => None end
  | _ => None
  end.
(** rpc_stream.cpp:71-90; try_receive and receive (44-68) gives false on any failure but a timeout, which is thrown *)
Inductive jres := JGot (id : Z) (error result : obj) | JFalse | JTimeout | JThrow | JBlocked | JFuel.
Fixpoint join (fuel : nat) (c : codec) (id : Z) (evs : list rev) (buf : list Z) : jres * list Z * list rev :=
  match fuel with
  | O => (JFuel, buf, evs)
  | S fuel =>
      match os_read c evs buf with
      | (RObj o, buf, evs) =>
          match to_msg o with
          | None => (JFalse, buf, evs)
          | Some (k, i, e, r) => if negb (k =? 1) then join fuel c id evs buf else if negb (i =? id) then join fuel c id evs buf else (JGot i e r, buf, evs)
          end
      | (RFail, buf, evs) => (JFalse, buf, evs)
      | (RTimeout, buf, evs) => (JTimeout, buf, evs)
      | (RThrow, buf, evs) => (JThrow, buf, evs)
      | (RBlocked, buf, evs) => (JBlocked, buf, evs)
      end
  end.
(** enough for any number of messages *)
Definition join_ (c : codec) (id : Z) (evs : list rev) (buf : list Z) : jres * list Z * list rev := join (S (length buf + length (incoming evs))) c id evs buf.
(** rpc_stream.h:73-82: the id of a request and the next *)
Definition next_id (seqid : Z) : Z * Z := (seqid, (seqid + 1) mod 2 ^ 32).

(** * The server's side of a connection *)
(** what a function does: a value, a std::exception with its what(), an rpc_error, or something else thrown *)
Inductive fres := FVal (r : obj) | FExn (what : list Z) | FRpcError | FThrow.
(** invoker.h: the types of the arguments and the function *)
Record invoker := mkInv { types : list (obj -> bool); fn : list obj -> fres }.
(** argument.h: an array of at least as many elements gives the arguments; surplus ones are ignored; an array too short leaves the rest as they
    were default-initialised *)
Inductive args := Args (l : list obj) | Mismatch | Short.
Fixpoint convert (ts : list (obj -> bool)) (l : list obj) : args :=
  match ts, l with
  | [], _ => Args []
  | _ :: _, [] => Short
  | t :: ts, o :: l => if t o then match convert ts l with Args l => Args (o :: l) | x => x end else Mismatch
  end.
Definition find (funcs : list (list Z * invoker)) (name : list Z) : option invoker :=
  match List.find (fun p => if list_eq_dec Z.eq_dec (fst p) name then true else false) funcs with Some p => Some (snd p) | None => None end.
(** one message: SShort runs the function with indeterminate arguments; SDie: an exception leaves the thread's function *)
Inductive sstep := SReply (o : obj) | SSilent | SClose | SDie | SShort.
(** rpc_server.cpp:155-174, 184-202; invoker.h:84-93 (SEND_RESPONSE succeeding) *)
Definition serve1 (funcs : list (list Z * invoker)) (o : obj) : sstep :=
  match to_msg o with
  | None => SClose
  | Some (k, i, m, p) =>
      if negb (k =? 0) then SSilent else
      match m with
      | ORaw name =>
          match find funcs name with
          | None => SReply (response i (OInt 1) (ORaw name))
          | Some v =>
              match p with
              | OArr l =>
                  match convert (types v) l with
                  | Args l => match fn v l with FVal r => SReply (response i ONil r) | FExn w => SReply (response i (ORaw w) ONil) | FRpcError => SSilent | FThrow => SDie end
                  | Mismatch => SReply (response i (OInt 2) ONil)
                  | Short => SShort
                  end
              | _ => SReply (response i (OInt 2) ONil)
              end
          end
      | _ => SDie
      end
  end.

(** * The caller, caller.h:51-79 *)
Inductive cres := CValue (r : obj) | CNotFound (name : obj) | CTypeError | CError (e : obj).
(** message.h:162-168: the low 32 bits of a non-negative integer *)
Definition error_code (e : obj) : Z := match e with OInt z => if 0 <=? z then z mod 2 ^ 32 else 0 | _ => 0 end.
(** what the reply means to a caller expecting a result of type t *)
Definition interpret (t : obj -> bool) (e r : obj) : cres :=
  match e with
  | ONil => if t r then CValue r else CTypeError
  | _ => if error_code e =? 1 then CNotFound r else if error_code e =? 2 then CTypeError else CError e
  end.

(** * A whole call on a fresh connection: w and cut are what the system calls do on either side *)
Inductive result := Returns (x : cres) | Hangs | ServerDies | RunsShort | IoError.
Definition call (c : codec) (funcs : list (list Z * invoker)) (t : obj -> bool) (id : Z) (name : list Z) (l : list obj)
    (w1 : list wev) (cut1 : list Z -> list rev) (w2 : list wev) (cut2 : list Z -> list rev) : result :=
  match os_write (pack c (request id name l)) w1 with
  | (sent, WDone v, _) =>
      if 0 <? v then
        match os_read c (cut1 sent) [] with
        | (RObj o, _, _) =>
            match serve1 funcs o with
            | SReply o => let '(sent, _, _) := os_write (pack c o) w2 in match join_ c id (cut2 sent) [] with (JGot _ e r, _, _) => Returns (interpret t e r) | (JBlocked, _, _) => Hangs | _ => IoError end
            | SSilent => Hangs
            | SClose => IoError
            | SDie => ServerDies
            | SShort => RunsShort
            end
        | _ => IoError
        end
      else IoError
  | _ => IoError
  end.

(** * msgpack *)
Fixpoint be (n : nat) (z : Z) : list Z := match n with O => [] | S n => be n (z / 256) ++ [z mod 256] end.
Fixpoint unbe (acc : Z) (l : list Z) : Z := match l with [] => acc | b :: l => unbe (acc * 256 + b) l end.
Definition head (fixb fixmax t16 t32 n : Z) : list Z := if n <? fixmax then [fixb + n] else if n <? 2 ^ 16 then t16 :: be 2 n else t32 :: be 4 n.
Fixpoint mp_pack (o : obj) : list Z :=
  match o with
  | ONil => [192]
  | OBool false => [194]
  | OBool true => [195]
  | OInt z =>
      if z <? 0 then
        if -32 <=? z then [256 + z] else if - 2 ^ 7 <=? z then 208 :: be 1 (z mod 2 ^ 8) else if - 2 ^ 15 <=? z then 209 :: be 2 (z mod 2 ^ 16)
        else if - 2 ^ 31 <=? z then 210 :: be 4 (z mod 2 ^ 32) else 211 :: be 8 (z mod 2 ^ 64)
      else if z <? 2 ^ 7 then [z] else if z <? 2 ^ 8 then 204 :: be 1 z else if z <? 2 ^ 16 then 205 :: be 2 z
      else if z <? 2 ^ 32 then 206 :: be 4 z else 207 :: be 8 z
  | OFloat b => 202 :: be 4 b
  | ODouble b => 203 :: be 8 b
  | ORaw s => head 160 32 218 219 (Z.of_nat (length s)) ++ s
  | OArr l => head 144 16 220 221 (Z.of_nat (length l)) ++ concat (map mp_pack l)
  | OMap l => head 128 16 222 223 (Z.of_nat (length l) / 2) ++ concat (map mp_pack l)
  end.
Definition take (n : nat) (l : list Z) : parsed (list Z) := if Nat.leb n (length l) then Got (firstn n l) (skipn n l) else More.
Definition bind {A B} (x : parsed A) (f : A -> list Z -> parsed B) : parsed B := match x with More => More | Bad => Bad | Got a r => f a r end.
Definition num (n : nat) (l : list Z) : parsed Z := bind (take n l) (fun b r => Got (unbe 0 b) r).
Fixpoint many (P : list Z -> parsed obj) (n : nat) (l : list Z) : parsed (list obj) :=
  match n with O => Got [] l | S n => bind (P l) (fun o r => bind (many P n r) (fun os r => Got (o :: os) r)) end.
Definition signed (bits z : Z) : Z := if z <? 2 ^ (bits - 1) then z else z - 2 ^ bits.
Definition raw_of (n : Z) (l : list Z) : parsed obj := bind (take (Z.to_nat n) l) (fun s r => Got (ORaw s) r).
(** d: how deep arrays and maps may nest *)
Fixpoint mp_parse (d : nat) (l : list Z) : parsed obj :=
  match l with
  | [] => More
  | t :: l =>
      let arr n l := match d with O => Bad | S d => bind (many (mp_parse d) (Z.to_nat n) l) (fun os r => Got (OArr os) r) end in
      let map n l := match d with O => Bad | S d => bind (many (mp_parse d) (Z.to_nat (2 * n)) l) (fun os r => Got (OMap os) r) end in
      let uint n := bind (num n l) (fun z r => Got (OInt z) r) in
      let sint n := bind (num n l) (fun z r => Got (OInt (signed (8 * Z.of_nat n) z)) r) in
      if t <? 128 then Got (OInt t) l
      else if t <? 144 then map (t - 128) l
      else if t <? 160 then arr (t - 144) l
      else if t <? 192 then raw_of (t - 160) l
      else if 224 <=? t then Got (OInt (t - 256)) l
      else if t =? 192 then Got ONil l
      else if t =? 194 then Got (OBool false) l
      else if t =? 195 then Got (OBool true) l
      else if t =? 202 then bind (num 4 l) (fun z r => Got (OFloat z) r)
      else if t =? 203 then bind (num 8 l) (fun z r => Got (ODouble z) r)
      else if t =? 204 then uint 1%nat else if t =? 205 then uint 2%nat else if t =? 206 then uint 4%nat else if t =? 207 then uint 8%nat
      else if t =? 208 then sint 1%nat else if t =? 209 then sint 2%nat else if t =? 210 then sint 4%nat else if t =? 211 then sint 8%nat
      else if t =? 218 then bind (num 2 l) raw_of
      else if t =? 219 then bind (num 4 l) raw_of
      else if t =? 220 then bind (num 2 l) arr
      else if t =? 221 then bind (num 4 l) arr
      else if t =? 222 then bind (num 2 l) map
      else if t =? 223 then bind (num 4 l) map
      else Bad
  end.
(** what can be packed: numbers of 64 bits, lengths of 32 bits, nesting within d *)
Fixpoint mp_good (d : nat) (o : obj) : Prop :=
  match o with
  | ONil | OBool _ => True
  | OInt z => - 2 ^ 63 <= z < 2 ^ 64
  | OFloat b => 0 <= b < 2 ^ 32
  | ODouble b => 0 <= b < 2 ^ 64
  | ORaw s => Z.of_nat (length s) < 2 ^ 32
  | OArr l => Z.of_nat (length l) < 2 ^ 32 /\ match d with O => False | S d => (fix all (l : list obj) : Prop := match l with [] => True | o :: l => mp_good d o /\ all l end) l end
  | OMap l => (exists n, length l = (2 * n)%nat /\ Z.of_nat n < 2 ^ 32) /\ match d with O => False | S d => (fix all (l : list obj) : Prop := match l with [] => True | o :: l => mp_good d o /\ all l end) l end
  end.
Definition msgpack (d : nat) : codec := mkCodec (mp_good d) mp_pack (mp_parse d).
