(** Model of one connection of the RPC server when writes fail or time out: src/network/rpc/base.cpp:180-228 over the stream of
    src/network/iostream.h:99-131 and the socket of Socket_Model.
    The bytes of requests and their answers are a parameter, [whole] (C57 says which they are): the archive reads byte by byte
    (uflow), calls the function when the request is there, writes the answer and flushes.  Functions do not throw.
    A request that is cut is not answered (C123 says whether it is carried out). *)
From Verif Require Import Common Socket_Model RpcWrite_Spec.
Local Open Scope Z_scope.

Section Connection.
(** the kernel; whether flush() of a stream that has failed calls sync(), as older libraries do; requests *)
Context (rc sc : nat -> Z) (always : bool) (whole : protocol).

(** data/serialization/base.h:159-162 and iostream.h:99-104: ostream::write sets badbit if xsputn takes less; nothing if it is set *)
Definition put (d : list Z) (s : bool * st) : outcome (bool * st) :=
  let (g, x) := s in
  if g : bool then let* (n, x') := write sc d x in Ok (n =? Z.of_nat (length d), x') else Ok s.
(** data/serialization/base.h:164-166 and iostream.h:114-117: badbit if sync returns -1 *)
Definition push (s : bool * st) : outcome (bool * st) :=
  let (g, x) := s in
  if g || always then let* (n, x') := flush sc x in Ok (g && (n <? 0), x') else Ok s.
Definition do_op (o : op) (s : bool * st) : outcome (bool * st) := match o with Put d => put d s | Push => push s end.
Fixpoint reply (ops : list op) (s : bool * st) : outcome (bool * st) :=
  match ops with [] => Ok s | o :: r => let* s := do_op o s in reply r s end.
(** base.cpp:184-185, 215-216, invoker.h:50 and iostream.h:119-131: None: the connection has ended in the request *)
Fixpoint get (f : nat) (got : list Z) (x : st) : outcome (option (event * bool) * st) :=
  match f with
  | O => Fuel
  | S f =>
      match whole got with
      | Some (ops, stop) => Ok (Some ((got, ops), stop), x)
      | None => let (c, x') := getc rc x in if c =? -1 then Ok (None, x') else get f (got ++ [c]) x'
      end
  end.
(** base.cpp:183-228: the requests carried out, whether the stream is good, and the socket *)
Fixpoint serve (f : nat) (log : list event) (s : bool * st) : outcome (list event * bool * st) :=
  match f with
  | O => Fuel
  | S f =>
      let (g, x) := s in
      if negb g then Ok (log, g, x) else                                                  (* base.cpp:190 *)
      let* (r, x) := get (S (S (length (rb (fst x)) + length (kin (snd x))))) [] x in
      match r with
      | None => Ok (log, false, x)
      | Some (e, stop) =>
          let* s := reply (snd e) (g, x) in
          if stop : bool then Ok (log ++ [e], fst s, snd s) else serve f (log ++ [e]) s
      end
  end.
End Connection.
