(** Model of src/network/rpc/{base.cpp,caller.h,invoker.h}: the server loop over one connection, the
    client, and the calls of several clients on one server.  A connection is a reliable byte stream in
    each direction; a call runs to completion before the next one starts; a new connection is accepted
    at once if a worker is free.  stop(), start() and the timeouts are not part of this model (see RpcTime_Model and
    RpcStop_Model for stop); running out of memory is not either. *)
From Verif Require Import Common Archive_Model Rpc_Spec NumText_Model.
From Verif Require Cast_Model.
Local Open Scope Z_scope.

Definition str_eqb (a b : list Z) : bool := if list_eq_dec Z.eq_dec a b then true else false.
(** base.cpp:48-50 *)
Definition PING : list Z := str "<<<PING>>>".
Definition PONG : list Z := str "<<<PONG>>>".
Definition EXIT : list Z := str "<<<EXIT>>>".
Definition wstr (s : list Z) : list Z := write TStr (VS s).
Definition wint (z : Z) : list Z := write (TNum 4 true) (VN z).

(** funcs.count(name), funcs[name]; base.cpp:76-79 add() is consing (a later add replaces). *)
Fixpoint lookup {A} (svc : service A) (name : list Z) : option (func A) :=
  match svc with [] => None | (n, f) :: r => if str_eqb n name then Some f else lookup r name end.

(** ia>>a1>>a2>>… into fresh variables (invoker.h). *)
Fixpoint read_args (ts : list ty) (s : st) : outcome (list val * st) :=
  match ts with
  | [] => Ok ([], s)
  | t :: r => let* (x, s1) := read t (uninit t) s in let* (xs, s2) := read_args r s1 in Ok (x :: xs, s2)
  end.
(** oa<<a1<<a2<<… (caller.h) *)
Fixpoint write_args (ts : list ty) (vs : list val) : list Z :=
  match ts, vs with t :: tr, v :: vr => write t v ++ write_args tr vr | _, _ => [] end.

(** What one turn of the for(;;) loop of process() ends in: the next turn, leaving the connection,
    an exception that leaves the thread (std::terminate, the process is gone), or waiting for more
    bytes before anything happened. *)
Inductive next : Type := Again (s : st) | Leave | Died | Short.

(** invoker.h:49-55 DO_INVOKE, :57-73 (a function without arguments does not look at the stream) and
    base.cpp:223-227: the application state after it, what is written, how the loop goes on.  Nothing is
    written on a failed stream.  [eof]: the client has closed, so a short read fails instead of waiting. *)
Definition invoke {A} (eof : bool) (f : func A) (a : A) (s : st) : outcome (A * list Z * next) :=
  let* (vs, s1) := read_args (f_args f) s in
  let readable := match f_args f with _ :: _ => snd s1 | [] => true end in
  if negb readable then Ok (a, [], if eof then Again s1 else Short)
  else match f_body f a vs with
       | (a', Ret v) => Ok (a', if snd s1 then wstr (str "OK") ++ write (f_ret f) v else [], Again s1)
       | (a', Rpc_error) => Ok (a', [], Again s1)
       | (a', Other_exn) => Ok (a', [], Died)
       end.
(** base.cpp:183-228, one turn. *)
Definition serve1 {A} (eof : bool) (ver : Z) (svc : service A) (a : A) (s : st) : outcome (A * list Z * next) :=
  let* (nm, s1) := read TStr (VS []) s in
  let name := chars nm in
  if negb (snd s1) then Ok (a, [], if eof then Leave else Short)
  else if str_eqb name PING then Ok (a, wstr PONG, Again s1)
  else if str_eqb name EXIT then Ok (a, wstr (str "OK") ++ wstr (str "1"), Leave)
  else match lookup svc name with
       | None => Ok (a, wstr (str "NotFound " ++ name), Leave)
       | Some f =>
           let* (rv, s2) := read (TNum 4 true) VUndef s1 in
           if negb (snd s2) && negb eof then Ok (a, [], Short)
           else match rv with
                | VN v => if snd s2 && negb (v =? ver)
                          then Ok (a, wstr (str "VersionMismatch " ++ show_int ver ++ str " " ++ show_int v), Leave)
                          else invoke eof f a s2
                | _ => invoke eof f a s2
                end
       end.

(** The loop over what has arrived: the state, the replies, and the bytes it still waits behind
    (None: this end is closed), or the process has died. *)
Inductive wend : Type := Waits (unread : list Z) | Closed | Dead.
Fixpoint serve {A} (fuel : nat) (eof : bool) (ver : Z) (svc : service A) (a : A) (s : st) : outcome (A * list Z * wend) :=
  match fuel with
  | O => Fuel
  | S f =>
      let* (x, nx) := serve1 eof ver svc a s in
      let '(a1, out) := x in
      match nx with
      | Short => Ok (a1, out, Waits (fst s))
      | Leave => Ok (a1, out, Closed)
      | Died => Ok (a1, out, Dead)
      | Again s1 =>
          let* (y, e) := serve f eof ver svc a1 s1 in let '(a2, out2) := y in Ok (a2, out ++ out2, e)
      end
  end.
(** Enough turns: each takes at least the four bytes of a length, and one more finds the end. *)
Definition turns (inp : list Z) : nat := S (S (length inp)).

(** A client's socketstream: received and not yet read, good(), and what the worker on the other end
    has not read (None: that end is closed). *)
Record conn : Type := { inbox : list Z; good : bool; pending : option (list Z) }.
(** The server with its workers that wait in accept(), and every client's [ss]. *)
Record world (A : Type) : Type := { astate : A; live : bool; free : nat; ss : nat -> option conn }.
Arguments astate {A}. Arguments live {A}. Arguments free {A}. Arguments ss {A}.
Definition upd (f : nat -> option conn) (c : nat) (x : option conn) : nat -> option conn := fun i => if Nat.eqb i c then x else f i.
(** The process has died: every connection is closed at that end. *)
Definition cut (o : option conn) : option conn :=
  match o with Some k => Some {| inbox := inbox k; good := good k; pending := None |} | None => None end.

Section client.
Context {A : Type} (ver : Z) (svc : service A).

(** The worker on client [c]'s connection [k] runs on [inp]. *)
Definition run_worker (eof : bool) (c : nat) (k : conn) (inp : list Z) (w : world A) : outcome (world A) :=
  let* (x, e) := serve (turns inp) eof ver svc (astate w) (inp, true) in
  let '(a, out) := x in
  let k' p := Some {| inbox := inbox k ++ out; good := good k; pending := p |} in
  Ok match e with
     | Waits u => {| astate := a; live := live w; free := free w; ss := upd (ss w) c (k' (Some u)) |}
     | Closed => {| astate := a; live := live w; free := S (free w); ss := upd (ss w) c (k' None) |}
     | Dead => {| astate := a; live := false; free := 0; ss := fun i => cut (upd (ss w) c (k' None) i) |}
     end.
(** oa<<…; oa.flush();  Bytes sent to a closed end are lost. *)
Definition send (c : nat) (b : list Z) (w : world A) : outcome (world A) :=
  match ss w c with
  | Some k => match pending k with Some u => run_worker false c k (u ++ b) w | None => Ok w end
  | None => Ok w
  end.
(** ss.reset(): the connection is closed by the client. *)
Definition reset (c : nat) (w : world A) : outcome (world A) :=
  let* w1 := match ss w c with
             | Some k => match pending k with Some u => run_worker true c k u w | None => Ok w end
             | None => Ok w
             end in
  Ok {| astate := astate w1; live := live w1; free := free w1; ss := upd (ss w1) c None |}.
(** ia>>x; None: it waits for ever (the other end neither sends the rest nor closes). *)
Definition recv (t : ty) (old : val) (c : nat) (w : world A) : outcome (option val * world A) :=
  match ss w c with
  | None => UB
  | Some k =>
      let* (v, s) := read t old (inbox k, good k) in
      match snd s, pending k with
      | false, Some _ => Ok (None, w)
      | g, p => Ok (Some v, {| astate := astate w; live := live w; free := free w;
                               ss := upd (ss w) c (Some {| inbox := fst s; good := g; pending := p |}) |})
      end
  end.
Definition is_good (c : nat) (w : world A) : bool := match ss w c with Some k => good k | None => false end.

(** new socketstream(host, port): None if it waits in the backlog for ever. *)
Definition connect (c : nat) (w : world A) : option (world A) :=
  if live w then
    match free w with
    | O => None
    | S n => Some {| astate := astate w; live := true; free := n; ss := upd (ss w) c (Some {| inbox := []; good := true; pending := Some [] |}) |}
    end
  else Some {| astate := astate w; live := false; free := free w; ss := upd (ss w) c None |}.

(** base.cpp:269-308; [n] tries.  The old stream is only destroyed after the new one is there.  A test of
    the pointer ss, not the stream, follows the ping and the pong (:289, :295); the pointer is never null. *)
Inductive gconn : Type := Got | Gave_up | Stuck.
Fixpoint get_connection (n : nat) (c : nat) (w : world A) : outcome (gconn * world A) :=
  match n with
  | O => Ok (match ss w c with Some _ => Got | None => Gave_up end, w)
  | S m =>
      let opened := if is_good c w then Some (Ok w) else
        match connect c w with
        | None => None
        | Some w1 =>
            Some (match ss w c with
                  | Some k => match pending k with
                              | Some u => let* w2 := run_worker true c k u w1 in
                                          Ok {| astate := astate w2; live := live w2; free := free w2; ss := upd (ss w2) c (ss w1 c) |}
                              | None => Ok w1
                              end
                  | None => Ok w1
                  end)
        end in
      match opened with
      | None => Ok (Stuck, w)
      | Some ow =>
          let* w1 := ow in
          match ss w1 c with
          | None => get_connection m c w1
          | Some _ =>
              let* w2 := send c (wstr PING) w1 in
              let* (pong, w3) := recv TStr (VS []) c w2 in
              match pong with
              | None => Ok (Stuck, w3)
              | Some p => if str_eqb (chars p) PONG then Ok (Got, w3)
                          else let* w4 := reset c w3 in get_connection m c w4
              end
          end
      end
  end.

(** iss>>word: the next word and the rest. *)
Definition word (s : list Z) : list Z * list Z := spanb (fun c => negb (Cast_Model.isspace c)) (Cast_Model.skip_ws s).
(** caller.h:48-64 gen_exception.  A number that is not there is 0; a second one after it is not
    initialised. *)
Definition signed (x : bool * Z) : Z := let '(neg, m) := x in if neg then - m else m.
Definition gen_exception (s : list Z) : outcome result :=
  let '(code, rest) := word s in
  if str_eqb code (str "NotFound") then Ok (Not_found (fst (word rest)))
  else if str_eqb code (str "VersionMismatch") then
    match Cast_Model.scan rest with
    | Some (n1, m1, rest1) => match Cast_Model.scan rest1 with
                              | Some (n2, m2, _) => Ok (Mismatch (signed (n1, m1)) (signed (n2, m2)))
                              | None => Ok (Mismatch (signed (n1, m1)) 0)
                              end
    | None => UB
    end
  else Ok (Error s).

(** caller.h:66-82 GET_CONN and DO_RPC.  [ss] keeps the connection whatever happens. *)
Definition call (r : request) (w : world A) : outcome (result * world A) :=
  let c := r_client r in
  let* (g, w1) := get_connection 2 c w in
  match g with
  | Stuck => Ok (Hangs, w1)
  | Gave_up => Ok (No_connection, w1)
  | Got =>
      if negb (is_good c w1) then Ok (No_connection, w1) else
      let* w2 := send c (wstr (r_name r) ++ wint (r_ver r) ++ write_args (r_args r) (r_vals r)) w1 in
      let* (code, w3) := recv TStr (VS []) c w2 in
      match code with
      | None => Ok (Hangs, w3)
      | Some cd =>
          if negb (str_eqb (chars cd) (str "OK")) then let* x := gen_exception (chars cd) in Ok (x, w3)
          else let* (ret, w4) := recv (r_ret r) (uninit (r_ret r)) c w3 in
               match ret with
               | None => Ok (Hangs, w4)
               | Some v => if is_good c w4 then Ok (Value v, w4) else Ok (Error (str "cannot recv return value"), w4)
               end
      end
  end.
Fixpoint calls (rs : list request) (w : world A) : outcome (list result * world A) :=
  match rs with
  | [] => Ok ([], w)
  | r :: rr => let* (x, w1) := call r w in let* (xs, w2) := calls rr w1 in Ok (x :: xs, w2)
  end.
End client.

(** A server that has started with [n] workers; no client has connected yet. *)
Definition start {A} (a : A) (n : nat) : world A := {| astate := a; live := true; free := n; ss := fun _ => None |}.
