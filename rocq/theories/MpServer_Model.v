(** Model of starting and stopping in src/network/mprpc/rpc_server.cpp with its listening socket (socket.cpp:50-105) and its threads (thread.cpp): one owner that calls create(),
    serv(), run(), join() and the destructor, any number of calls of stop() by anybody (also by procedures that the server runs), and the worker threads, under any schedule.
    The environment decides whether calls of the system succeed, which descriptors they give, when clients connect, what receive() gives, and may open listeners of its own.
    shutdown() of a listening socket makes accept() on it fail from then on (Linux).  What a connection carries is in Mprpc_Model; exceptions that end the process are not here. *)
From Verif Require Import Common MpServer_Spec.
Local Open Scope Z_scope.

(** A worker in process() (rpc_server.cpp:137-176): before the test of the outer loop, before it reads sock.get(), before accept(f), in accept() on a listener (None: a stranger's),
    with a connection before the test of the inner loop, in receive(), in process_request(), done *)
Inductive wpc := Check | Look | Call (f : Z) | Waiting (l : option nat) | Inner | Reading | Busy | Done.
(** Whether its thread object will join it *)
Inductive life := Joinable | Joined_ | Detached.
(** serv_threads: a null pointer, or a thread object with the thread that it runs *)
Inductive slot := Null | Obj (t : option nat).
(** socket::close() (socket.cpp:59-75) after its test: before shutdown(fd), before fd is read for close(), before close(f), before fd = -1 *)
Inductive cpc := C0 | C1 | C2 (f : Z) | C3.
(** The owner: in no call; in listen() before socket() (then run(n) if it is serv()), before fd = nfd; in run() before thread i; waiting for thread j after thread i failed; in join() *)
Inductive opc := Idle | Opening (k : option Z) | Assign (f : Z) (k : option Z) | Starting (n i : nat) (sync : bool) | Failing (i j : nat) | Joining (j : nat) (sync : bool).
(** The descriptors of the process: free, a listener of this server, of somebody else *)
Inductive file := Nothing | Mine (l : nat) | Theirs.
(** closers: calls of close(), with whether it is the owner's; down: which listeners of this server were shut down; gone: the server is destroyed *)
Record server := mk { fd : Z; flag : bool; slots : list slot; owner : opc; closers : list (bool * cpc); workers : list (wpc * life); files : Z -> file; down : nat -> bool;
  listeners : nat; gone : bool; log : list event }.
(** rpc_server.cpp:69-72 *)
Definition fresh : server := mk (-1) false [] Idle [] [] (fun _ => Nothing) (fun _ => false) O false [].

Definition set_fd s x := mk x (flag s) (slots s) (owner s) (closers s) (workers s) (files s) (down s) (listeners s) (gone s) (log s).
Definition set_flag s x := mk (fd s) x (slots s) (owner s) (closers s) (workers s) (files s) (down s) (listeners s) (gone s) (log s).
Definition set_slots s x := mk (fd s) (flag s) x (owner s) (closers s) (workers s) (files s) (down s) (listeners s) (gone s) (log s).
Definition set_owner s x := mk (fd s) (flag s) (slots s) x (closers s) (workers s) (files s) (down s) (listeners s) (gone s) (log s).
Definition set_closers s x := mk (fd s) (flag s) (slots s) (owner s) x (workers s) (files s) (down s) (listeners s) (gone s) (log s).
Definition set_workers s x := mk (fd s) (flag s) (slots s) (owner s) (closers s) x (files s) (down s) (listeners s) (gone s) (log s).
Definition set_file s f x := mk (fd s) (flag s) (slots s) (owner s) (closers s) (workers s) (fun g => if g =? f then x else files s g) (down s) (listeners s) (gone s) (log s).
Definition set_down s l := mk (fd s) (flag s) (slots s) (owner s) (closers s) (workers s) (files s) (fun k => if Nat.eqb k l then true else down s k) (listeners s) (gone s) (log s).
Definition new_listener s := mk (fd s) (flag s) (slots s) (owner s) (closers s) (workers s) (files s) (down s) (S (listeners s)) (gone s) (log s).
Definition set_gone s := mk (fd s) (flag s) (slots s) (owner s) (closers s) (workers s) (files s) (down s) (listeners s) true (log s).
Definition note s e := mk (fd s) (flag s) (slots s) (owner s) (closers s) (workers s) (files s) (down s) (listeners s) (gone s) (e :: log s).

Fixpoint put {T} (l : list T) (i : nat) (x : T) : list T := match l, i with [], _ => [] | _ :: r, O => x :: r | y :: r, S k => y :: put r k x end.
(** ~thread(): a running thread is detached *)
Definition drop_slot (s : server) (x : slot) : server :=
  match x with
  | Obj (Some w) => match nth_error (workers s) w with Some (p, _) => note (set_workers s (put (workers s) w (p, Detached))) (Left w) | None => s end
  | _ => s
  end.
Definition drop_slots (s : server) (l : list slot) : server := fold_left drop_slot l s.
(** vector::resize *)
Definition resize (s : server) (n : nat) : server :=
  let s1 := drop_slots s (skipn n (slots s)) in set_slots s1 (firstn n (slots s) ++ repeat Null (n - length (slots s))).
(** The call of close(); nothing if there is no descriptor (:61) *)
Definition begin_close (s : server) (own : bool) : server := if fd s <? 0 then s else set_closers s (closers s ++ [(own, C0)]).
Definition owner_closes (s : server) : bool := existsb fst (closers s).
(** rpc_server.cpp:91-117; a negative number of threads makes resize throw *)
Definition begin_run (s : server) (n : Z) (sync : bool) : server :=
  if (fd s <? 0) || flag s then note (set_owner s Idle) (Running false)
  else let s1 := set_flag s true in
       if n <? 0 then note (set_owner s1 Idle) Thrown
       else set_owner (note (resize s1 (Z.to_nat n)) (Asked (Z.to_nat n))) (Starting (Z.to_nat n) O sync).

Inductive answer := Fails | Connects | Message (request : bool) | Ends.
Inductive move :=
| M_create | M_serv (n : Z) | M_run (n : Z) (sync : bool) | M_join | M_destroy      (* calls of the owner *)
| M_owner (f : Z) (ok : bool)      (* the owner goes on; f, ok: the descriptor that a call gives, whether it succeeds *)
| M_stop                           (* somebody calls stop() *)
| M_close (k : nat)                (* the k-th call of close() goes on *)
| M_worker (w : nat) (a : answer)  (* worker w goes on; a: what accept(), setting the timeout and receive() give *)
| M_theirs (f : Z).                (* somebody else opens a listener *)

(** The owner goes on *)
Definition owner_step (s : server) (f : Z) (ok : bool) : outcome server :=
  if owner_closes s then Ok s else
  match owner s with
  | Idle => Ok s
  | Opening k => (* socket.cpp:88-97 *)
      if ok && (0 <=? f) && match files s f with Nothing => true | _ => false end
      then Ok (begin_close (set_owner (set_file (new_listener s) f (Mine (listeners s))) (Assign f k)) true)
      else Ok (note (set_owner s Idle) (Created false))
  | Assign g k => let s1 := note (set_fd s g) (Created true) in Ok (match k with None => set_owner s1 Idle | Some n => begin_run s1 n true end)
  | Starting n i sync => (* rpc_server.cpp:101-116 *)
      if Nat.eqb i n then Ok (if sync then set_owner s (Joining O true) else note (set_owner s Idle) (Running true))
      else match nth_error (slots s) i with
           | None => UB
           | Some old =>
               let s1 := drop_slot s old in
               if ok then let w := length (workers s1) in
                          Ok (note (set_owner (set_workers (set_slots s1 (put (slots s1) i (Obj (Some w)))) (workers s1 ++ [(Check, Joinable)])) (Starting n (S i) sync)) (Started w))
               else Ok (begin_close (set_flag (set_owner (set_slots s1 (put (slots s1) i (Obj None))) (Failing i O)) false) true)
           end
  | Failing i j => (* :110-114 *)
      if Nat.eqb j i then Ok (note (set_owner s Idle) Failed)
      else match nth_error (slots s) j with
           | Some (Obj (Some w)) =>
               match nth_error (workers s) w with
               | Some (Done, _) => Ok (set_owner (set_workers (set_slots s (put (slots s) j (Obj None))) (put (workers s) w (Done, Joined_))) (Failing i (S j)))
               | _ => Ok s
               end
           | Some (Obj None) => Ok (set_owner s (Failing i (S j)))
           | _ => UB
           end
  | Joining j sync => (* :137-142 *)
      match nth_error (slots s) j with
      | None => let s1 := note (set_owner (set_slots s []) Idle) Joined in Ok (if sync then note s1 (Running true) else s1)
      | Some (Obj (Some w)) =>
          match nth_error (workers s) w with
          | Some (Done, _) => Ok (set_owner (set_workers (set_slots s (put (slots s) j (Obj None))) (put (workers s) w (Done, Joined_))) (Joining (S j) sync))
          | _ => Ok s
          end
      | Some (Obj None) => Ok (set_owner s (Joining (S j) sync))
      | Some Null => UB
      end
  end.
(** socket.cpp:63-74 *)
Definition close_step (s : server) (k : nat) : outcome server :=
  match nth_error (closers s) k with
  | None => Ok s
  | Some (own, c) =>
      if gone s then UB else
      let at_ s p := set_closers s (put (closers s) k (own, p)) in
      match c with
      | C0 => Ok (at_ (match files s (fd s) with Mine l => set_down s l | _ => s end) C1)
      | C1 => Ok (at_ s (C2 (fd s)))
      | C2 f => Ok (at_ (match files s f with Theirs => note (set_file s f Nothing) Shut_other | _ => set_file s f Nothing end) C3)
      | C3 => Ok (set_closers (set_fd s (-1)) (firstn k (closers s) ++ skipn (S k) (closers s)))
      end
  end.
(** rpc_server.cpp:137-176.  What a worker that is in accept() on l gets *)
Definition worker_step (s : server) (w : nat) (a : answer) : outcome server :=
  match nth_error (workers s) w with
  | None => Ok s
  | Some (Done, _) => Ok s
  | Some (p, h) =>
      if gone s then UB else
      let at_ s q := set_workers s (put (workers s) w (q, h)) in
      match p with
      | Check => Ok (if flag s then at_ s Look else note (at_ s Done) (Ended w))
      | Look => Ok (at_ s (Call (fd s)))
      | Call f => Ok (at_ s (match files s f with Nothing => Check | Mine l => if down s l then Check else Waiting (Some l) | Theirs => Waiting None end))
      | Waiting l =>
          if match l with Some l => down s l | None => false end then Ok (at_ s Check)
          else match a with Connects => Ok (note (at_ s Inner) (Took w l)) | Fails => Ok (at_ s Check) | _ => Ok s end
      | Inner => Ok (if flag s then at_ s Reading else at_ s Check)
      | Reading => match a with Message true => Ok (at_ s Busy) | Message false => Ok (at_ s Inner) | _ => Ok (at_ s Check) end
      | Busy => Ok (at_ s Inner)
      | Done => Ok s
      end
  end.
(** Moves that are not possible do nothing; the owner does nothing more with a server that it has destroyed. *)
Definition step (s : server) (m : move) : outcome server :=
  let idle := match owner s with Idle => negb (gone s) | _ => false end in
  match m with
  | M_create => Ok (if idle then begin_close (set_owner s (Opening None)) true else s)
  | M_serv n => Ok (if idle then set_owner s (Opening (Some n)) else s)
  | M_run n sync => Ok (if idle then begin_run s n sync else s)
  | M_join => Ok (if idle then set_owner s (Joining O false) else s)
  | M_destroy => Ok (if idle then set_gone (drop_slots (set_slots s []) (slots s)) else s)
  | M_owner f ok => owner_step s f ok
  | M_stop => if gone s then Ok s else Ok (begin_close (set_flag s false) false)
  | M_close k => close_step s k
  | M_worker w a => worker_step s w a
  | M_theirs f => Ok (match files s f with Nothing => if 0 <=? f then set_file s f Theirs else s | _ => s end)
  end.
Fixpoint run (s : server) (ms : list move) : outcome server := match ms with [] => Ok s | m :: r => let* s1 := step s m in run s1 r end.
