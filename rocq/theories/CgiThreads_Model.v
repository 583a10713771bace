(** Model of the threads of the embedded web server: src/network/cgi/server.cpp:127-188, 236-283, with
    thread.cpp (a thread object that goes detaches a running thread) and base.h:46-59 (clone).
    One owner that calls run(), join() and the destructor, and the threads that it starts, under any
    schedule.  The environment decides whether a clone can be made, whether a thread can be started, what
    accept() gives and how each part of a request ends.  What a request carries is in CgiServer_Model.
    Simplifications: each connection comes out of accept() once; the reference to the CGI object of the
    caller stays valid; memory does not run out. *)
From Verif Require Import Common CgiThreads_Spec.
Local Open Scope Z_scope.

(** A thread in process() (server.cpp:236-283): not begun yet; in accept(); with a connection before the
    timeout is set (:243), in the constructor of request (:247), in exec() (:275), in send() (:278) *)
Inductive wpc := Fresh | Accepting | Timing (c : nat) | Reading (c : nat) | Working (c : nat) | Sending (c : nat).
Record worker := mkW { pc : wpc; object : nat }.
(** The owner: in no call; in run() with the clones made so far, starting threads, in join() from run(), called or from the destructor *)
Inductive why := Sync | Called | Dying.
Inductive opc := Idle | Cloning (sync : bool) (cs : list nat) | Starting (sync : bool) (i : nat) (cs : list nat) | Joining (j : nat) (y : why).
(** listening: ssock is not null; threads: thread_num; ths: thread objects, with the thread that they run *)
Record server := mk { listening : bool; threads : Z; ths : list (option nat); owner : opc; workers : list worker; objects : nat; conns : nat; gone : bool; dead : bool; log : list event }.

(** server.cpp:127-132 *)
Definition fresh (l : bool) (n : Z) : server := mk l n [] Idle [] 0 0 false false [].

Definition set_ths s x := mk (listening s) (threads s) x (owner s) (workers s) (objects s) (conns s) (gone s) (dead s) (log s).
Definition set_owner s x := mk (listening s) (threads s) (ths s) x (workers s) (objects s) (conns s) (gone s) (dead s) (log s).
Definition set_workers s x := mk (listening s) (threads s) (ths s) (owner s) x (objects s) (conns s) (gone s) (dead s) (log s).
Definition new_object s := mk (listening s) (threads s) (ths s) (owner s) (workers s) (S (objects s)) (conns s) (gone s) (dead s) (log s).
Definition new_conn s := mk (listening s) (threads s) (ths s) (owner s) (workers s) (objects s) (S (conns s)) (gone s) (dead s) (log s).
Definition set_gone s := mk (listening s) (threads s) (ths s) (owner s) (workers s) (objects s) (conns s) true (dead s) (log s).
Definition set_dead s := mk (listening s) (threads s) (ths s) (owner s) (workers s) (objects s) (conns s) (gone s) true (log s).
Definition note s e := mk (listening s) (threads s) (ths s) (owner s) (workers s) (objects s) (conns s) (gone s) (dead s) (log s ++ [e]).

Fixpoint put {T} (l : list T) (i : nat) (x : T) : list T := match l, i with [], _ => [] | _ :: r, O => x :: r | y :: r, S k => y :: put r k x end.

(** How a call ends: it succeeds, it fails (for the parts of a request: with a std::exception), it throws something else *)
Inductive answer := Good | Fails | Other.
Inductive move := M_run (sync : bool) | M_join | M_destroy | M_owner (ok : bool) | M_worker (w : nat) (a : answer).

(** The end of a call of the owner, and of the loops in join() (server.cpp:183-188) *)
Definition return_ (s : server) (y : why) : server :=
  let s1 := set_owner (set_ths s []) Idle in match y with Dying => note (set_gone s1) Destroyed | _ => note s1 Returned end.
(** server.cpp:156-181.  :164 drops the thread objects: threads that run go on, detached.  :165 a negative
    number is a length that no vector has: it throws. *)
Definition begin_run (s : server) (sync : bool) : server :=
  if negb (listening s) then note s Returned
  else let s1 := set_ths s [] in
       if threads s <? 0 then note s1 Threw else set_owner s1 (Cloning sync []).
Definition owner_step (s : server) (ok : bool) : server :=
  match owner s with
  | Idle => s
  | Cloning sync cs => (* :167-169 *)
      if Nat.eqb (length cs) (Z.to_nat (threads s)) then set_owner s (Starting sync 0 cs)
      else if ok then set_owner (new_object s) (Cloning sync (cs ++ [objects s])) else note (set_owner s Idle) Threw
  | Starting sync i cs => (* :170-180 *)
      match nth_error cs i with
      | None => if sync then set_owner s (Joining 0 Sync) else note (set_owner s Idle) Returned
      | Some k => if ok then let w := length (workers s) in
                             note (set_owner (set_workers (set_ths s (ths s ++ [Some w])) (workers s ++ [mkW Fresh k])) (Starting sync (S i) cs)) (Started w)
                  else note (set_owner (set_ths s (ths s ++ [None])) Idle) Threw
      end
  | Joining j y => (* :185-187; join() of a thread object without thread returns at once, and no thread ever ends *)
      match nth_error (ths s) j with
      | None => return_ s y
      | Some None => set_owner s (Joining (S j) y)
      | Some (Some _) => s
      end
  end.
(** process(); a thread that begins when its run_server is gone calls a member function of an object that is not there.
    The connection is closed with the last pointer to it, at the end of the round (:240, 241, 244, 280). *)
Definition worker_step (s : server) (w : nat) (a : answer) : outcome server :=
  match nth_error (workers s) w with
  | None => Ok s
  | Some (mkW p k) =>
      let at_ s p := set_workers s (put (workers s) w (mkW p k)) in
      let again s c := at_ (note s (Closed w c)) Accepting in
      match p with
      | Fresh => if gone s then UB else Ok (at_ s Accepting)
      | Accepting => match a with Good => Ok (at_ (note (new_conn s) (Accepted w (conns s))) (Timing (conns s))) | _ => Ok s end
      | Timing c => match a with Good => Ok (at_ s (Reading c)) | _ => Ok (again s c) end
      | Reading c => match a with Good => Ok (at_ (note s (Begin w k c)) (Working c)) | _ => Ok (again s c) end
      | Working c => match a with
                     | Good => Ok (at_ (note s (End w k c)) (Sending c))
                     | Fails => Ok (again (note s (End w k c)) c)
                     | Other => Ok (set_dead (note s Terminated))   (* :280 catches std::exception only; thread.cpp:178-184 nothing *)
                     end
      | Sending c => Ok (again s c)
      end
  end.
Definition step (s : server) (m : move) : outcome server :=
  if dead s then Ok s else
  match m with
  | M_worker w a => worker_step s w a
  | M_owner ok => Ok (owner_step s ok)
  | _ => if gone s then UB else
         match owner s with
         | Idle => Ok (match m with M_run sync => begin_run s sync | M_join => set_owner s (Joining 0 Called) | _ => set_owner s (Joining 0 Dying) end)  (* :134-137 *)
         | _ => Ok s
         end
  end.
Fixpoint run (s : server) (ms : list move) : outcome server := match ms with [] => Ok s | m :: r => let* s := step s m in run s r end.
Definition reached (l : bool) (n : Z) (s : server) : Prop := exists ms, run (fresh l n) ms = Ok s.
