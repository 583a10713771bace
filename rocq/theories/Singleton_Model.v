(** Model of src/lang/singleton.h:41-64 over src/concurrent/lock.h:51-98 and mutex.cpp:71-104 (a mutex that is
    not recursive; see Mutex_Model): any number of threads, any schedule.
    Simplifications: the constructor of T does nothing but succeed, throw, or call instance() of the same
    singleton; no thread is cancelled; memory does not run out. *)
From Verif Require Import Common Singleton_Spec.

(** Before the constructor of the static mutex has run (:63-64), between, after its destructor *)
Inductive phase := Before | Ready | After.
(** A thread: in no call; in pthread_mutex_lock (mutex.cpp:77); before the test (:49); in new T() (:50); in the
    destructor of the scoped_lock (lock.h:70-77) with what it gives back; in pthread_mutex_lock for ever *)
Inductive pc := Out | Waiting | Inside | Making | Leaving (r : option nat) | Blocked.
Record state := mk { when : phase; holder : option nat; ptr : option nat; pcs : nat -> pc; objects : nat; log : list event }.

(** :60-61 is initialised before any code runs *)
Definition start : state := mk Before None None (fun _ => Out) 0 [].
Definition put (f : nat -> pc) (t : nat) (x : pc) : nat -> pc := fun u => if Nat.eqb u t then x else f u.

(** again: the constructor of T calls instance() *)
Inductive move := M_init | M_exit | M_call (t : nat) | M_lock (t : nat) (ok : bool) | M_go (t : nat) (good : bool) | M_again (t : nat).

Definition step (s : state) (m : move) : outcome state :=
  let at_ t x := mk (when s) (holder s) (ptr s) (put (pcs s) t x) (objects s) (log s) in
  match m with
  | M_init => match when s with Before => Ok (mk Ready (holder s) (ptr s) (pcs s) (objects s) (log s)) | _ => Ok s end
  | M_exit => match when s with Ready => Ok (mk After (holder s) (ptr s) (pcs s) (objects s) (log s)) | _ => Ok s end
  | M_call t => match pcs s t with
                | Out => match when s with Ready => Ok (at_ t Waiting) | _ => UB end   (* no mutex there *)
                | _ => Ok s end
  | M_lock t ok =>
      match pcs s t with
      | Waiting => match when s with
                   | Ready => if ok then match holder s with
                                         | None => Ok (mk (when s) (Some t) (ptr s) (put (pcs s) t Inside) (objects s) (log s))
                                         | Some _ => Ok s
                                         end
                              else UB   (* :48 the block is skipped, :53 a function that returns a reference ends without return *)
                   | _ => UB end
      | _ => Ok s end
  | M_go t good =>
      match pcs s t with
      | Inside => match ptr s with Some k => Ok (at_ t (Leaving (Some k))) | None => Ok (at_ t Making) end
      | Making => if good then Ok (mk (when s) (holder s) (Some (objects s)) (put (pcs s) t (Leaving (Some (objects s)))) (S (objects s)) (log s ++ [Made t (objects s)]))
                  else Ok (mk (when s) (holder s) (ptr s) (put (pcs s) t (Leaving None)) (objects s) (log s ++ [Failed t]))
      | Leaving r => match when s with
                     | Ready => Ok (mk (when s) None (ptr s) (put (pcs s) t Out) (objects s) (log s ++ [match r with Some k => Got t k | None => Threw t end]))
                     | _ => UB end
      | _ => Ok s end
  | M_again t => match pcs s t with Making => Ok (at_ t Blocked) | _ => Ok s end   (* the mutex is not recursive *)
  end.
Fixpoint run (s : state) (ms : list move) : outcome state := match ms with [] => Ok s | m :: r => let* s := step s m in run s r end.
Definition reached (s : state) : Prop := exists ms, run start ms = Ok s.
