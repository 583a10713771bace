(** Model of src/concurrent/rwmutex.cpp and the scoped locks of rwmutex.h.
    The pthread read-write lock is its set of holders.  Each pthread call returns a code; by
    POSIX the lock has been acquired exactly when the code is 0, and it can only be 0 when the
    lock is free for that mode.  Which code is returned is chosen by the environment; a call
    that blocks for now is not yet a step.  [valid] is taken as true. *)
From Verif Require Import Common.
From Coq Require Import QArith.
Open Scope nat_scope.

Definition tid := nat.
Inductive mode := Read | Write.
Record rwlock := mkL { readers : list tid; writer : option tid }.
Definition free : rwlock := mkL [] None.
Definition available (m : mode) (l : rwlock) : bool :=
  match m, l with
  | Read, mkL _ None => true
  | Write, mkL [] None => true
  | _, _ => false
  end.
Definition acquire (t : tid) (m : mode) (l : rwlock) : rwlock :=
  match m with Read => mkL (t :: readers l) (writer l) | Write => mkL (readers l) (Some t) end.
Fixpoint remove1 (t : tid) (l : list tid) : list tid :=
  match l with [] => [] | x :: l => if Nat.eqb x t then l else x :: remove1 t l end.

(** pthread_rwlock_rdlock and the like returning code [r]; [None]: it cannot do so now. *)
Definition pthread_lock (t : tid) (m : mode) (r : Z) (l : rwlock) : option (rwlock * Z) :=
  if Z.eqb r 0 then (if available m l then Some (acquire t m l, 0%Z) else None) else Some (l, r).
(** pthread_rwlock_unlock; by a thread that holds nothing it is undefined *)
Definition pthread_unlock (t : tid) (l : rwlock) : outcome rwlock :=
  if match writer l with Some u => Nat.eqb u t | None => false end then Ok (mkL (readers l) None)
  else if existsb (Nat.eqb t) (readers l) then Ok (mkL (remove1 t (readers l)) (writer l)) else UB.

Definition tiny (sec : Q) : bool := negb (Qle_bool (1 # 1000000000) sec).   (* sec<1e-9 *)

(** The four lock calls; [None] for the timeout: the overload without one. *)
Definition lock_call (t : tid) (m : mode) (timeout : option Q) (r : Z) (l : rwlock) : option (rwlock * bool) :=
  match pthread_lock t m r l with
  | None => None
  | Some (l', code) =>
      Some (l',
        match m, timeout with
        | Read, None => Z.eqb code 0                                                 (* rwmutex.cpp:87-91 *)
        | Read, Some sec => if tiny sec then negb (Z.eqb code 0) else Z.eqb code 0    (* 93-106: 99 returns the int itself *)
        | Write, None => Z.eqb code 0                                                (* 108-112 *)
        | Write, Some sec => if tiny sec then Z.eqb code 0 else Z.eqb code 0          (* 114-128 *)
        end)
  end.

(** scoped_rwlock, rwmutex.h:167-201, in any number of threads: open scopes, innermost first *)
Record scope := mkScope { s_tid : tid; s_mode : mode; need_unlock : bool }.
Record world := mkW { lk : rwlock; scopes : list scope }.
Inductive action := Enter (t : tid) (m : mode) (sec : Q) (r : Z) | Leave (t : tid).
Fixpoint pop (t : tid) (l : list scope) : option (scope * list scope) :=
  match l with
  | [] => None
  | s :: l => if Nat.eqb (s_tid s) t then Some (s, l) else match pop t l with Some (x, l') => Some (x, s :: l') | None => None end
  end.
Definition act (a : action) (w : world) : outcome (option world) :=   (* Ok None: not possible now *)
  match a with
  | Enter t m sec r =>                                                               (* 171-182; the default sec is -1 *)
      match lock_call t m (if Qle_bool 0 sec then Some sec else None) r (lk w) with
      | None => Ok None
      | Some (l', b) => Ok (Some (mkW l' (mkScope t m b :: scopes w)))
      end
  | Leave t =>                                                                       (* 190-193 *)
      match pop t (scopes w) with
      | None => Ok None
      | Some (s, rest) => if need_unlock s then (let* l' := pthread_unlock t (lk w) in Ok (Some (mkW l' rest))) else Ok (Some (mkW (lk w) rest))
      end
  end.
Fixpoint acts (l : list action) (w : world) : outcome (option world) :=
  match l with
  | [] => Ok (Some w)
  | a :: l => let* x := act a w in match x with None => Ok None | Some w' => acts l w' end
  end.
