(** Model of src/concurrent/mutex.cpp and of condition::wait in src/concurrent/condition.cpp,
    one memory access or pthread call per step, for any number of threads calling lock, unlock
    and wait in any order on one mutex.
    The pthread mutex is its owner.  Simplifications: memory is sequentially consistent (the
    code reads holder and cnt without the mutex); the pthread calls do not fail; the int
    recursion count is unbounded.  Thread identifiers (gettid) are positive. *)
From Verif Require Import Common.
Local Open Scope Z_scope.

Definition tid := positive.
(** Where a thread is; the arguments are its local variables. *)
Inductive pc :=
| Idle
| Lk0 | LkN1 | LkN2 | Lk1 | Lk2 | Lk2w (c : Z) | Lk3 | Lk4 | Lk5
| Un0 | UnN1 | UnN2 | Un1 | Un2 | Un2w (c : Z) | Un3 | Un4
| Wt0 | Wt1 | Wt2 (h : Z) | Wt3 (h c : Z) | Wt4 (h c : Z) | Wt5 (h c : Z)
| WtA (h c : Z)    (* asleep in pthread_cond_wait *)
| WtW (h c : Z)    (* woken, taking the mutex again *)
| Wt8 (h c : Z) | Wt9 (h : Z)
| Undefined.       (* unlocked a pthread mutex it does not own *)

Record mstate := mkM { mid : option tid; holder : Z; cnt : Z; pcs : tid -> pc }.
Definition upd (f : tid -> pc) (t : tid) (x : pc) : tid -> pc := fun u => if Pos.eqb u t then x else f u.

(** What a thread may be told to do: call a method, take the next step, or be woken up (by a
    notification, a timeout or spuriously). *)
Inductive choice := CallLock | CallUnlock | CallWait | Go | Wake.
(** What is seen from outside. *)
Inductive event :=
| Locked (t : tid)                 (* lock() returned true *)
| Unlock (t : tid)                 (* unlock() called *)
| Unlocked (t : tid) (r : bool)    (* unlock() returned r *)
| Wait (t : tid)                   (* wait called *)
| Waited (t : tid) (r : bool).     (* wait returned; r: it did wait *)

(** mutex.cpp:57-63 *)
Definition init (recursive : bool) : mstate := mkM None (-1) (if recursive then 0 else -1) (fun _ => Idle).

Definition self (t : tid) : Z := Zpos t.

Definition exec (t : tid) (ch : choice) (s : mstate) : option (mstate * list event) :=
  let goto p := mkM (mid s) (holder s) (cnt s) (upd (pcs s) t p) in
  let set_holder z p := mkM (mid s) z (cnt s) (upd (pcs s) t p) in
  let set_cnt z p := mkM (mid s) (holder s) z (upd (pcs s) t p) in
  let set_mid m p := mkM m (holder s) (cnt s) (upd (pcs s) t p) in
  match pcs s t, ch with
  | Idle, CallLock => Some (goto Lk0, [])
  | Idle, CallUnlock => Some (goto Un0, [Unlock t])
  | Idle, CallWait => Some (goto Wt0, [Wait t])
  (* lock, mutex.cpp:71-97 *)
  | Lk0, Go => Some (goto (if cnt s <? 0 then LkN1 else Lk1), [])                                   (* 76 *)
  | LkN1, Go => match mid s with None => Some (set_mid (Some t) LkN2, []) | Some _ => None end      (* 77 *)
  | LkN2, Go => Some (set_holder (self t) Idle, [Locked t])                                         (* 79-80 *)
  | Lk1, Go => Some (goto (if self t =? holder s then Lk2 else Lk3), [])                            (* 83 *)
  | Lk2, Go => Some (goto (Lk2w (cnt s)), [])                                                       (* 84, read *)
  | Lk2w c, Go => Some (set_cnt (c + 1) Idle, [Locked t])                                           (* 84-85, write *)
  | Lk3, Go => match mid s with None => Some (set_mid (Some t) Lk4, []) | Some _ => None end        (* 88 *)
  | Lk4, Go => Some (set_cnt 1 Lk5, [])                                                             (* 93 *)
  | Lk5, Go => Some (set_holder (self t) Idle, [Locked t])                                          (* 94-96 *)
  (* unlock, 99-120 *)
  | Un0, Go => Some (goto (if cnt s <? 0 then UnN1 else Un1), [])                                   (* 101 *)
  | UnN1, Go => Some (set_holder (-1) UnN2, [])                                                     (* 103 *)
  | UnN2, Go => match mid s with                                                                    (* 104 *)
                | Some u => if Pos.eqb u t then Some (set_mid None Idle, [Unlocked t true]) else Some (goto Undefined, [])
                | None => Some (goto Undefined, []) end
  | Un1, Go => if self t =? holder s then Some (goto Un2, []) else Some (goto Idle, [Unlocked t false])  (* 109, 119 *)
  | Un2, Go => Some (goto (Un2w (cnt s)), [])                                                       (* 110, read *)
  | Un2w c, Go => if c - 1 =? 0 then Some (set_cnt (c - 1) Un3, []) else Some (set_cnt (c - 1) Idle, [Unlocked t true])  (* 110, 116 *)
  | Un3, Go => Some (set_holder (-1) Un4, [])                                                       (* 111 *)
  | Un4, Go => match mid s with                                                                     (* 112-114 *)
               | Some u => if Pos.eqb u t then Some (set_mid None Idle, [Unlocked t true]) else Some (goto Undefined, [])
               | None => Some (goto Undefined, []) end
  (* condition::wait, condition.cpp:107-130; the timed overload, 132-158, differs in the result only *)
  | Wt0, Go => if self t =? holder s then Some (goto Wt1, []) else Some (goto Idle, [Waited t false])  (* 110 *)
  | Wt1, Go => Some (goto (Wt2 (holder s)), [])                                                     (* 118 *)
  | Wt2 h, Go => Some (goto (if 0 <=? cnt s then Wt3 h (cnt s) else Wt5 h (cnt s)), [])             (* 119-120 *)
  | Wt3 h c, Go => Some (set_holder 0 (Wt4 h c), [])                                                (* 121 *)
  | Wt4 h c, Go => Some (set_cnt 0 (Wt5 h c), [])                                                   (* 122 *)
  | Wt5 h c, Go => match mid s with                                                                 (* 126: release and sleep *)
                   | Some u => if Pos.eqb u t then Some (set_mid None (WtA h c), []) else Some (goto Undefined, [])
                   | None => Some (goto Undefined, []) end
  | WtA h c, Wake => Some (goto (WtW h c), [])
  | WtW h c, Go => match mid s with None => Some (set_mid (Some t) (Wt8 h c), []) | Some _ => None end  (* 126: take the mutex again *)
  | Wt8 h c, Go => Some (set_cnt c (Wt9 h), [])                                                     (* 128 *)
  | Wt9 h, Go => Some (set_holder h Idle, [Waited t true])                                          (* 129 *)
  | _, _ => None
  end.

Fixpoint run (sched : list (tid * choice)) (s : mstate) : option (mstate * list event) :=
  match sched with
  | [] => Some (s, [])
  | (t, ch) :: rest =>
      match exec t ch s with
      | None => None
      | Some (s1, e1) => match run rest s1 with None => None | Some (s2, e2) => Some (s2, e1 ++ e2) end
      end
  end.
