(** Model of src/concurrent/lock.h: scoped_lock and synchronized blocks, in programs with exceptions and returns.
    The objects behind the interface lockable are the environment: what each call of lock() does, and whether unlock() throws, may
    depend on all that happened before.  One thread; threads that exclude each other are the matter of Mutex_Model.v. *)
From Verif Require Import Common.
Local Open Scope Z_scope.

(** What lock() does (lock.h:47) *)
Inductive lres := Yes | No | Thrown.
(** What happens: a lockable is made by rlock or wlock (rwmutex.h:125-143), lock(), unlock(), a lockable is destroyed, a step of the program *)
Inductive ev := ENew (i : Z) | ELock (i : Z) (r : lres) | EUnlock (i : Z) | EDelete (i : Z) | EAct (n : Z).
(** How a statement ends: at its end, with an exception, with return, or the program is gone (undefined, or std::terminate because
    a destructor threw) *)
Inductive flow := Go | Exn | Back | Dead.
(** The argument of scoped_lock: a lockable&, or a unique_ptr<lockable>, which may be empty *)
Inductive which := Ref (i : Z) | Own (i : option Z).
(** Programs.  [Scope w b e]: a scoped_lock on w, [b] if it is true, else [e]: synchronized(w) b else e (lock.h:92-98; the reference
    keeps the object alive to the end of the if statement), and with b = e the rest of a block after scoped_lock lk(w). *)
Inductive stmt := Act (n : Z) | Raise | Return | Seq (a b : stmt) | Try (a b : stmt) | Scope (w : which) (b e : stmt).

(** lock.h:84-86 *)
Record scoped := Scoped { l : option Z; lp : option Z; need_unlock : bool }.

Section Env.
Variable lock : list ev -> Z -> lres.
Variable unlock_throws : list ev -> Z -> bool.
(** lock.h:54-68.  If lock() throws, the members made so far are destroyed: lp deletes its object. *)
Definition make (w : which) (h : list ev) : list ev * (scoped + flow) :=
  match w with
  | Ref i =>
      let r := lock h i in
      (h ++ [ELock i r], match r with Yes => inl (Scoped (Some i) None true) | No => inl (Scoped (Some i) None false) | Thrown => inr Exn end)
  | Own None => (h, inr Dead)
  | Own (Some i) =>
      let h := h ++ [ENew i] in
      let r := lock h i in
      let h := h ++ [ELock i r] in
      match r with
      | Yes => (h, inl (Scoped None (Some i) true))
      | No => (h, inl (Scoped None (Some i) false))
      | Thrown => (h ++ [EDelete i], inr Exn)
      end
  end.
(** the implicit destructor of lp *)
Definition drop_lp (s : scoped) (h : list ev) : list ev := match lp s with Some i => h ++ [EDelete i] | None => h end.
(** lock.h:70-77; [k]: how the block ended.  A destructor that throws ends the program. *)
Definition leave (s : scoped) (k : flow) (h : list ev) : list ev * flow :=
  if need_unlock s then
    match (match l s with Some i => Some i | None => lp s end) with
    | Some i => if unlock_throws h i then (h ++ [EUnlock i], Dead) else (drop_lp s (h ++ [EUnlock i]), k)
    | None => (h, Dead)
    end
  else (drop_lp s h, k).
(** lock.h:79-81 with safe_bool.h:53-56 *)
Definition bool_test (s : scoped) : bool := need_unlock s.

Fixpoint run (p : stmt) (h : list ev) : list ev * flow :=
  match p with
  | Act n => (h ++ [EAct n], Go)
  | Raise => (h, Exn)
  | Return => (h, Back)
  | Seq a b => match run a h with (h, Go) => run b h | x => x end
  | Try a b => match run a h with (h, Exn) => run b h | x => x end
  | Scope w b e =>
      match make w h with
      | (h, inr k) => (h, k)
      | (h, inl s) =>
          match (if bool_test s then run b h else run e h) with
          | (h, Dead) => (h, Dead)
          | (h, k) => leave s k h
          end
      end
  end.
End Env.
