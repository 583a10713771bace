(** What a read-write lock and its scoped locks promise. *)
From Verif Require Import Common RwMutex_Model.
From Coq Require Import QArith.
Open Scope nat_scope.

Definition held (t : tid) (m : mode) (l : rwlock) : nat :=
  match m with Read => count_occ Nat.eq_dec (readers l) t | Write => match writer l with Some u => if Nat.eqb u t then 1 else 0 | None => 0 end end.
(** How many open scopes of [t] say they have locked in mode [m]. *)
Definition claims (t : tid) (m : mode) (s : list scope) : nat :=
  length (filter (fun x => Nat.eqb (s_tid x) t && match s_mode x, m with Read, Read | Write, Write => true | _, _ => false end && need_unlock x) s).
(** Readers and writers exclude each other. *)
Definition excluded (s : list scope) : Prop :=
  forall t u, 0 < claims t Write s -> claims u Read s = 0 /\ (0 < claims u Write s -> u = t) /\ claims t Write s = 1.
(** The one form of lock call that is wrong: a read lock with a timeout below a nanosecond (but given). *)
Definition bad_call (m : mode) (timeout : option Q) : Prop := match m, timeout with Read, Some sec => (sec < 1 # 1000000000)%Q | _, _ => False end.
Definition avoids_bad (a : action) : Prop := match a with Enter _ m sec _ => ~ bad_call m (if Qle_bool 0 sec then Some sec else None) | Leave _ => True end.
