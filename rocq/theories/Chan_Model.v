(** Model of src/concurrent/chan.h for any number of channels and threads.  The channels made
    by [dup] from one channel share a link; each has its own mutex.  The mutexes are taken as
    verified in Mutex_*.v: taking one is a step that waits for it to be free.  Every lock,
    unlock, queue operation and notification is a separate step.  Simplifications: the set of
    channels (std::set of addresses) is a list without order; locking never fails; a destroyed
    channel keeps its (unreachable) data. *)
From Verif Require Import Common.

(** The conversion of dat.size() to int, chan.h:96 *)
Definition to_int (n : nat) : Z := ((Z.of_nat n + 2 ^ 31) mod 2 ^ 32 - 2 ^ 31)%Z.

Section Chan.
  Context {T : Type}.
  Definition chan := nat.
  Definition tid := nat.
  Inductive op := OWrite (m : T) | ORead (c : chan) | OUnget (c : chan) (m : T) | ODup | ODestroy (c : chan) | OSize (c : chan) | OEmpty (c : chan).
  (** What an operation did. *)
  Inductive effect := Wrote (m : T) | Took (c : chan) (m : T) | Ungot (c : chan) (m : T) | Created (c : chan) | Destroyed (c : chan) | Sized (c : chan) (n : Z) | Tested (c : chan) (b : bool).
  (** [Call] and [Ret] are what the threads see; [Commit] marks the step at which the operation takes its place in the order of the log. *)
  Inductive event := Call (t : tid) (o : op) | Commit (t : tid) (e : effect) | Ret (t : tid) (e : effect).

  Inductive pc :=
  | Idle
  | W0 (m : T) | W1 (m : T) (todo : list chan)
  | W2 (m : T) (c : chan) (todo : list chan) | W3 (m : T) (c : chan) (todo : list chan)
  | W4 (m : T) (c : chan) (todo : list chan) | W5 (m : T) (c : chan) (todo : list chan)
  | R0 (c : chan) | R1 (c : chan) | Rs (c : chan) | RA (c : chan) | RW (c : chan) | R2 (c : chan) | R3 (c : chan) (m : T)
  | U0 (c : chan) (m : T) | U1 (c : chan) (m : T) | U2 (c : chan) (m : T) | U3 (c : chan) (m : T)
  | D0 | D1 | D2 (c : chan)
  | X0 (c : chan) | X1 (c : chan) | X2 (c : chan)
  | S0 (c : chan) | S1 (c : chan) | S2 (c : chan) (n : Z) | E0 (c : chan) | E1 (c : chan) | E2 (c : chan) (b : bool).

  Record state := mkS {
    lown : option tid;            (* holder of the link's mutex *)
    cs : list chan;               (* link::cs *)
    next : chan;                  (* channels created so far *)
    dat : chan -> list T;         (* chan::dat *)
    own : chan -> option tid;     (* holder of chan::m *)
    pcs : tid -> pc }.

  (** chan(), chan.h:51-54: one channel, number 0 *)
  Definition init : state := mkS None [0] 1 (fun _ => []) (fun _ => None) (fun _ => Idle).

  Definition upd {A} (f : nat -> A) (n : nat) (x : A) : nat -> A := fun m => if Nat.eqb m n then x else f m.
  (** condition::notify_all on channel [c] *)
  Definition wake (c : chan) (p : tid -> pc) : tid -> pc :=
    fun u => match p u with RA d => if Nat.eqb d c then RW d else RA d | x => x end.

  Inductive choice := Invoke (o : op) | Go | Spurious.

  Definition exec (t : tid) (ch : choice) (s : state) : option (state * list event) :=
    let goto p := mkS (lown s) (cs s) (next s) (dat s) (own s) (upd (pcs s) t p) in
    let take_link p := match lown s with None => Some (mkS (Some t) (cs s) (next s) (dat s) (own s) (upd (pcs s) t p)) | Some _ => None end in
    let drop_link p := mkS None (cs s) (next s) (dat s) (own s) (upd (pcs s) t p) in
    let take c p := match own s c with None => Some (mkS (lown s) (cs s) (next s) (dat s) (upd (own s) c (Some t)) (upd (pcs s) t p)) | Some _ => None end in
    let drop c p := mkS (lown s) (cs s) (next s) (dat s) (upd (own s) c None) (upd (pcs s) t p) in
    let store c l p := mkS (lown s) (cs s) (next s) (upd (dat s) c l) (own s) (upd (pcs s) t p) in
    let notify c p := mkS (lown s) (cs s) (next s) (dat s) (own s) (upd (wake c (pcs s)) t p) in
    let silent x := match x with Some st => Some (st, []) | None => None end in
    match ch, pcs s t with
    | Invoke (OWrite m), Idle => Some (goto (W0 m), [Call t (OWrite m)])
    | Invoke (ORead c), Idle => if Nat.ltb c (next s) then Some (goto (R0 c), [Call t (ORead c)]) else None
    | Invoke (OUnget c m), Idle => if Nat.ltb c (next s) then Some (goto (U0 c m), [Call t (OUnget c m)]) else None
    | Invoke ODup, Idle => Some (goto D0, [Call t ODup])
    | Invoke (ODestroy c), Idle => if Nat.ltb c (next s) then Some (goto (X0 c), [Call t (ODestroy c)]) else None
    | Invoke (OSize c), Idle => if Nat.ltb c (next s) then Some (goto (S0 c), [Call t (OSize c)]) else None
    | Invoke (OEmpty c), Idle => if Nat.ltb c (next s) then Some (goto (E0 c), [Call t (OEmpty c)]) else None
    (* write, 67-72 *)
    | Go, W0 m => match take_link (W1 m (cs s)) with Some st => Some (st, [Commit t (Wrote m)]) | None => None end
    | Go, W1 m [] => Some (drop_link Idle, [Ret t (Wrote m)])
    | Go, W1 m (c :: todo) => Some (goto (W2 m c todo), [])
    (* put, 125-133 *)
    | Go, W2 m c todo => silent (take c (W3 m c todo))
    | Go, W3 m c todo => Some (store c (dat s c ++ [m]) (W4 m c todo), [])
    | Go, W4 m c todo => Some (drop c (W5 m c todo), [])
    | Go, W5 m c todo => Some (notify c (W1 m todo), [])
    (* read, 74-80 *)
    | Go, R0 c => silent (take c (R1 c))
    | Go, R1 c => Some (goto (match dat s c with [] => Rs c | _ => R2 c end), [])
    | Go, Rs c => Some (drop c (RA c), [])
    | Go, RW c => silent (take c (R1 c))
    | Spurious, RA c => Some (goto (RW c), [])
    | Go, R2 c => match dat s c with
                  | v :: rest => Some (store c rest (R3 c v), [Commit t (Took c v)])
                  | [] => None end
    | Go, R3 c v => Some (drop c Idle, [Ret t (Took c v)])
    (* unget, 82-90 *)
    | Go, U0 c m => silent (take c (U1 c m))
    | Go, U1 c m => Some (store c (m :: dat s c) (U2 c m), [Commit t (Ungot c m)])
    | Go, U2 c m => Some (drop c (U3 c m), [])
    | Go, U3 c m => Some (notify c Idle, [Ret t (Ungot c m)])
    (* dup, 63-65, and the private constructor, 117-123 *)
    | Go, D0 => silent (take_link D1)
    | Go, D1 => Some (mkS (lown s) (next s :: cs s) (S (next s)) (dat s) (own s) (upd (pcs s) t (D2 (next s))), [Commit t (Created (next s))])
    | Go, D2 c => Some (drop_link Idle, [Ret t (Created c)])
    (* ~chan, 56-61 *)
    | Go, X0 c => silent (take_link (X1 c))
    | Go, X1 c => Some (mkS (lown s) (List.remove Nat.eq_dec c (cs s)) (next s) (dat s) (own s) (upd (pcs s) t (X2 c)), [Commit t (Destroyed c)])
    | Go, X2 c => Some (drop_link Idle, [Ret t (Destroyed c)])
    (* size, 92-100 *)
    | Go, S0 c => silent (take c (S1 c))
    | Go, S1 c => Some (goto (S2 c (to_int (length (dat s c)))), [Commit t (Sized c (to_int (length (dat s c))))])
    | Go, S2 c n => Some (drop c Idle, [Ret t (Sized c n)])
    (* empty, 102-108 *)
    | Go, E0 c => silent (take c (E1 c))
    | Go, E1 c => let b := match dat s c with [] => true | _ => false end in Some (goto (E2 c b), [Commit t (Tested c b)])
    | Go, E2 c b => Some (drop c Idle, [Ret t (Tested c b)])
    | _, _ => None
    end.

  Fixpoint trace (sched : list (tid * choice)) (s : state) : option (state * list event) :=
    match sched with
    | [] => Some (s, [])
    | (t, ch) :: rest =>
        match exec t ch s with
        | None => None
        | Some (s1, e1) => match trace rest s1 with None => None | Some (s2, e2) => Some (s2, e1 ++ e2) end
        end
    end.
  Definition visible (e : event) : bool := match e with Commit _ _ => false | _ => true end.
  (** An execution: the final state and what the threads saw. *)
  Definition run (sched : list (tid * choice)) : option (state * list event) :=
    match trace sched init with None => None | Some (s, l) => Some (s, List.filter visible l) end.
End Chan.
Arguments state : clear implicits.
Arguments event : clear implicits.
Arguments pc : clear implicits.
Arguments op : clear implicits.
Arguments effect : clear implicits.
Arguments choice : clear implicits.
