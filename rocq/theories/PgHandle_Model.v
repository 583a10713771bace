(** Model of src/database/postgresql/{connection,connection_def,statement,result}.{h,cpp}: what happens to the objects of libpq.  Handles are numbered as libpq hands them out; a number
    is not used again.  A postgresql_connection_impl is an entry of [impls]: its handle and the count of the shared_ptrs to it.  What libpq answers and where memory runs out are
    parameters of the operations.  One thread. *)
From Verif Require Import Common PgHandle_Spec.
Local Open Scope nat_scope.

Record state := mkS { made : nat; impls : list (nat * nat); conns : list (option nat); stmts : list (option (nat * option nat)); trace : list event }.
Definition note s e := mkS (made s) (impls s) (conns s) (stmts s) (e :: trace s).
Definition take (s : state) : state := mkS (S (made s)) (impls s) (conns s) (stmts s) (Take (made s) :: trace s).
Fixpoint put {T} (l : list T) (i : nat) (x : T) : list T := match l, i with [], _ => [] | _ :: r, O => x :: r | y :: r, S k => y :: put r k x end.
Definition set_impl s i p := mkS (made s) (put (impls s) i p) (conns s) (stmts s) (trace s).
Definition set_conns s l := mkS (made s) (impls s) l (stmts s) (trace s).
Definition set_stmts s l := mkS (made s) (impls s) (conns s) l (trace s).
Definition handle (s : state) (i : nat) : nat := fst (nth i (impls s) (0, 0)).

(** shared_ptr<postgresql_connection_impl>: copying and destroying; connection.cpp:67-73 *)
Definition acquire (s : state) (i : nat) : state := match nth_error (impls s) i with Some (h, n) => set_impl s i (h, S n) | None => s end.
Definition drop (s : state) (i : nat) : state :=
  match nth_error (impls s) i with
  | Some (h, S n) => let s := set_impl s i (h, n) in match n with O => note s (Release h) | S _ => s end
  | _ => s
  end.
(** connection_def.h:49, connection.cpp:75-84: PQstatus is good; or it is not, and is or is not after PQreset; false: database_error *)
Inductive link := Good | Back | Down.
Definition get (s : state) (i : nat) (g : link) : state * bool :=
  let u s := note s (Use (handle s i)) in
  match g with Good => (u s, true) | Back => (u (u (u s)), true) | Down => (u (u (u s)), false) end.

(** what PQprepare and PQexecPrepared return *)
Inductive reply := Null | Error | Success.
(** statement.cpp:61-69, result.cpp:46-69, connection.cpp:117-120; nomem: std::bad_alloc before PQprepare.  PQresultStatus and PQclear take NULL; on an error PQresultErrorMessage is read
    before the result is cleared.  The number of the statement, or an exception *)
Definition prepare (s : state) (i : nat) (g : link) (nomem : bool) (a : reply) : state * option nat :=
  let s := acquire s i in
  let '(s, ok) := get s i g in
  if negb ok || nomem then (drop s i, None) else
  let s := note s (Use (handle s i)) in
  match a with
  | Null => (drop s i, None)
  | Error => let r := made s in (drop (note (note (note (note (take s) (Use r)) (Use r)) (Use r)) (Release r)) i, None)
  | Success => let r := made s in let s := note (note (note (take s) (Use r)) (Use r)) (Release r) in (set_stmts s (stmts s ++ [Some (i, None)]), Some (length (stmts s)))
  end.
(** Where memory runs out: for the object itself or its members, for the counters of the shared_ptr to it (which then deletes the object), or not *)
Inductive memory := Enough | No_object | No_block.
(** statement.cpp:75-109; early: an exception while the arguments are converted (or in run() for the shared_ptr to the statement).  false: an exception *)
Definition execute (s : state) (j : nat) (early : bool) (g : link) (a : reply) (m : memory) : state * bool :=
  match nth j (stmts s) None with
  | None => (s, false)
  | Some (i, old) =>
      if early then (s, false) else
      let '(s, ok) := get s i g in
      if negb ok then (s, false) else
      let s := note s (Use (handle s i)) in
      match a with
      | Null => (s, false)
      | _ =>
          let r := made s in
          let s := take s in
          match m with
          | No_object => (s, false)
          | No_block => (note (note s (Use r)) (Release r), false)
          | Enough =>
              let s := note (note s (Use r)) (Use r) in
              match a with
              | Success => let s := set_stmts s (put (stmts s) j (Some (i, Some r))) in (match old with Some h => note s (Release h) | None => s end, true)
              | _ => (note (note s (Use r)) (Release r), false)
              end
          end
      end
  end.
(** statement.cpp:111-115, result.cpp:76-92 *)
Definition fetch (s : state) (j : nat) : state := match nth j (stmts s) None with Some (_, Some r) => note s (Use r) | _ => s end.
(** statement.cpp:71-73: the result goes, then the shared_ptr to the connection *)
Definition drop_stmt (s : state) (j : nat) : state :=
  match nth j (stmts s) None with
  | Some (i, r) => let s := set_stmts s (put (stmts s) j None) in drop (match r with Some h => note s (Release h) | None => s end) i
  | None => s
  end.
Record asked := mkA { prep_link : link; prep_nomem : bool; prep_reply : reply; run_early : bool; run_link : link; run_reply : reply; run_memory : memory }.
(** connection.cpp:111-115 *)
Definition run (s : state) (i : nat) (q : asked) : state * bool :=
  match prepare s i (prep_link q) (prep_nomem q) (prep_reply q) with
  | (s, None) => (s, false)
  | (s, Some j) => let '(s, ok) := execute s j (run_early q) (run_link q) (run_reply q) (run_memory q) in (drop_stmt s j, ok)
  end.
(** connection.cpp:50-65, 86-89, 122-125: PQisthreadsafe() = 1, PQconnectdb does not give NULL, the status is CONNECTION_OK *)
Definition connect (s : state) (threadsafe notnull good : bool) (m : memory) : state * bool :=
  match m with
  | No_object => (s, false)
  | _ =>
      if negb threadsafe || negb notnull then (s, false) else
      let h := made s in
      let s := note (take s) (Use h) in
      if negb good then (note s (Release h), false) else
      match m with
      | Enough => (mkS (made s) (impls s ++ [(h, 1)]) (conns s ++ [Some (length (impls s))]) (stmts s) (trace s), true)
      | _ => (note s (Release h), false)
      end
  end.

Inductive op :=
| Connect (threadsafe notnull good : bool) (m : memory) | Prepare (c : nat) (g : link) (nomem : bool) (a : reply) | Execute (j : nat) (early : bool) (g : link) (a : reply) (m : memory)
| Fetch (j : nat) | Run (c : nat) (q : asked) | Drop (j : nat) | Close (c : nat) (q : asked).
(** Calls of objects that are not there do nothing.  begin_transaction, commit and rollback (connection.cpp:96-109) are run.  The destructor (91-94) runs ROLLBACK, and an exception
    out of it is std::terminate, here Throw. *)
Definition step (s : state) (o : op) : outcome (state * bool) :=
  match o with
  | Connect t n g m => Ok (connect s t n g m)
  | Prepare c g m a => Ok (match nth c (conns s) None with Some i => let '(s, r) := prepare s i g m a in (s, match r with Some _ => true | None => false end) | None => (s, false) end)
  | Execute j e g a m => Ok (execute s j e g a m)
  | Fetch j => Ok (fetch s j, true)
  | Run c q => Ok (match nth c (conns s) None with Some i => run s i q | None => (s, false) end)
  | Drop j => Ok (drop_stmt s j, true)
  | Close c q => match nth c (conns s) None with
                 | Some i => let '(s, ok) := run s i q in if ok then Ok (drop (set_conns s (put (conns s) c None)) i, true) else Throw
                 | None => Ok (s, true)
                 end
  end.
Fixpoint steps (s : state) (os : list op) : outcome state := match os with [] => Ok s | o :: r => let* x := step s o in steps (fst x) r end.
Definition start : state := mkS 0 [] [] [] [].
(** memory does not run out between PQexecPrepared and the object that is to hold its result *)
Definition enough (o : op) : Prop := match o with Execute _ _ _ _ m => m <> No_object | Run _ q | Close _ q => run_memory q <> No_object | _ => True end.
