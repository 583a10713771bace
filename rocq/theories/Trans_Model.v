(** Model of src/database/util.h:43-76 (committer, transaction) over the connections of PostgreSQL
    (src/database/postgresql/connection.cpp:91-120, statement.cpp:61-109) and MySQL (src/database/mysql/connection.cpp:63-174, statement.cpp:51-146).
    A server is what the documentation says about transactions: writes outside of a transaction are stored at once, in
    a transaction at COMMIT; a lost connection rolls back.  Which requests succeed, are rejected or lose the connection is left open.
    The library is compiled as C++11 (wscript:34), so an exception that leaves a destructor terminates the program.
    Simplifications: a statement is one write; the number of parameters fits; memory suffices. *)
From Verif Require Import Common Trans_Spec.
Local Open Scope Z_scope.

(** The server's side of a connection: Auto: no transaction; Trans: the writes of the transaction so far; Failed: PostgreSQL's
    transaction after an error; Dead: lost *)
Inductive sess := Auto | Trans (pending : list Z) | Failed | Dead.
(** link is None if the MySQL handle is NULL *)
Record db := mkD { calls : nat; store : list Z; link : option sess }.
Inductive req := QBegin | QCommit | QRollback | QPrepare | QExec | QPing | QConnect.
(** processed; rejected; the connection is lost, after or before processing *)
Inductive reply := ROk | RErr | RLost (processed : bool).
Inductive res (A : Type) := V (a : A) | EConn | EDb. (* connection_error, another database_error *)
Arguments V {A}. Arguments EConn {A}. Arguments EDb {A}.
Definition M (A : Type) : Type := db -> res A * db.
Definition ret {A} (a : A) : M A := fun d => (V a, d).
Definition throw {A} (e : res A) : M A := fun d => (e, d).
Definition bind {A B} (m : M A) (f : A -> M B) : M B := fun d => match m d with (V a, d) => f a d | (EConn, d) => (EConn, d) | (EDb, d) => (EDb, d) end.
Notation "'do' x <- m ; f" := (bind m (fun x => f)) (at level 200, x pattern, m at level 100, f at level 200).

Section Server.
Context (orc : nat -> req -> reply).
Definition ask (q : req) (d : db) : reply * db := (orc (calls d) q, mkD (S (calls d)) (store d) (link d)).
Definition set (d : db) (st : list Z) (s : sess) : db := mkD (calls d) st (Some s).

(** what processing a command does; [w] is the write to execute *)
Definition apply (q : req) (w : Z) (st : list Z) (s : sess) : list Z * sess :=
  match q, s with
  | QBegin, Auto => (st, Trans [])
  | QCommit, Trans p => (st ++ p, Auto)
  | QCommit, Failed => (st, Auto)
  | QRollback, (Trans _ | Failed) => (st, Auto)
  | QExec, Auto => (st ++ [w], Auto)
  | QExec, Trans p => (st, Trans (p ++ [w]))
  | _, _ => (st, s)
  end.

(** * PostgreSQL *)
(** One request.  BEGIN in a transaction does nothing but warn; in a failed transaction only COMMIT and ROLLBACK are accepted; a
    rejected COMMIT has rolled back; any other rejection fails the transaction. *)
Definition pg_fail (q : req) (s : sess) : sess :=
  match s, q with Trans _, QCommit => Auto | Trans _, _ => Failed | _, _ => s end.
Definition pg_ask (q : req) (w : Z) : M unit := fun d =>
  let (r, d) := ask q d in
  match link d with
  | None | Some Dead => (EDb, d)
  | Some s =>
      match r with
      | RLost p => (EDb, set d (if p then fst (apply q w (store d) s) else store d) Dead)
      | RErr => (EDb, set d (store d) (pg_fail q s))
      | ROk =>
          match s, q with
          | Failed, (QBegin | QExec | QPrepare) => (EDb, d)
          | _, _ => let (st, s) := apply q w (store d) s in (V tt, set d st s)
          end
      end
  end.
(** Preparing a COMMIT or ROLLBACK is accepted in a failed transaction. *)
Definition pg_prepare_end : M unit := fun d =>
  let (r, d) := ask QPrepare d in
  match link d, r with
  | (None | Some Dead), _ => (EDb, d)
  | Some _, RLost _ => (EDb, set d (store d) Dead)
  | Some s, RErr => (EDb, set d (store d) (pg_fail QPrepare s))
  | Some _, ROk => (V tt, d)
  end.
(** connection.cpp:111-120: run prepares and executes *)
Definition pg_run (w : Z) : M unit := do _ <- pg_ask QPrepare 0; pg_ask QExec w.
(** connection.cpp:96-109 *)
Definition pg_begin : M unit := do _ <- pg_ask QPrepare 0; pg_ask QBegin 0.
Definition pg_commit : M unit := do _ <- pg_prepare_end; pg_ask QCommit 0.
Definition pg_rollback : M unit := do _ <- pg_prepare_end; pg_ask QRollback 0.
(** connection.cpp:91-94, a destructor without a handler *)
Definition pg_delete (d : db) : fin := match fst (pg_rollback d) with V _ => Done | _ => Terminated end.

(** * MySQL *)
(** BEGIN in a transaction commits it first.  A rejected COMMIT has rolled back; other rejections change nothing. *)
Definition my_apply (q : req) (w : Z) (st : list Z) (s : sess) : list Z * sess :=
  match q, s with QBegin, Trans p => (st ++ p, Trans []) | _, _ => apply q w st s end.
Inductive rc := Fine | Rejected | Gone.
Definition my_ask (q : req) (w : Z) (d : db) : rc * db :=
  let (r, d) := ask q d in
  match link d with
  | None | Some Dead => (Gone, d)
  | Some s =>
      match r with
      | RLost p => (Gone, set d (if p then fst (my_apply q w (store d) s) else store d) Dead)
      | RErr => (Rejected, set d (store d) (match q, s with QCommit, Trans _ => Auto | _, _ => s end))
      | ROk => let (st, s) := my_apply q w (store d) s in (Fine, set d st s)
      end
  end.
(** mysql/connection.cpp:63-91 *)
Definition my_reconnect : M unit := fun d =>
  let connect (d : db) : res unit * db :=
    let (r, d) := ask QConnect d in
    match r with ROk => (V tt, mkD (calls d) (store d) (Some Auto)) | _ => (EConn, mkD (calls d) (store d) None) end in
  match link d with
  | None => connect d
  | Some _ => match my_ask QPing 0 d with (Fine, d) => (V tt, d) | (_, d) => connect d end
  end.
Definition need : M unit := fun d => match link d with None => my_reconnect d | Some _ => (V tt, d) end.
(** mysql/connection.cpp:125-140; the result is a number *)
Definition my_query (q : req) : M bool :=
  do _ <- need;
  fun d => match my_ask q 0 d with
           | (Fine, d) => (V true, d)
           | (Rejected, d) => (V false, d)
           | (Gone, d) => (do _ <- my_reconnect; fun d => match my_ask q 0 d with (Fine, d) => (V true, d) | (_, d) => (V false, d) end) d
           end.
(** mysql/connection.cpp:110-123: what query returns is not looked at *)
Definition my_begin : M unit := do _ <- my_query QBegin; ret tt.
Definition my_commit : M unit := do _ <- my_query QCommit; ret tt.
Definition my_rollback : M unit := do _ <- my_query QRollback; ret tt.
(** mysql/statement.cpp:51-91: the constructor *)
Definition my_stmt : M unit := fun d => match my_ask QPrepare 0 d with (Fine, d) => (V tt, d) | (Rejected, d) => (EDb, d) | (Gone, d) => (EConn, d) end.
Definition handle (m h : M unit) : M unit := fun d => match m d with (EConn, d) => h d | x => x end.
(** mysql/connection.cpp:165-174 *)
Definition my_prepare : M unit := handle my_stmt (do _ <- my_reconnect; my_stmt).
(** mysql/statement.cpp:100-146: any failure is a database_error *)
Definition my_exec (w : Z) : M unit := fun d => match my_ask QExec w d with (Fine, d) => (V tt, d) | (_, d) => (EDb, d) end.
(** mysql/connection.cpp:147-163 *)
Definition my_run (w : Z) : M unit :=
  do _ <- need;
  handle (do _ <- my_prepare; my_exec w) (do _ <- my_reconnect; do _ <- my_prepare; my_exec w).

(** * Blocks *)
Record conn := mkC { begin_ : M unit; commit_ : M unit; rollback_ : M unit; run_ : Z -> M unit }.
Definition pg : conn := mkC pg_begin pg_commit pg_rollback pg_run.
Definition my : conn := mkC my_begin my_commit my_rollback my_run.
(** Do: an exception leaves the block; Try: it is caught at once; Raise: some exception; Sub: a transaction in the transaction *)
Inductive act := Do (w : Z) | Try (w : Z) | Raise | Sub (b : list act).
(** util.h:51-63, 74-75.  [unw]: std::uncaught_exception() already holds outside, because the block is run by a destructor while
    the stack is unwound. *)
Definition finish (c : conn) (unw : bool) (f : fin) (d : db) : fin * db :=
  match f with
  | Terminated => (Terminated, d)
  | _ =>
      let throws := match f with Thrown => true | _ => unw end in
      match (if throws then rollback_ c else commit_ c) d with (V _, d) => (f, d) | (_, d) => (Terminated, d) end
  end.
Fixpoint act1 (c : conn) (unw : bool) (a : act) (t : seen) (d : db) : fin * seen * db :=
  match a with
  | Do w => match run_ c w d with (V _, d) => (Done, t ++ [(w, true)], d) | (_, d) => (Thrown, t ++ [(w, false)], d) end
  | Try w => match run_ c w d with (V _, d) => (Done, t ++ [(w, true)], d) | (_, d) => (Done, t ++ [(w, false)], d) end
  | Raise => (Thrown, t, d)
  | Sub b =>
      match begin_ c d with
      | (V _, d) =>
          let '(f, t, d) :=
            (fix body (l : list act) (t : seen) (d : db) : fin * seen * db :=
               match l with [] => (Done, t, d) | a :: l => match act1 c unw a t d with (Done, t, d) => body l t d | x => x end end) b t d in
          let (f, d) := finish c unw f d in (f, t, d)
      | (_, d) => (Thrown, t, d)
      end
  end.
Fixpoint body (c : conn) (unw : bool) (l : list act) (t : seen) (d : db) : fin * seen * db :=
  match l with [] => (Done, t, d) | a :: l => match act1 c unw a t d with (Done, t, d) => body c unw l t d | x => x end end.
(** transaction(conn) { b } *)
Definition block (c : conn) (unw : bool) (b : list act) (d : db) : fin * seen * db := act1 c unw (Sub b) [] d.
End Server.
