(** Model of src/database/mysql/{connection,statement}.cpp: the statements on one connection, their results, and the handles of the client
    library.  The server is any machine D that accepts or refuses queries and runs them; its sessions may break at any time.  The library
    as in its manual: results are not buffered (mysql_stmt_store_result is not called), and until mysql_stmt_fetch has returned
    MYSQL_NO_DATA or the statement is executed again or closed, every other command on the connection fails with CR_COMMANDS_OUT_OF_SYNC;
    mysql_close leaves the statements on it without connection, and commands on them fail.  mysql_stmt_init(NULL) follows the null pointer.
    Automatic reconnection is off, as it is by default.  Conversions of values are in Mysql_Model, here [conv].
    mysql_init, mysql_stmt_init, mysql_stmt_result_metadata and mysql_fetch_fields do not fail (they do when memory runs out).
    A statement that could not be executed has no result left. *)
From Verif Require Import Common MyConn_Spec.
Local Open Scope Z_scope.

Section connection.
Context {A R V D : Type}.
Inductive said := Accepted (params : nat) | Rejected | Broken.
Context (conv : R -> option V)                        (* value.cpp:44-96; None: database_error *)
        (parse : D -> text -> D * said)               (* the server is asked to prepare; Broken: the connection broke *)
        (exec : D -> text -> list A -> D * answer R)
        (command : D -> text -> D * said)             (* ... to run a command without results *)
        (again : D -> D).                             (* a new session begins *)

(** mysql_statement: the MYSQL it was made on, its query, param_count; its rows, if it was executed and has any; whether they are still on the
    way (the end has not been seen); whether it has been deleted *)
Record stmt := mkS { on : nat; query_ : text; params : nat; res : option (list R); open_ : bool; gone : bool }.
(** db: the server; cur: conn of mysql_connection_impl; made: how many MYSQLs there have been; alive: the session of cur; reachable: whether a new one
    could be opened; closed: the connection object has been deleted; handles: mysql_init (true) and mysql_close (false) *)
Record conn := mk { db : D; cur : option nat; made : nat; alive : bool; reachable : bool; stmts : list stmt; closed : bool;
                    handles : list (bool * nat); log : list (event A R V) }.
Definition note c e := mk (db c) (cur c) (made c) (alive c) (reachable c) (stmts c) (closed c) (handles c) (e :: log c).
Definition set_db c d := mk d (cur c) (made c) (alive c) (reachable c) (stmts c) (closed c) (handles c) (log c).
Definition set_alive c b := mk (db c) (cur c) (made c) b (reachable c) (stmts c) (closed c) (handles c) (log c).
Definition set_stmts c l := mk (db c) (cur c) (made c) (alive c) (reachable c) l (closed c) (handles c) (log c).
Fixpoint put {T} (l : list T) (i : nat) (x : T) : list T := match l, i with [], _ => [] | _ :: r, O => x :: r | y :: r, S k => y :: put r k x end.
(** s is on the current connection *)
Definition here (c : conn) (s : stmt) : bool := match cur c with Some k => Nat.eqb (on s) k | None => false end.
(** some statement other than h has rows on the way *)
Fixpoint busy_from (c : conn) (h i : nat) (l : list stmt) : bool :=
  match l with [] => false | s :: l => negb (Nat.eqb i h) && here c s && open_ s || busy_from c h (S i) l end.
Definition busy (c : conn) (h : nat) : bool := busy_from c h 0 (stmts c).

(** What a call ends with: normally, database_error, connection_error *)
Inductive end_ (T : Type) := Fine (t : T) | Edb | Econn.
Arguments Fine {T}. Arguments Edb {T}. Arguments Econn {T}.

(** connection.cpp:63-91 *)
Definition fresh (c : conn) : conn * end_ unit :=
  let k := made c in
  if reachable c then (mk (again (db c)) (Some k) (S k) true true (stmts c) (closed c) ((true, k) :: handles c) (log c), Fine tt)
  else (mk (db c) None (S k) (alive c) false (stmts c) (closed c) ((false, k) :: (true, k) :: handles c) (log c), Econn).
Definition ping (c : conn) : bool := alive c && negb (busy c (length (stmts c))).
Definition reconnect (c : conn) : conn * end_ unit :=
  match cur c with
  | Some k => if ping c then (c, Fine tt) else
      fresh (mk (db c) None (made c) (alive c) (reachable c) (stmts c) (closed c) ((false, k) :: handles c) (log c))
  | None => fresh c
  end.
(** statement.cpp:51-91: the constructor *)
Definition ctor (c : conn) (q : text) : outcome (conn * end_ nat) :=
  match cur c with
  | None => UB
  | Some k =>
      let h := length (stmts c) in
      if busy c h then Ok (c, Edb) else
      if alive c then
        let '(d, a) := parse (db c) q in
        let c := set_db c d in
        match a with
        | Accepted n => Ok (note (set_stmts c (stmts c ++ [mkS k q n None false false])) (Prepared h q), Fine h)
        | Rejected => Ok (c, Edb)
        | Broken => Ok (set_alive c false, Econn)
        end
      else Ok (c, Econn)
  end.
(** connection.cpp:165-174 *)
Definition prepare (c : conn) (q : text) : outcome (conn * end_ nat) :=
  let* (c, r) := ctor c q in
  match r with
  | Econn => let '(c, r) := reconnect c in match r with Fine _ => ctor c q | Edb => Ok (c, Edb) | Econn => Ok (c, Econn) end
  | _ => Ok (c, r)
  end.
(** statement.cpp:100-146 *)
Definition execute (c : conn) (h : nat) (args : list A) : conn * end_ unit :=
  match nth_error (stmts c) h with
  | None => (c, Edb)
  | Some s =>
      if negb (Nat.eqb (params s) (length args)) then (c, Edb) else
      let was := mkS (on s) (query_ s) (params s) None false (gone s) in
      let c0 := set_stmts c (put (stmts c) h was) in
      if negb (here c s) || busy c h || negb (alive c) then (c0, Edb) else
      let '(d, a) := exec (db c) (query_ s) args in
      let c1 := note (set_db c0 d) (Ran h (query_ s) args a) in
      match a with
      | Rows rs => (set_stmts c1 (put (stmts c1) h (mkS (on s) (query_ s) (params s) (Some rs) true (gone s))), Fine tt)
      | Complete => (c1, Fine tt)
      | Refused => (c1, Edb)
      | Cut => (set_alive c1 false, Edb)
      end
  end.
(** statement.cpp:148-205: Some true: a row *)
Definition fetch_row (c : conn) (h : nat) : conn * end_ bool :=
  match nth_error (stmts c) h with
  | None => (c, Edb)
  | Some s =>
      let upd r o := set_stmts c (put (stmts c) h (mkS (on s) (query_ s) (params s) r o (gone s))) in
      match res s with
      | None => (c, Edb)
      | Some rs =>
          if open_ s then
            if here c s && alive c then
              match rs with
              | [] => (note (upd (Some []) false) (End_ h), Fine false)
              | x :: rs => match conv x with Some v => (note (upd (Some rs) true) (Got h v), Fine true) | None => (note (upd (Some rs) true) (Bad h), Edb) end
              end
            else (upd None false, Edb)
          else (note c (End_ h), Fine false)
      end
  end.
(** the last of the connection object and its statements closes the MYSQL (connection.cpp:55-61) *)
Definition all_gone (c : conn) : bool := closed c && forallb gone (stmts c).
Definition release (c : conn) : conn :=
  if all_gone c then
    match cur c with Some k => mk (db c) None (made c) (alive c) (reachable c) (stmts c) (closed c) ((false, k) :: handles c) (log c) | None => c end
  else c.
(** statement.cpp:93-98 *)
Definition drop (c : conn) (h : nat) : conn :=
  match nth_error (stmts c) h with
  | None => c
  | Some s => release (set_stmts c (put (stmts c) h (mkS (on s) (query_ s) (params s) None false true)))
  end.
(** connection.cpp:125-140; mysql_query; what it returns is not used *)
Definition send (c : conn) (q : text) : conn * bool := (* true: the server was gone or lost *)
  if busy c (length (stmts c)) then (c, false) else
  if alive c then
    let '(d, a) := command (db c) q in
    let c := note (set_db c d) (Asked q) in
    match a with Broken => (set_alive c false, true) | _ => (c, false) end
  else (c, true).
Definition query (c : conn) (q : text) : conn * end_ unit :=
  let '(c, r) := match cur c with None => reconnect c | Some _ => (c, Fine tt) end in
  match r with
  | Fine _ => let '(c, lost) := send c q in
              if lost then let '(c, r) := reconnect c in match r with Fine _ => (fst (send c q), Fine tt) | _ => (c, r) end
              else (c, Fine tt)
  | _ => (c, r)
  end.
(** connection.cpp:147-163; the statement is deleted in any case *)
Definition run_once (c : conn) (q : text) (args : list A) : outcome (conn * end_ unit) :=
  let* (c, r) := prepare c q in
  match r with
  | Fine h => let '(c, r) := execute c h args in Ok (drop c h, r)
  | Edb => Ok (c, Edb)
  | Econn => Ok (c, Econn)
  end.
Definition run (c : conn) (q : text) (args : list A) : outcome (conn * end_ unit) :=
  let '(c, r) := match cur c with None => reconnect c | Some _ => (c, Fine tt) end in
  match r with
  | Fine _ =>
      let* (c, r) := run_once c q args in
      match r with
      | Econn => let '(c, r) := reconnect c in match r with Fine _ => run_once c q args | _ => Ok (c, r) end
      | _ => Ok (c, r)
      end
  | _ => Ok (c, r)
  end.
(** connection.cpp:102-108 *)
Definition close (c : conn) : conn :=
  let c := fst (query c (str "ROLLBACK")) in
  release (mk (db c) (cur c) (made c) (alive c) (reachable c) (stmts c) true (handles c) (log c)).

Inductive op := Prepare (q : text) | Execute (h : nat) (args : list A) | Fetch (h : nat) | Drop (h : nat) | Run (q : text) (args : list A)
| Begin | Commit | Rollback | Close
| Lose | Reach (b : bool). (* the session ends; whether the server can be reached changes *)
(** The new state, and whether the call returned normally.  Calls of what is gone do not happen. *)
Definition well {T} (r : end_ T) : bool := match r with Fine _ => true | _ => false end.
Definition usable (c : conn) (h : nat) : bool := match nth_error (stmts c) h with Some s => negb (gone s) | None => false end.
Definition step (c : conn) (o : op) : outcome (conn * bool) :=
  let on_conn (x : outcome (conn * bool)) := if closed c then Ok (c, true) else x in
  match o with
  | Prepare q => on_conn (let* (c, r) := prepare c q in Ok (c, well r))
  | Execute h args => if usable c h then let '(c, r) := execute c h args in Ok (c, well r) else Ok (c, true)
  | Fetch h => if usable c h then let '(c, r) := fetch_row c h in Ok (c, well r) else Ok (c, true)
  | Drop h => if usable c h then Ok (drop c h, true) else Ok (c, true)
  | Run q args => on_conn (let* (c, r) := run c q args in Ok (c, well r))
  | Begin => on_conn (let '(c, r) := query c (str "BEGIN") in Ok (c, well r))
  | Commit => on_conn (let '(c, r) := query c (str "COMMIT") in Ok (c, well r))
  | Rollback => on_conn (let '(c, r) := query c (str "ROLLBACK") in Ok (c, well r))
  | Close => on_conn (Ok (close c, true))
  | Lose => Ok (set_alive c false, true)
  | Reach b => Ok (mk (db c) (cur c) (made c) (alive c) b (stmts c) (closed c) (handles c) (log c), true)
  end.
Fixpoint steps (c : conn) (os : list op) : outcome conn := match os with [] => Ok c | o :: r => let* (c, _) := step c o in steps c r end.
(** connection.cpp:45-53, 176-183: a connection that was made *)
Definition opened (d : D) : conn := mk d (Some O) 1 true true [] false [(true, O)] [].
End connection.
Arguments Fine {T}. Arguments Edb {T}. Arguments Econn {T}.
