(** Model of src/database/postgresql/{connection,statement,result}.cpp: statements on one connection, their results, and the connection string.  Texts of queries and values are
    those of Pg_Model, here [sent], [param] and [conv].  The server is any machine D that accepts or refuses queries and runs them, and keeps one unnamed prepared statement, which
    the next preparation replaces, also if it fails (PostgreSQL manual, "Extended Query").  Connections may break and come back at any time.
    &params[0] of an empty vector (statement.cpp:94) is the null pointer, as it is with libstdc++. *)
From Verif Require Import Common NumText_Model PgConn_Spec.
Local Open Scope Z_scope.

Section connection.
Context {V D : Type}.
Context (sent : text -> text)                          (* statement.cpp:47-59 *)
        (param : V -> option text)                      (* value.cpp:126-171 *)
        (conv : option text -> Z -> outcome V)          (* value.cpp:77-124 *)
        (parse : D -> text -> D * bool)                 (* the server is asked to prepare *)
        (exec : D -> text -> list (option text) -> D * answer)
        (missing : D -> D)                              (* it is asked to run what is not there *)
        (again : D -> D).                               (* a new session begins *)

(** postgresql_result (result.h:59-65) *)
Record result := mkR { types : list Z; rows : list (list (option text)); cur : nat }.
(** db: the server; unnamed: its prepared statement; alive: its session; reachable: whether a new one could be opened; good: PQstatus(conn) = CONNECTION_OK;
    stmts: the results of the statement objects; closed: the connection object is gone (statements share what is below it) *)
Record conn := mk { db : D; unnamed : option text; alive : bool; reachable : bool; good : bool; stmts : list (option result); closed : bool; log : list (event V) }.
Definition note c e := mk (db c) (unnamed c) (alive c) (reachable c) (good c) (stmts c) (closed c) (e :: log c).
Definition set_db c d := mk d (unnamed c) (alive c) (reachable c) (good c) (stmts c) (closed c) (log c).
Definition set_unnamed c u := mk (db c) u (alive c) (reachable c) (good c) (stmts c) (closed c) (log c).
Definition set_good c g := mk (db c) (unnamed c) (alive c) (reachable c) g (stmts c) (closed c) (log c).
Definition set_stmts c l := mk (db c) (unnamed c) (alive c) (reachable c) (good c) l (closed c) (log c).

(** connection.cpp:75-84, connection_def.h: get(); None: database_error *)
Definition get (c : conn) : option conn :=
  if good c then Some c
  else if reachable c then Some (mk (again (db c)) None true true true (stmts c) (closed c) (log c))
  else None.
(** statement.cpp:61-69, the constructor; None: database_error *)
Definition prepare (c : conn) (q : text) : conn * option nat :=
  match get c with
  | None => (c, None)
  | Some c =>
      if alive c then
        let '(d, ok) := parse (db c) (sent q) in
        if ok then let h := length (stmts c) in (note (set_stmts (set_unnamed (set_db c d) (Some (sent q))) (stmts c ++ [None])) (Parsed h q), Some h)
        else (note (set_unnamed (set_db c d) None) Unparsed, None)
      else (set_good c false, None)
  end.
Fixpoint put {T} (l : list T) (i : nat) (x : T) : list T := match l, i with [], _ => [] | _ :: r, O => x :: r | y :: r, S k => y :: put r k x end.
(** statement.cpp:75-109, result.cpp:46-59; PQexecPrepared returns NULL for too many parameters *)
Definition execute (c : conn) (h : nat) (args : list V) : conn :=
  match get c with
  | None => note c (Threw h)
  | Some c =>
      if 65535 <? Z.of_nat (length args) then note c (Threw h)
      else if alive c then
        match unnamed c with
        | None => note (set_db c (missing (db c))) (Threw h)
        | Some t =>
            let ps := map param args in
            let '(d, a) := exec (db c) t ps in
            let c1 := note (set_db c d) (Ran h t ps a) in
            match a with
            | Rows ts rs => set_stmts c1 (put (stmts c1) h (Some (mkR ts rs 0)))
            | Complete => set_stmts c1 (put (stmts c1) h (Some (mkR [] [] 0)))
            | Refused => c1
            | Cut => mk (db c1) None false (reachable c1) false (stmts c1) (closed c1) (log c1)
            end
        end
      else note (set_good c false) (Threw h)
  end.
(** result.cpp:83-88; PQgetisnull is true for fields that are not there *)
Fixpoint fields (ts : list Z) (i : nat) (cells : list (option text)) : outcome (list V) :=
  match ts with
  | [] => Ok []
  | t :: ts => let* v := conv (nth i cells None) t in let* vs := fields ts (S i) cells in Ok (v :: vs)
  end.
(** statement.cpp:111-115, result.cpp:76-92 *)
Definition fetch_row (c : conn) (h : nat) : outcome conn :=
  match nth h (stmts c) None with
  | None => Ok (note c (End_ h))
  | Some r =>
      match nth_error (rows r) (cur r) with
      | None => Ok (note c (End_ h))
      | Some cells =>
          match fields (types r) 0 cells with
          | Ok vs => Ok (note (set_stmts c (put (stmts c) h (Some (mkR (types r) (rows r) (S (cur r)))))) (Got h vs))
          | Throw => Ok (note c (Bad h))
          | UB => UB
          | Fuel => Fuel
          end
      end
  end.
(** connection.cpp:111-115 *)
Definition run (c : conn) (q : text) (args : list V) : conn := match prepare c q with (c, Some h) => execute c h args | (c, None) => c end.

Inductive op := Prepare (q : text) | Execute (h : nat) (args : list V) | Fetch (h : nat) | Run (q : text) (args : list V) | Begin | Commit | Rollback | Close
| Lose | Reach (b : bool). (* the session ends; whether the server can be reached changes *)
(** connection.cpp:91-120; calls of a connection that is gone, or of statements that are not there, do nothing *)
Definition step (c : conn) (o : op) : outcome conn :=
  let on_conn c' := Ok (if closed c then c else c') in
  match o with
  | Prepare q => on_conn (fst (prepare c q))
  | Execute h args => Ok (if Nat.ltb h (length (stmts c)) then execute c h args else c)
  | Fetch h => if Nat.ltb h (length (stmts c)) then fetch_row c h else Ok c
  | Run q args => on_conn (run c q args)
  | Begin => on_conn (run c (str "BEGIN") [])
  | Commit => on_conn (run c (str "COMMIT") [])
  | Rollback => on_conn (run c (str "ROLLBACK") [])
  | Close => on_conn (let c1 := run c (str "ROLLBACK") [] in mk (db c1) (unnamed c1) (alive c1) (reachable c1) (good c1) (stmts c1) true (log c1))
  | Lose => Ok (note (mk (db c) None false (reachable c) (good c) (stmts c) (closed c) (log c)) Lost)
  | Reach b => Ok (mk (db c) (unnamed c) (alive c) b (good c) (stmts c) (closed c) (log c))
  end.
Fixpoint steps (c : conn) (os : list op) : outcome conn := match os with [] => Ok c | o :: r => let* c1 := step c o in steps c1 r end.
(** connection.cpp:50-65, a connection that was made *)
Definition opened (d : D) : conn := mk d None true true true [] false [].
End connection.

(** connection.cpp:127-140: what connect() passes on *)
Definition conninfo (host : text) (port : Z) (dbname user password : text) : text :=
  str "host=" ++ host ++ str " " ++ str "port=" ++ show_int port ++ str " " ++ str "dbname=" ++ dbname ++ str " " ++ str "user=" ++ user ++ str " " ++ str "password=" ++ password.
