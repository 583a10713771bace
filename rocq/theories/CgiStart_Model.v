(** Model of src/network/cgi/fcgi.cpp, cgi.cpp and of the command line of src/network/cgi/server.cpp.  The library functions FCGX_GetChar, FCGX_PutChar, FCGX_PutStr and
    FCGX_Accept do what fcgiapp.h says.  getopt_long is that of GNU, without POSIXLY_CORRECT in the environment. *)
From Verif Require Import Common NumText_Model Http_Spec Http_Model Cgi_Model CgiServer_Model CgiStart_Spec.
From Verif Require Ipv4_Model.
Local Open Scope Z_scope.

(** ** fcgi.cpp: the stream buffer *)
(** The member buf, and what is left of the input *)
Record fcgx := mkF { fbuf : Z; fin : list Z }.
Definition get_char (x : fcgx) : Z * fcgx := match fin x with [] => (-1, x) | c :: r => (c, mkF (fbuf x) r) end.
(** fcgi.cpp:81-87; sgetc calls it, since no get area is set *)
Definition underflow (x : fcgx) : Z * fcgx :=
  if fbuf x =? -1 then let '(c, x1) := get_char x in let b := if c <? 0 then -1 else c in (b, mkF b (fin x1))
  else (fbuf x, x).
(** fcgi.cpp:75-79; sbumpc calls it *)
Definition uflow (x : fcgx) : Z * fcgx := let '(r, x1) := underflow x in (r, mkF (-1) (fin x1)).
Definition fcgx_step (o : rdop) (x : fcgx) : outcome (Z * fcgx) := Ok (match o with Peek => underflow x | Next => uflow x end).
(** fcgi.cpp:58-61, the constructor *)
Definition fcgx_init (input : list Z) : fcgx := mkF (-1) input.
(** Writing by an ostream: a string by sputn (fcgi.cpp:63-67), a character by sputc (:69-73).  [ok]: whether the library call succeeds.  After a failure the stream is
    bad, and nothing more is written. *)
Inductive piece := Str (s : list Z) | Chr (c : Z).
Definition text_of (p : piece) : list Z := match p with Str s => s | Chr c => [c] end.
(** The value that xsputn, overflow return, and what FCGX has taken *)
Definition put_piece (ok : bool) (p : piece) (out : list Z) : Z * list Z :=
  match p with
  | Str s => if ok then (Z.of_nat (length s), out ++ s) else (0, out)
  | Chr c => if ok then (0, out ++ [c]) else (-1, out)
  end.
Definition succeeded (p : piece) (r : Z) : bool := match p with Str s => r =? Z.of_nat (length s) | Chr _ => negb (r =? -1) end.
Fixpoint put_all (oks : list bool) (ps : list piece) (out : list Z) : bool * list Z :=
  match ps with
  | [] => (true, out)
  | p :: r => let '(n, out1) := put_piece (hd true oks) p out in if succeeded p n then put_all (tl oks) r out1 else (false, out1)
  end.

(** ** Running the program *)
Section Run.
Context {A : Type} (prog : A -> call -> A * outcome (list Z * header)) (max : Z).
(** cgi::exec (CgiServer_Model) of a program with a state: the state afterwards and what was written *)
Definition exec_once {S} (next : S -> outcome (Z * S)) (a : A) (env : smap (list Z)) (x : S) : A * outcome (list Z) :=
  (match prepare next max env x with Ok (Run c, _) => fst (prog a c) | _ => a end, omap fst (exec next (fun c => snd (prog a c)) max env x)).
(** cgi.cpp:56-59: the streams of the process *)
Definition std_next (x : list Z) : outcome (Z * list Z) := Ok (match x with [] => (-1, []) | c :: r => (c, r) end).
Definition run_cgi (a : A) (envi : list (list Z)) (input : list Z) : A * outcome (list Z) := exec_once std_next a (get_env envi) input.
(** fcgi.cpp:113-133: the requests that FCGX_Accept will give; then it fails.  How the loop ends: an exception of the program leaves it. *)
Fixpoint fcgi_loop (a : A) (reqs : list (list (list Z) * list Z)) : A * list (list Z) * outcome unit :=
  match reqs with
  | [] => (a, [], Ok tt)
  | (envi, input) :: r =>
      match exec_once (fcgx_step Next) a (get_env envi) (fcgx_init input) with
      | (a1, Ok t) => let '(a2, ts, e) := fcgi_loop a1 r in (a2, t :: ts, e)
      | (a1, Throw) => (a1, [], Throw)
      | (a1, UB) => (a1, [], UB)
      | (a1, Fuel) => (a1, [], Fuel)
      end
  end.
End Run.

(** ** server.cpp: the command line *)
(** server.cpp:68-75: name, letter, whether it takes an argument *)
Definition opts : list (list Z * (Z * bool)) :=
  [(str "port", (112, true)); (str "thread", (116, true)); (str "timeout", (111, true)); (str "help", (104, false)); (str "server", (115, false))].
(** getopt_long returns a letter and sets optarg, or '?'. *)
Inductive event := Opt (c : Z) (arg : list Z) | Bad.
(** A long name: the option of that name, or the only one that starts so *)
Definition find_long (n : list Z) : option (Z * bool) :=
  match filter (fun o => eqs (fst o) n) opts with
  | o :: _ => Some (snd o)
  | [] => match filter (fun o => prefix n (fst o)) opts with [o] => Some (snd o) | _ => None end
  end.
(** Letters in one word: "p:t:o:hs"; the boolean: whether the next word is used as an argument *)
Fixpoint letters (x : list Z) (next : list (list Z)) : list event * bool :=
  match x with
  | [] => ([], false)
  | c :: r =>
      if (c =? 112) || (c =? 116) || (c =? 111) then
        match r, next with
        | [], v :: _ => ([Opt c v], true)
        | [], [] => ([Bad], false)
        | _, _ => ([Opt c r], false)
        end
      else let '(es, b) := letters r next in ((if (c =? 104) || (c =? 115) then Opt c [] else Bad) :: es, b)
  end.
Definition long_word (x : list Z) (next : list (list Z)) : list event * bool :=
  let '(n, v) := match strchr 61 x with Some (n, v) => (n, Some v) | None => (x, None) end in
  match find_long n, v, next with
  | None, _, _ => ([Bad], false)
  | Some (c, true), Some v, _ => ([Opt c v], false)
  | Some (c, true), None, v :: _ => ([Opt c v], true)
  | Some (_, true), None, [] => ([Bad], false)
  | Some (c, false), None, _ => ([Opt c []], false)
  | Some (_, false), Some _, _ => ([Bad], false)
  end.
(** What getopt_long gives, call by call, and the words that are left from optind on after it has moved the other words to the end *)
Fixpoint getopt (ws : list (list Z)) : list event * list (list Z) :=
  match ws with
  | [] => ([], [])
  | w :: r =>
      match w with
      | a :: b :: x =>
          if (a =? 45) && (b =? 45) then
            match x with
            | [] => ([], r)
            | _ => let '(es, took) := long_word x r in
                   let '(es', l) := if took then match r with _ :: r' => getopt r' | [] => ([], []) end else getopt r in (es ++ es', l)
            end
          else if a =? 45 then
            let '(es, took) := letters (b :: x) r in
            let '(es', l) := if took then match r with _ :: r' => getopt r' | [] => ([], []) end else getopt r in (es ++ es', l)
          else let '(es, l) := getopt r in (es, w :: l)
      | _ => let '(es, l) := getopt r in (es, w :: l)
      end
  end.
(** atoi *)
Definition atoi (s : list Z) : Z := fst (strtol (Ipv4_Model.c_str s)).
(** server.cpp:61-125: listening with the port, the number of threads and the text of the timeout, or exit(0) after a message *)
Inductive started := Listen (port threads : Z) (timeout : option (list Z)) | Exit (msg : list Z).
Fixpoint settings (argv0 : list Z) (es : list event) (p t : Z) (o : option (list Z)) : started :=
  match es with
  | [] => Listen p t o
  | Bad :: r => settings argv0 r p t o
  | Opt c arg :: r =>
      if c =? 112 then
        let n := atoi arg in
        if (1 <=? n) && (n <=? 65535) then settings argv0 r (n mod 2 ^ 16) t o else Exit (str "wrong argument: --port=" ++ arg)
      else if c =? 116 then
        let n := atoi arg in
        if (1 <=? n) && (n <=? 1024) then settings argv0 r p n o
        else if n <=? 0 then Exit (str "wrong argument: --thread=" ++ arg)
        else Exit (str "too many threads: --thread=" ++ arg)
      else if c =? 111 then settings argv0 r p t (Some arg)
      else if c =? 104 then Exit (str "usage: " ++ argv0 ++ str " [-p port] [-t thread-num] [-o timeout] [-h]")
      else settings argv0 r p t o
  end.
Definition run_server (argv0 : list Z) (args : list (list Z)) : started := settings argv0 (fst (getopt args)) 8080 1 None.
(** A second server in the same process: getopt_long goes on from optind. *)
Definition run_server_again (argv0 : list Z) (args : list (list Z)) : started := settings argv0 (fst (getopt (snd (getopt args)))) 8080 1 None.
(** server.cpp:290-315 *)
Inductive mode := ServerMode (s : started) | HelpMode | CgiMode.
Definition run_server_or_cgi (argv0 : list Z) (args : list (list Z)) : mode :=
  if existsb (fun a => eqs a (str "-s") || eqs a (str "--server")) args then ServerMode (run_server argv0 args)
  else if existsb (fun a => eqs a (str "-h") || eqs a (str "--help")) args then HelpMode else CgiMode.
