(** Model of HTTP requests and responses (src/network/http/base.cpp:402-607) and of the stream on a socket (src/network/iostream.h).
    A message being made has a stringstream for a body; one being received a stream on the connection. *)
From Verif Require Import Common NumText_Model Socket_Spec Socket_Model Http_Spec Http_Model HttpMsg_Spec.
From Verif Require Cast_Model Ipv4_Model Uri_Model.
Local Open Scope Z_scope.

(** operator>> into a string *)
Fixpoint skip (s : list Z) : list Z := match s with c :: r => if isspace c then skip r else s | [] => [] end.
Definition word (s : list Z) : list Z * list Z := spanb (fun c => negb (isspace c)) (skip s).
Definition toupper (c : Z) : Z := if (97 <=? c) && (c <=? 122) then c - 32 else c.
(** sscanf(p, "HTTP/%d.%d", ...) == 2 *)
Fixpoint literally (p s : list Z) : option (list Z) :=
  match p, s with
  | [], _ => Some s
  | a :: p, b :: s => if a =? b then literally p s else None
  | _, [] => None
  end.
Definition scan_version (s : list Z) : option (Z * Z) :=
  match literally (str "HTTP/") (Ipv4_Model.c_str s) with
  | None => None
  | Some r => match Ipv4_Model.scan_ds 2 r with [a; b] => Some (a, b) | _ => None end
  end.

(** The stream over the rest of a connection (iostream.h:45-136) reads through a buffer of one character.  None: chunked or sized. *)
Inductive body := Chunked | Sized (n : Z) | Raw.
Record received (A : Type) := mkRec { start : A; head : header; bodyof : body }.
Arguments mkRec {A}. Arguments start {A}. Arguments head {A}. Arguments bodyof {A}.
Definition CL : list Z := str "Content-Length".
Definition TE : list Z := str "Transfer-Encoding".

Section Kernel.
Context (rc sc : nat -> Z).
(** base.cpp:440-445, 545-550: the non-const [] puts missing fields into the header *)
Definition choose_body (h : header) : outcome (header * body) :=
  let (h1, te) := ref h TE in
  if cicmp te (str "chunked") then Ok (h1, Chunked) else
  let (h2, cl) := ref h1 CL in
  if eqs cl [] then Ok (h2, Raw) else
  let* n := Cast_Model.from_string (Cast_Model.TNum true 64) cl in Ok (h2, Sized n).
(** base.cpp:409-446; the result of getline is not looked at *)
Definition recv_request (x : st) : outcome (received (list Z * Uri_Model.comps * (Z * Z)) * st) :=
  let* (r, x1) := getline rc line_limit x in
  let line := match r with Some l => l | None => [] end in
  let (m, line) := word line in let (u, line) := word line in let (v, _) := word line in
  let* u := Uri_Model.uri u in
  match scan_version (map toupper v) with
  | None => Throw
  | Some ver => let* (h, x2) := header_from rc x1 in let* (h, b) := choose_body h in Ok (mkRec (m, u, ver) h b, x2)
  end.
(** operator>> into an int: the value (0 without a digit, the nearest int on overflow), and the rest unless failbit is set *)
Definition get_int (s : list Z) : Z * option (list Z) :=
  match Cast_Model.scan s with
  | None => (0, None)
  | Some (neg, m, rest) => let v := if neg then - m else m in if v <? - 2 ^ 31 then (- 2 ^ 31, None) else if 2 ^ 31 - 1 <? v then (2 ^ 31 - 1, None) else (v, Some rest)
  end.
(** base.cpp:518-551; code_ is uninitialized ([junk]) and stays so if the line ends behind the version.  A rest at its end fails in getline. *)
Definition recv_response (junk : Z) (x : st) : outcome (received ((Z * Z) * Z * list Z) * st) :=
  let* (r, x1) := getline rc line_limit x in
  match r with
  | None => Throw
  | Some line =>
      let (v, line) := word line in
      let '(code, rest) := match skip line with [] => (junk, None) | l => get_int l end in
      let reason := match rest with None => [] | Some r => skip r end in
      match scan_version (map toupper v) with
      | None => Throw
      | Some ver => let* (h, x2) := header_from rc x1 in let* (h, b) := choose_body h in Ok (mkRec (ver, code, reason) h b, x2)
      end
  end.
(** base.cpp:487-502, 592-607 from the first line on: Throw if a part cannot be sent *)
Definition send_message (line : list Z) (h : header) (dat : list Z) (x : st) : outcome st :=
  let* (b, x1) := puts sc line x in
  if negb b then Throw else
  let h := if negb (has_key h CL) && (0 <? Z.of_nat (length dat)) then set h CL (show_int (Z.of_nat (length dat))) else h in
  let* x2 := send_header sc h x1 in
  let* (b, x3) := (if 0 <? Z.of_nat (length dat) then puts sc dat x2 else Ok (true, x2)) in
  if negb b then Throw else
  let* (n, x4) := flush sc x3 in
  if 0 <=? n then Throw else Ok x4.
(** base.cpp:475-502 *)
Definition send_request (m : list Z) (u : Uri_Model.comps) (ma mi : Z) (h : header) (dat : list Z) (x : st) : outcome st :=
  send_message (m ++ str " " ++ Uri_Model.print u ++ str " " ++ str "HTTP/" ++ show_int ma ++ str "." ++ show_int mi ++ [13; 10]) h dat x.
(** base.cpp:580-607 *)
Definition send_response (ma mi code : Z) (reason : list Z) (h : header) (dat : list Z) (x : st) : outcome st :=
  send_message (str "HTTP/" ++ show_int ma ++ str "." ++ show_int mi ++ str " " ++ show_int code ++ str " " ++ reason ++ [13; 10]) h dat x.

(** iostream.h: the buffer of one character, over a connected socket. *)
(** iostream.h:119-131; sgetc calls underflow, sbumpc calls uflow *)
Definition raw_step (o : rdop) (s : Z * st) : outcome (Z * (Z * st)) :=
  let (b, x) := s in
  let (b', x') := (if b =? -1 then getc rc x else (b, x)) in
  Ok (b', (match o with Peek => b' | Next => -1 end, x')).
(** reading from the body of a received message: base.cpp:470-473, 575-578 *)
Definition read_body (b : body) (ops : list rdop) (x : st) : outcome (list Z * st) :=
  match b with
  | Chunked => let* (rs, s) := run_body (chunked_step rc) ops (chunked_init, x) in Ok (rs, snd s)
  | Sized n => let* (rs, s) := run_body (sized_step rc) ops (sized_init n, x) in Ok (rs, snd s)
  | Raw => let* (rs, s) := run_body raw_step ops (-1, x) in Ok (rs, snd s)
  end.
(** iostream.h:99-104 *)
Definition xsputn (d : list Z) (x : st) : outcome (Z * st) := let* (n, x') := write sc d x in Ok (if n <? 0 then 0 else n, x').
(** iostream.h:106-112; sputc calls overflow, since no put area is set *)
Definition overflow (c : Z) (x : st) : outcome (Z * st) := let* (n, x') := write sc [c] x in Ok (if n <? 0 then -1 else if n =? 0 then -1 else 0, x').
(** iostream.h:114-117 *)
Definition sync (x : st) : outcome (Z * st) := let* (n, x') := flush sc x in Ok (if n <? 0 then 0 else -1, x').
Definition stream_step (o : sop) (s : Z * st) : outcome (Z * (Z * st)) :=
  match o with
  | SRead o => raw_step o s
  | SPut c => let* (n, x) := overflow c (snd s) in Ok (n, (fst s, x))
  | SWrite d => let* (n, x) := xsputn d (snd s) in Ok (n, (fst s, x))
  | SSync => let* (n, x) := sync (snd s) in Ok (n, (fst s, x))
  end.
Fixpoint run_stream (ops : list sop) (s : Z * st) : outcome (list Z * (Z * st)) :=
  match ops with
  | [] => Ok ([], s)
  | o :: os => let* (r, s1) := stream_step o s in let* (rs, s2) := run_stream os s1 in Ok (r :: rs, s2)
  end.
End Kernel.
