(** Model of the execution of a CGI program (src/network/cgi/base.cpp:47-136, util.cpp) and of the embedded server
    (src/network/cgi/server.cpp:190-283).  The program (cgi::run) is a function of what it can see. *)
From Verif Require Import Common NumText_Model Xhtml_Model Socket_Spec Socket_Model Http_Spec Http_Model HttpMsg_Model Cgi_Model.
From Verif Require Cast_Model Ipv4_Model Uri_Model.
Local Open Scope Z_scope.

(** What run sees: the members method, env, query etc. and head of cgi *)
Record call := mkCall { c_method : list Z; c_env : smap (list Z); c_data : cgi; c_head : header }.
(** env[k] = v; env[k], which puts an empty string if there is none *)
Definition put (env : smap (list Z)) (k v : list Z) : smap (list Z) := upd env k [] (fun _ => v).
Definition touch (env : smap (list Z)) (k : list Z) : smap (list Z) := upd env k [] (fun v => v).
(** base.cpp:111 *)
Definition plain_head : header := [(str "Content-Type", str "text/plain; charset=utf-8")].
Inductive verdict := Run (c : call) | Refuse (msg : list Z).

Section Input.
Context {S : Type} (next : S -> outcome (Z * S)).
(** istream::read: characters up to the end of file (true) *)
Fixpoint read_n (n : nat) (x : S) : outcome (list Z * bool * S) :=
  match n with
  | O => Ok ([], false, x)
  | Datatypes.S n' =>
      let* (c, x1) := next x in
      if c =? -1 then Ok ([], true, x1) else
      let* (d, e, x2) := read_n n' x1 in Ok (c mod 256 :: d, e, x2)
  end.
(** base.cpp:62-109; max is max_content_length *)
Definition prepare (max : Z) (env : smap (list Z)) (x : S) : outcome (verdict * S) :=
  let method := get_attr env (str "REQUEST_METHOD") in
  let env := touch env (str "REQUEST_METHOD") in
  if eqs method (str "GET") then
    let* c := parse_input (get_attr env (str "QUERY_STRING")) empty_cgi in
    Ok (Run (mkCall method (touch env (str "QUERY_STRING")) c plain_head), x)
  else if eqs method (str "POST") then
    let len := match Cast_Model.from_string (Cast_Model.TNum false 64) (get_attr env (str "CONTENT_LENGTH")) with Ok n => n | _ => 0 end in
    let env := touch env (str "CONTENT_LENGTH") in
    if max <? len then
      Ok (Refuse (str "Content length is too long: got " ++ show_int len ++ str " bytes, expect less than " ++ show_int max ++ str " bytes"), x)
    else
      let* (dat, e, x1) := read_n (Z.to_nat len) x in
      if e : bool then Ok (Refuse (str "Request is too short"), x1) else
      let ct := get_attr env (str "CONTENT_TYPE") in
      let env := touch env (str "CONTENT_TYPE") in
      match find_sub (str "multipart/") ct with
      | Some _ =>
          let ix := find_sub (str "boundary=") ct in
          let* c := parse_multipart_input dat (substr ct (match ix with Some i => i + 9 | None => 8 end)%nat None) empty_cgi in
          Ok (match ix with Some _ => Run (mkCall method env c plain_head) | None => Refuse (str "Invalid html protocol") end, x1)
      | None => let* c := parse_input dat empty_cgi in Ok (Run (mkCall method env c plain_head), x1)
      end
  else Ok (Run (mkCall method env empty_cgi plain_head), x).

(** base.cpp:117-127 *)
Definition error_page (msg : list Z) : elem :=
  Tag (str "body") [] [Tag (str "head") [] [Tag (str "title") [] [Text (str "Internal Server Error")]]; Tag (str "body") [] [Text msg]].
(** base.cpp:130-135 *)
Definition output (h : header) (body : list Z) : list Z := flat_map (fun g => fst g ++ str ": " ++ snd g ++ [10]) h ++ [10] ++ body.
Context (run : call -> outcome (list Z * header)).
(** base.cpp:57-136 *)
Definition exec (max : Z) (env : smap (list Z)) (x : S) : outcome (list Z * S) :=
  let* (v, x1) := prepare max env x in
  match v with
  | Run c => let* (body, h) := run c in Ok (output h body, x1)
  | Refuse msg => Ok (output (set plain_head (str "Status") (str "500 Internal Server Error")) (pretty 0 (error_page msg)), x1)
  end.
End Input.

(** strtol(s, &q, 10) as an int, and q *)
Definition strtol (s : list Z) : Z * list Z :=
  match Cast_Model.scan s with None => (0, s) | Some (neg, m, rest) => (Ipv4_Model.wrap32 (Ipv4_Model.sat64 (if neg then - m else m)), rest) end.
(** server.cpp:190-226: code, reason, header and body *)
Definition gen_resp (text : list Z) : outcome (Z * list Z * header * list Z) :=
  let* (h, x) := read_header istream_getline (S (length text)) (Good text) in
  let ct := if has_key h (str "content-type") then const_ref h (str "content-type") else str "text/html; charset=utf-8" in
  let h := if has_key h (str "content-type") then erase h (str "content-type") else h in
  let '(code, reason) := if has_key h (str "location") then (302, str "Found") else (200, str "OK") in
  let '(code, reason, h) :=
    if has_key h (str "status") then let (n, q) := strtol (Ipv4_Model.c_str (const_ref h (str "status"))) in (n, HttpMsg_Model.skip q, erase h (str "status"))
    else (code, reason, h) in
  let h := set h (str "Content-Type") ct in
  Ok (code, reason, fold_left (fun r g => set r (fst g) (snd g)) h [], match x with Good s => s | AtEnd _ => [] end).

(** what the server knows of itself and its peer, and the PFICOMMON_VERSION *)
Record info := mkInfo { i_addr : list Z; i_port : Z; i_server_port : Z; i_version : list Z }.
(** server.cpp:228-273 *)
Definition http_env (h : header) : smap (list Z) := fold_left (fun env g => put env (str "HTTP_" ++ map toupper (fst g)) (snd g)) h [].
Definition environment (i : info) (m : list Z) (u : Uri_Model.comps) (h : header) : smap (list Z) :=
  let q := Uri_Model.query u in
  let env := put (http_env h) (str "REQUEST_METHOD") m in
  let env := put env (str "REQUEST_URI") (Uri_Model.path u ++ (if eqs q [] then [] else str "?" ++ q)) in
  let env := put (put env (str "SCRIPT_NAME") (Uri_Model.path u)) (str "QUERY_STRING") q in
  let env := put (put env (str "REMOTE_ADDR") (i_addr i)) (str "REMOTE_PORT") (show_int (i_port i)) in
  let env := put (put env (str "SERVER_PORT") (show_int (i_server_port i))) (str "SERVER_NAME") (str "localhost") in
  let env := put env (str "SERVER_PROTOCOL") (str "HTTP/1.1") in
  let env := put env (str "SERVER_SIGNATURE") (str "pficommon/" ++ i_version i ++ str " standalone web server") in
  let env := put env (str "SERVER_SOFTWARE") (str "pficommon/" ++ i_version i) in
  put (put env (str "CONTENT_LENGTH") (const_ref h (str "Content-Length"))) (str "CONTENT_TYPE") (const_ref h (str "Content-Type")).

Section Kernel.
Context (rc sc : nat -> Z) (run : call -> outcome (list Z * header)).
Definition exec_on (b : body) (max : Z) (env : smap (list Z)) (x : st) : outcome (list Z * st) :=
  match b with
  | Chunked => let* (t, s) := exec (chunked_step rc Next) run max env (chunked_init, x) in Ok (t, snd s)
  | Sized n => let* (t, s) := exec (sized_step rc Next) run max env (sized_init n, x) in Ok (t, snd s)
  | Raw => let* (t, s) := exec (raw_step rc Next) run max env (-1, x) in Ok (t, snd s)
  end.
(** server.cpp:236-283: one connection; Throw: the exception is caught and the connection closed *)
Definition serve (max : Z) (i : info) (x : st) : outcome st :=
  let* (r, x1) := recv_request rc x in
  let '(m, u, _) := start r in
  let* (text, x2) := exec_on (bodyof r) max (environment i m u (head r)) x1 in
  let* (code, reason, h, body) := gen_resp text in
  send_response sc 1 1 code reason h body x2.
End Kernel.
(** util.cpp:42-51: the environment of the process; each string NAME=value *)
Definition get_env (envi : list (list Z)) : smap (list Z) :=
  fold_left (fun m s => match strchr 61 s with Some (k, v) => put m k v | None => m end) envi [].
