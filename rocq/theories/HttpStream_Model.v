(** Model of httpstream (src/network/http/stream.h:45-112). *)
From Verif Require Import Common NumText_Model Socket_Spec Socket_Model Http_Spec Http_Model HttpMsg_Model.
From Verif Require Cast_Model Uri_Model Base64_Model.
Local Open Scope Z_scope.

Section Net.
Context (rc sc : nat -> Z).
(** The net: what comes in on a connection to a host and port; None if stream_socket::connect fails. *)
Context (net : list Z -> Z -> option (list Z)).

(** stream.h:52-54: scheme *)
Definition scheme_ok (u : Uri_Model.comps) : bool := eqs (Uri_Model.scheme u) (str "http") || eqs (Uri_Model.scheme u) [].
(** stream.h:56 *)
Definition port_number (u : Uri_Model.comps) : outcome Z :=
  if eqs (Uri_Model.port u) [] then Ok 80 else Cast_Model.from_string (Cast_Model.TNum true 32) (Uri_Model.port u).
(** stream.h:63-70 *)
Definition get_header (u : Uri_Model.comps) : header :=
  let h := set (set [] (str "Host") (Uri_Model.host u)) (str "Connection") (str "close") in
  if eqs (Uri_Model.userinfo u) [] then h else set h (str "Authorization") (str "Basic " ++ Base64_Model.base64_encode (Uri_Model.userinfo u)).
(** A stream just opened: where it is connected to, what had been sent when the response was awaited, the response, the connection. *)
Record opened := mkO { peer : list Z * Z; sent : list Z; resp : received ((Z * Z) * Z * list Z); link : st }.
(** stream.h:48-73; the port becomes an uint16_t (socket.h:60) *)
Definition open_url (junk : Z) (url : list Z) : outcome opened :=
  let* u := Uri_Model.uri url in
  if negb (scheme_ok u) then Throw else
  let* port := port_number u in
  let port := port mod 2 ^ 16 in
  match net (Uri_Model.host u) port with
  | None => Throw
  | Some inb =>
      let* x := send_request sc (str "GET") u 1 1 (get_header u) [] (fresh inb 0) in
      let* (r, x') := recv_response rc junk x in
      Ok (mkO (Uri_Model.host u, port) (kout (snd x)) r x')
  end.

(** std::istream::get over the stream buffer of the body: nothing is read any more once it has met the end; an exception of
    the stream buffer is caught and sets badbit. *)
Definition body_get {B} (step : rdop -> B * st -> outcome (Z * (B * st))) (s : bool * (B * st)) : outcome (Z * (bool * (B * st))) :=
  let (e, u) := s in
  if e then Ok (-1, s) else
  match step Next u with
  | Ok (r, u') => Ok (r, (r =? -1, u'))
  | Throw => Ok (-1, (true, u))
  | UB => UB | Fuel => Fuel
  end.
(** stream.h:75-85: underflow is called by sgetc, uflow by sbumpc *)
Definition http_step {B} (step : rdop -> B * st -> outcome (Z * (B * st))) (o : rdop) (s : Z * (bool * (B * st))) : outcome (Z * (Z * (bool * (B * st)))) :=
  let (b, g) := s in
  let* (b', g') := (if b =? -1 then body_get step g else Ok (b, g)) in
  Ok (b', (match o with Peek => b' | Next => -1 end, g')).
Fixpoint run_http {B} (step : rdop -> B * st -> outcome (Z * (B * st))) (ops : list rdop) (s : Z * (bool * (B * st))) : outcome (list Z) :=
  match ops with
  | [] => Ok []
  | o :: os => let* (r, s1) := http_step step o s in let* rs := run_http step os s1 in Ok (r :: rs)
  end.
(** what the operations on the stream return *)
Definition read_http (c : opened) (ops : list rdop) : outcome (list Z) :=
  match bodyof (resp c) with
  | Chunked => run_http (chunked_step rc) ops (-1, (false, (chunked_init, link c)))
  | Sized n => run_http (sized_step rc) ops (-1, (false, (sized_init n, link c)))
  | Raw => run_http (raw_step rc) ops (-1, (false, (-1, link c)))
  end.
End Net.
