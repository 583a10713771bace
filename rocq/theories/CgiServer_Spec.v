(** What a CGI program gets and what its client gets (RFC 3875, 4 and 6). *)
From Verif Require Import Common NumText_Model Http_Spec HttpMsg_Spec.
Local Open Scope Z_scope.

(** the value of the first field of this name *)
Fixpoint value_of (name : list Z) (h : list (list Z * list Z)) : option (list Z) :=
  match h with [] => None | (k, v) :: h => if same k name then Some v else value_of name h end.
Definition or_else (d : list Z) (o : option (list Z)) : list Z := match o with Some v => v | None => d end.
(** fields that can be printed in lines and read back *)
Definition line_field (f : list Z * list Z) : Prop := token (fst f) /\ single_line (snd f) /\ (forall c v, snd f = c :: v -> ~ blank c).
Definition page_ok (h : list (list Z * list Z)) : Prop := Forall line_field h /\ NoDup (map (fun g => lower (fst g)) h).
(** code and reason: those of the field Status, a redirection, or success *)
Definition status_of (h : list (list Z * list Z)) (code : Z) (reason : list Z) : Prop :=
  match value_of (str "Status") h with
  | Some v => v = show_int code ++ str " " ++ reason /\ int code /\ ~ In 0 reason /\ match reason with c :: _ => ~ blank c | [] => True end
  | None => if value_of (str "Location") h then code = 302 /\ reason = str "Found" else code = 200 /\ reason = str "OK"
  end.
Definition page_fields (h : list (list Z * list Z)) : list (list Z * list Z) :=
  filter (fun g => negb (same (fst g) (str "Content-Type")) && negb (same (fst g) (str "Status"))) h ++
  [(str "Content-Type", or_else (str "text/html; charset=utf-8") (value_of (str "Content-Type") h))].
(** the name of the variable for a header field: upper case, and (RFC 3875, 4.1.18) a low line for a hyphen *)
Definition upper (s : list Z) : list Z := map (fun c => if (97 <=? c) && (c <=? 122) then c - 32 else c) s.
Definition standard_name (field : list Z) : list Z := str "HTTP_" ++ map (fun c => if c =? 45 then 95 else c) (upper field).
(** the variables that describe the request and the server (RFC 3875, 4.1) *)
Definition variables (m path query ctype clen addr port server_port version : list Z) : list (list Z * list Z) :=
  [(str "REQUEST_METHOD", m); (str "SCRIPT_NAME", path); (str "QUERY_STRING", query);
   (str "REQUEST_URI", path ++ match query with [] => [] | _ => str "?" ++ query end);
   (str "CONTENT_TYPE", ctype); (str "CONTENT_LENGTH", clen); (str "REMOTE_ADDR", addr); (str "REMOTE_PORT", port);
   (str "SERVER_NAME", str "localhost"); (str "SERVER_PORT", server_port); (str "SERVER_PROTOCOL", str "HTTP/1.1");
   (str "SERVER_SOFTWARE", str "pficommon/" ++ version)].
(** the length of the body, nothing if there is no body *)
Definition length_text (body : list Z) : list Z := match body with [] => [] | _ => show_int (Z.of_nat (length body)) end.
