(** Fetching a document by HTTP: the request for a URL (RFC 2616, 5 and 14.23; RFC 2617, 2) and where the body of the response ends (RFC 2616, 4.4). *)
From Verif Require Import Common NumText_Model Http_Spec HttpMsg_Spec Uri_Spec Base64_Spec.
From Verif Require Cast_Spec.
Local Open Scope Z_scope.

(** the port of a URL: 80 if it names none *)
Definition names (o : option (list Z)) : option (list Z) := match o with Some [] => None | _ => o end.
Definition port_of (a : auth) : Z := match names (a_port a) with None => 80 | Some d => Cast_Spec.decimal d end.
(** the field Host: the port is left out if it is 80 *)
Definition host_field (a : auth) : list Z := a_host a ++ match names (a_port a) with Some d => if Cast_Spec.decimal d =? 80 then [] else str ":" ++ d | None => [] end.
(** the absolute URI to ask for: no fragment; empty parts are left out and the empty path is / *)
Definition target (p : parts) (a : auth) : list Z :=
  compose (mkP (p_scheme p) (Some (mkA (names (a_user a)) (a_host a) (names (a_port a)))) (match p_path p with [] => str "/" | d => d end) (names (p_query p)) None).
Definition get_fields (host : list Z) (user : option (list Z)) : list (list Z * list Z) :=
  [(str "Host", host); (str "Connection", str "close")] ++
  match names user with Some u => [(str "Authorization", str "Basic " ++ rfc4648_encode u)] | None => [] end.
Definition get_request (p : parts) (a : auth) : list Z :=
  message (request_line (str "GET") (target p a) 1 1) (get_fields (host_field a) (a_user a)) [].

(** [framed h w body]: in a response with the header h and w behind it, this is the body *)
Inductive framed : list (list Z * list Z) -> list Z -> list Z -> Prop :=
| fr_sized h body s : fields_ok h -> body <> [] -> Z.of_nat (length body) < 2 ^ 63 -> framed (with_length h body) (body ++ s) body
| fr_close h body : fields_ok h -> framed h body body
| fr_chunked h v body w s : Forall field_ok h -> NoDup (map (fun g => lower (fst g)) h) -> In (str "Transfer-Encoding", v) h -> lower v = str "chunked" ->
    bytes body -> Forall (fun c => c <> 255) body -> chunked_body body w -> framed h (w ++ s) body.
