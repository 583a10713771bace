(** The text of HTTP messages (RFC 2616, 5 and 6). *)
From Verif Require Import Common NumText_Model Http_Spec.
Local Open Scope Z_scope.

Definition crlf : list Z := [13; 10].
Definition version_text (ma mi : Z) : list Z := str "HTTP/" ++ show_int ma ++ str "." ++ show_int mi.
Definition request_line (m u : list Z) (ma mi : Z) : list Z := m ++ str " " ++ u ++ str " " ++ version_text ma mi.
Definition status_line (ma mi code : Z) (reason : list Z) : list Z := version_text ma mi ++ str " " ++ show_int code ++ str " " ++ reason.
(** a message: its first line, its header, its body *)
Definition message (line : list Z) (h : list (list Z * list Z)) (body : list Z) : list Z := line ++ crlf ++ wire h ++ body.
(** the header with the length of the body, if there is one *)
Definition with_length (h : list (list Z * list Z)) (body : list Z) : list (list Z * list Z) :=
  match body with [] => h | _ => h ++ [(str "Content-Length", show_int (Z.of_nat (length body)))] end.
Definition int (n : Z) : Prop := - 2 ^ 31 <= n < 2 ^ 31.
(** a word without blanks *)
Definition word_ok (s : list Z) : Prop := s <> [] /\ Forall (fun c => ~ blank c) s.
(** a reason phrase on one line, not starting with a blank *)
Definition reason_ok (s : list Z) : Prop := ~ In 10 s /\ match s with c :: _ => ~ blank c | [] => True end.
(** fields of different names, neither Content-Length nor Transfer-Encoding *)
Definition fields_ok (h : list (list Z * list Z)) : Prop :=
  Forall field_ok h /\ NoDup (map (fun g => lower (fst g)) h) /\
  Forall (fun g => same (fst g) (str "Content-Length") = false /\ same (fst g) (str "Transfer-Encoding") = false) h.

(** ** Streams *)
(** what is done to a stream buffer *)
Inductive sop := SRead (o : rdop) | SPut (c : Z) | SWrite (d : list Z) | SSync.
(** what an operation puts into the stream, and when it reports success *)
Definition swritten (o : sop) : list Z := match o with SPut c => [c] | SWrite d => d | _ => [] end.
Definition sdone (o : sop) (r : Z) : Prop :=
  match o with SRead _ => True | SPut _ => r <> -1 | SWrite d => r = Z.of_nat (length d) | SSync => r = 0 end.
(** the reads among the operations, and their results *)
Fixpoint sreads (ops : list sop) : list rdop := match ops with [] => [] | SRead o :: ops => o :: sreads ops | _ :: ops => sreads ops end.
Fixpoint sresults (ops : list sop) (rs : list Z) : list Z :=
  match ops, rs with SRead _ :: ops, r :: rs => r :: sresults ops rs | _ :: ops, _ :: rs => sresults ops rs | _, _ => [] end.
