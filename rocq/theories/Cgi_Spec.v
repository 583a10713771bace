(** Forms: a list of name/value pairs, their URL-encoded text, and their multipart/form-data text (RFC 2388). *)
From Verif Require Import Common UriCodec_Spec.
Local Open Scope Z_scope.

Definition eq_str (a b : list Z) : bool := if list_eq_dec Z.eq_dec a b then true else false.
(** The values of a name, in order. *)
Definition values (k : list Z) (ps : list (list Z * list Z)) : list (list Z) :=
  map snd (filter (fun p => eq_str (fst p) k) ps).
Definition last_of (vs : list (list Z)) : option (list Z) := match rev vs with v :: _ => Some v | [] => None end.
Definition all_of (vs : list (list Z)) : option (list (list Z)) := match vs with [] => None | _ => Some vs end.

(** application/x-www-form-urlencoded: name=value, joined by &; each encoded in any valid way. *)
Inductive form_text : list (list Z * list Z) -> list Z -> Prop :=
| ft_nil : form_text [] []
| ft_one k v ek ev : percent_form k ek -> percent_form v ev -> form_text [(k, v)] (ek ++ 61 :: ev)
| ft_more k v ek ev p ps t : percent_form k ek -> percent_form v ev -> form_text (p :: ps) t ->
    form_text ((k, v) :: p :: ps) (ek ++ 61 :: ev ++ 38 :: t).

(** Parts of a multipart form: a field, or a file with its type. *)
Inductive part := Field (name value : list Z) | File (name filename ctype content : list Z).
Definition pairs (ps : list part) : list (list Z * list Z) :=
  map (fun p => match p with Field n v => (n, v) | File n f _ _ => (n, f) end) ps.
Definition files (ps : list part) : list (list Z * list Z) :=
  flat_map (fun p => match p with Field _ _ => [] | File _ f _ c => [(f, c)] end) ps.
Definition crlf : list Z := [13; 10].
Definition quoted (s : list Z) : list Z := 34 :: s ++ [34].
Definition part_text (p : part) : list Z :=
  match p with
  | Field n v => str "Content-Disposition: form-data; name=" ++ quoted n ++ crlf ++ crlf ++ v
  | File n f t c => str "Content-Disposition: form-data; name=" ++ quoted n ++ str "; filename=" ++ quoted f ++ crlf ++
                    str "Content-Type: " ++ t ++ crlf ++ crlf ++ c
  end.
(** Each part after a line "--boundary"; the last line is "--boundary--". *)
Definition multipart_text (bd : list Z) (ps : list part) : list Z :=
  flat_map (fun p => str "--" ++ bd ++ crlf ++ part_text p ++ crlf) ps ++ str "--" ++ bd ++ str "--" ++ crlf.
Definition contains (x s : list Z) : Prop := exists a b, s = a ++ x ++ b.
(** Names without quote, semicolon and line end. *)
Definition plain (n : list Z) : Prop := ~ In 34 n /\ ~ In 59 n /\ ~ In 10 n /\ ~ In 13 n.
Definition part_ok (p : part) : Prop :=
  match p with
  | Field n v => plain n /\ ~ contains (10 :: str "--") (part_text p)
  | File n f t c => plain n /\ plain f /\ ~ In 10 t /\ ~ contains (str "multipart/") t /\ ~ contains (10 :: str "--") (part_text p)
  end.
(** Lines that start with two dashes go on for the length of the boundary, or the part does, and are not boundaries. *)
Definition clear (bd s : list Z) : Prop := forall a b, s = a ++ (10 :: str "--") ++ b -> (length bd <= S (length b))%nat /\ forall r, b <> bd ++ r.
Definition part_clear (bd : list Z) (p : part) : Prop :=
  match p with
  | Field n v => plain n /\ clear bd (part_text p)
  | File n f t c => plain n /\ plain f /\ ~ In 10 t /\ ~ contains (str "multipart/") t /\ clear bd (part_text p)
  end.
(** Lines before the first boundary. *)
Definition preamble_ok (bd : list Z) (pre : list (list Z)) : Prop :=
  Forall (fun l => ~ In 10 l /\ forall r, l <> str "--" ++ bd ++ r) pre.
Definition lines (pre : list (list Z)) : list Z := flat_map (fun l => l ++ [10]) pre.
(** The fields of the header of each file: the lines up to LF, without leading blanks *)
Fixpoint no_blanks (s : list Z) : list Z :=
  match s with c :: r => if (c =? 32) || ((9 <=? c) && (c <=? 13)) then no_blanks r else s | [] => [] end.
Definition infos (ps : list part) : list (list Z * list (list Z * list Z)) :=
  flat_map (fun p => match p with
    | Field _ _ => []
    | File n f t _ => [(f, [(str "Content-Disposition", str "form-data; name=" ++ quoted n ++ str "; filename=" ++ quoted f ++ [13]); (str "Content-Type", no_blanks (t ++ [13]))])]
    end) ps.
Definition last_info (k : list Z) (is : list (list Z * list (list Z * list Z))) : option (list (list Z * list Z)) :=
  match rev (map snd (filter (fun p => eq_str (fst p) k) is)) with h :: _ => Some h | [] => None end.
(** Several files for one name (RFC 2388, 4.2): a part of type multipart/mixed with a boundary of its own; e is the end of lines. *)
Definition attachment_text (e bi : list Z) (p : list Z * list Z) : list Z :=
  str "--" ++ bi ++ e ++ str "Content-Disposition: attachment; filename=" ++ quoted (fst p) ++ e ++ e ++ snd p ++ e.
Definition nested_text (e bd bi n : list Z) (fs : list (list Z * list Z)) : list Z :=
  str "--" ++ bd ++ e ++ str "Content-Disposition: form-data; name=" ++ quoted n ++ e ++ str "Content-Type: multipart/mixed; boundary=" ++ bi ++ e ++ e ++
  flat_map (attachment_text e bi) fs ++ str "--" ++ bi ++ str "--" ++ e ++ str "--" ++ bd ++ str "--" ++ e.
