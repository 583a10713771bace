(** Model of the stream operators of ustring, src/data/string/ustring.cpp:344-356, in the C locale with width 0 and skipws set. *)
From Verif Require Import Common NumText_Model Utf8_Model.
From Verif Require Cast_Model.
Local Open Scope Z_scope.

(** ustring.cpp:344-349: the bytes that are written *)
Definition write (u : list Z) : list Z := flat_map uchar_to_chars u.
(** a stream: the text left and whether eofbit or failbit is set *)
Record istr := { left : list Z; atend : bool; bad : bool }.
(** operator>> for std::string: blanks are skipped, a word is taken; without one the string stays empty and the stream fails *)
Definition get_word (i : istr) : list Z * istr :=
  if atend i || bad i then ([], {| left := left i; atend := atend i; bad := true |}) else
  match Cast_Model.skip_ws (left i) with
  | [] => ([], {| left := []; atend := true; bad := true |})
  | s => let '(w, rest) := spanb (fun c => negb (Cast_Model.isspace c)) s in
         (w, {| left := rest; atend := match rest with [] => true | _ => false end; bad := false |})
  end.
(** ustring.cpp:351-356: the ustring is assigned even if nothing was read *)
Definition read (i : istr) : outcome (list Z * istr) :=
  let '(s, i) := get_word i in
  let* u := string_to_ustring s in Ok (u, i).
(** while (in >> u) l.push_back(u) *)
Fixpoint read_all (f : nat) (i : istr) : outcome (list (list Z) * istr) :=
  match f with
  | O => Fuel
  | S f => let* (u, i) := read i in
           if bad i then Ok ([], i) else let* (l, i) := read_all f i in Ok (u :: l, i)
  end.
