(** Model of src/network/cgi/{xhtml_builder,inserter,xhtml_cgi}.cpp and of the macros of tags.h.  The macro tag__(name) makes a variable of the class
    tag_inserter whose destructor runs at the end of the statement behind it, also when an exception passes; the copy that the macro spells is elided. *)
From Verif Require Import Common Xhtml_Model Http_Model Page_Spec.
Local Open Scope Z_scope.

(** xhtml_builder.h:54: the top of stk is the last element, here the first; back() and pop_back() of an empty vector are undefined *)
Definition builder := list (list elem).
Definition new_builder : builder := [[]].                                              (* xhtml_builder.h:45 *)
(** xhtml_builder.cpp:40-60 *)
Definition get (b : builder) : outcome (list elem) := match b with e :: _ => Ok e | [] => UB end.
Definition push (x : elem) (b : builder) : outcome builder := match b with e :: b => Ok ((e ++ [x]) :: b) | [] => UB end.
Definition enter (b : builder) : builder := [] :: b.
Definition leave (b : builder) : outcome (list elem * builder) := match b with e :: b => Ok (e, b) | [] => UB end.
(** std::map::operator[], then f on the value *)
Fixpoint lessb (a b : list Z) : bool :=
  match a, b with [], [] => false | [], _ => true | _, [] => false | c :: a, d :: b => (c <? d) || ((c =? d) && lessb a b) end.
Fixpoint map_at (m : list (list Z * list Z)) (k : list Z) (f : list Z -> list Z) : list (list Z * list Z) :=
  match m with
  | [] => [(k, f [])]
  | (k', v) :: m' => if lessb k k' then (k, f []) :: m else if lessb k' k then (k', v) :: map_at m' k f else (k', f v) :: m'
  end.
(** the members of xhtml_cgi *)
Record page := { xmltag : list Z; dtd : list Z; bld : builder }.
Definition with_bld (w : page) (b : builder) : page := {| xmltag := xmltag w; dtd := dtd w; bld := b |}.
(** One statement: attrs is that of the tag around (None: there is none, and attr__ does not compile); true: an exception is under way.
    inserter.cpp:44-49 (tag), 51-58 (end of tag), 60-63, 65-68; tags.h:37-47 *)
Fixpoint exec1 (s : stmt) (attrs : option (list (list Z * list Z))) (w : page) : outcome (bool * option (list (list Z * list Z)) * page) :=
  let block := fix block (p : list stmt) (attrs : option (list (list Z * list Z))) (w : page) : outcome (bool * option (list (list Z * list Z)) * page) :=
    match p with
    | [] => Ok (false, attrs, w)
    | s :: p => let* (t, attrs, w) := exec1 s attrs w in if t : bool then Ok (true, attrs, w) else block p attrs w
    end in
  match s with
  | SAttr k f => match attrs with Some a => Ok (false, Some (map_at a k f), w) | None => UB end
  | STag n q =>
      let* (t, a, w) := block q (Some []) (with_bld w (enter (bld w))) in
      let* (children, b) := leave (bld w) in
      let* b := push (Tag n (match a with Some a => a | None => [] end) children) b in
      Ok (t, attrs, with_bld w b)
  | SText s => let* b := push (Text s) (bld w) in Ok (false, attrs, with_bld w b)
  | SPrim s => let* b := push (Prim s) (bld w) in Ok (false, attrs, with_bld w b)
  | SThrow => Ok (true, attrs, w)
  | STry q => let* (_, a, w) := block q attrs w in Ok (false, a, w)
  | SXmltag s => Ok (false, attrs, {| xmltag := s; dtd := dtd w; bld := bld w |})
  | SDtd s => Ok (false, attrs, {| xmltag := xmltag w; dtd := s; bld := bld w |})
  end.
Fixpoint exec (p : list stmt) (attrs : option (list (list Z * list Z))) (w : page) : outcome (bool * option (list (list Z * list Z)) * page) :=
  match p with
  | [] => Ok (false, attrs, w)
  | s :: p => let* (t, attrs, w) := exec1 s attrs w in if t : bool then Ok (true, attrs, w) else exec p attrs w
  end.
(** xhtml_cgi.cpp:44-49 *)
Definition DTD : list Z :=
  str "<!DOCTYPE html PUBLIC ""-//W3C//DTD XHTML 1.0 Transitional//EN"" " ++ str """http://www.w3.org/TR/xhtml1/DTD/xhtml1-transitional.dtd"">".
Definition XMLTAG : list Z := str "<?xml version=""1.0"" encoding=""utf-8""?>".
(** xhtml_cgi.cpp:40-63: the members are as an earlier run left them; the text written and the members afterwards, Throw if run() throws *)
Definition run (p : list stmt) (h : header) (w : page) : outcome (list Z * header * page) :=
  let h := set h (str "Content-Type") (str "text/html; charset=utf-8") in
  let* (t, _, w) := exec p None {| xmltag := XMLTAG; dtd := DTD; bld := new_builder |} in
  if t : bool then Throw else
  let* rs := get (bld w) in
  Ok ((match xmltag w with [] => [] | x => x ++ [10] end) ++ (match dtd w with [] => [] | x => x ++ [10] end) ++ flat_map (pretty 0) rs ++ [10], h, w).
