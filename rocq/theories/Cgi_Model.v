(** Model of form parsing: src/network/cgi/base.cpp:138-282.
    std::map is an association list: what is looked up matters here, not the order. *)
From Verif Require Import Common UriCodec_Model Http_Model.
Local Open Scope Z_scope.

Section Map.
Context {A : Type}.
Definition smap : Type := list (list Z * A).
Fixpoint find (m : smap) (k : list Z) : option A :=
  match m with [] => None | (k', a) :: m' => if eqs k' k then Some a else find m' k end.
(** m[k] = f(m[k]), with the value d created when k is missing *)
Fixpoint upd (m : smap) (k : list Z) (d : A) (f : A -> A) : smap :=
  match m with
  | [] => [(k, f d)]
  | (k', a) :: m' => if eqs k' k then (k', f a) :: m' else (k', a) :: upd m' k d f
  end.
End Map.
Arguments smap : clear implicits.

(** The members (cgi/base.h): query, multi_query, file, file_info. *)
Record cgi := mkCgi { query : smap (list Z); multi_query : smap (list (list Z)); file : smap (list Z); file_info : smap header }.
Definition empty_cgi : cgi := mkCgi [] [] [] [].
(** base.cpp:150-151, 155-156, 266-267, 273-274 *)
Definition add_query (c : cgi) (k v : list Z) : cgi :=
  mkCgi (upd (query c) k [] (fun _ => v)) (upd (multi_query c) k [] (fun vs => vs ++ [v])) (file c) (file_info c).
(** base.cpp:268-269, 277-278 *)
Definition add_file (c : cgi) (f body : list Z) (hd : header) : cgi :=
  mkCgi (query c) (multi_query c) (upd (file c) f [] (fun _ => body)) (upd (file_info c) f [] (fun _ => hd)).

(** strchr: the text before the first c that comes before a NUL, and the text behind it *)
Fixpoint strchr (c : Z) (s : list Z) : option (list Z * list Z) :=
  match s with
  | [] => None
  | a :: r => if a =? c then Some ([], r) else if a =? 0 then None
              else match strchr c r with Some (x, y) => Some (a :: x, y) | None => None end
  end.
(** base.cpp:138-161; s is what p points to *)
Fixpoint parse_loop (f : nat) (s : list Z) (c : cgi) : outcome cgi :=
  match f with
  | O => Fuel
  | S f' =>
      match s with
      | [] => Ok c
      | a :: _ =>
          if a =? 0 then Ok c else
          let '(item, more, rest) := match strchr 38 s with Some (x, y) => (x, true, y) | None => (s, false, []) end in
          let c' := match strchr 61 item with
                    | Some (k, v) => add_query c (uri_decode k) (uri_decode v)
                    | None => add_query c (uri_decode item) []
                    end in
          parse_loop f' (if more then rest else []) c'
      end
  end.
Definition parse_input (s : list Z) (c : cgi) : outcome cgi := parse_loop (S (length s)) s c.

(** ** multipart/form-data *)
(** std::string::find *)
Fixpoint prefix (x s : list Z) : bool :=
  match x, s with
  | [], _ => true
  | a :: x', b :: s' => (a =? b) && prefix x' s'
  | _ :: _, [] => false
  end.
Fixpoint find_sub (x s : list Z) : option nat :=
  if prefix x s then Some 0%nat else match s with [] => None | _ :: r => option_map S (find_sub x r) end.
(** s.find(c, i) *)
Definition find_from (c : Z) (s : list Z) (i : nat) : option nat := option_map (fun n => (i + n)%nat) (find_sub [c] (skipn i s)).
(** s.substr(i, n) with i <= s.length(); None is npos *)
Definition substr (s : list Z) (i : nat) (n : option nat) : list Z :=
  match n with Some n => firstn n (skipn i s) | None => skipn i s end.

(** base.cpp:163-169 *)
Definition trim (s : list Z) : list Z := rev (rtrim_rev (rev (ltrim s))).
(** base.cpp:179-190 *)
Definition extract_attr (s : list Z) : list Z * list Z :=
  let ix := find_from 61 s 0 in
  let key := map tolower (trim (substr s 0 ix)) in
  match ix with
  | None => (key, [])
  | Some i =>
      match find_from 34 s (S i) with
      | None => (key, [])
      | Some j =>
          match find_from 34 s (S j) with
          | None => (key, [])
          | Some k => (key, substr s (S j) (Some (k - j - 1)%nat))
          end
      end
  end.
(** base.cpp:201-206: std::map::insert keeps what is there; the second argument of substr is a length, and is given [next] *)
Fixpoint extract_attrs (f : nat) (s : list Z) (cur : option nat) (attr : smap (list Z)) : smap (list Z) :=
  match f, cur with
  | S f', Some c =>
      let next := find_from 59 s (S c) in
      let (k, v) := extract_attr (substr s (S c) next) in
      extract_attrs f' s next (match find attr k with Some _ => attr | None => attr ++ [(k, v)] end)
  | _, _ => attr
  end.
(** base.cpp:192-209; each round moves past a semicolon *)
Definition extract_header (s : list Z) : list Z * smap (list Z) :=
  let cur := find_from 59 s 0 in
  (substr s 0 cur, extract_attrs (length s) s cur []).

(** A std::istringstream: what is left, or the end reached ([true]: also failed). *)
Inductive istr := Good (s : list Z) | AtEnd (failed : bool).
(** std::getline up to LF *)
Fixpoint take_line (s : list Z) : option (list Z * list Z) :=
  match s with
  | [] => None
  | a :: r => if a =? 10 then Some ([], r) else match take_line r with Some (x, y) => Some (a :: x, y) | None => None end
  end.
(** http/base.cpp:133-137: false unless the stream is good afterwards *)
Definition istream_getline (x : istr) : outcome (option (list Z) * istr) :=
  match x with
  | Good s => match take_line s with
              | Some (l, r) => Ok (Some l, Good r)
              | None => Ok (None, AtEnd (match s with [] => true | _ => false end))
              end
  | AtEnd _ => Ok (None, AtEnd true)
  end.
(** base.cpp:250-252.  At the end of the stream tellg fails in libstdc++ and substr throws. *)
Definition split_part (s : list Z) : outcome (header * list Z) :=
  let* (hd, x) := read_header istream_getline (S (length s)) (Good s) in
  match x with
  | Good body => Ok (hd, body)
  | AtEnd true => Ok (hd, [])
  | AtEnd false => Throw
  end.

(** base.cpp:216-222: the rest after the first boundary line, and whether it is the last one; None if there is none *)
Fixpoint skip_preamble (f : nat) (bd : list Z) (s : list Z) : option (list Z * bool) :=
  match f with
  | O => None
  | S f' =>
      match s with
      | [] => None
      | _ =>
          let (line, rest) := match take_line s with Some p => p | None => (s, []) end in
          if eqs (firstn (length bd + 2) line) (str "--" ++ bd) then
            Some (rest, eqs (firstn (length bd + 4) line) (str "--" ++ bd ++ str "--"))
          else skip_preamble f' bd rest
      end
  end.
(** base.cpp:232-236: the rest of a boundary line *)
Fixpoint boundary_end (s : list Z) (cnt : Z) (e : bool) : list Z * bool :=
  match s with
  | [] => ([], e)
  | a :: r => if a =? 10 then (r, e)
              else if a =? 45 then
                if 0 <=? cnt then boundary_end r (cnt + 1) (e || (cnt + 1 =? 2)) else boundary_end r cnt e
              else boundary_end r (-1) e
  end.
Definition chop_cr (s : list Z) : list Z := match rev s with c :: r => if c =? 13 then rev r else s | [] => s end.
(** base.cpp:225-248: one part, the rest and end; a, b are the two characters before, cnt their number *)
Fixpoint scan_part (f : nat) (bd : list Z) (a b : Z) (cnt : Z) (acc s : list Z) : outcome (list Z * list Z * bool) :=
  match f with
  | O => Fuel
  | S f' =>
      match s with
      | [] => Ok (acc, [], false)
      | c :: r =>
          if (a =? 10) && (b =? 45) && (c =? 45) then
            let n := length bd in
            let chk := firstn n r ++ repeat 32 (n - length r) in
            if eqs chk bd then
              let (rest, e) := boundary_end (skipn n r) 0 false in Ok (chop_cr acc, rest, e)
            else scan_part f' bd b c 0 (acc ++ [a] ++ str "--" ++ chk) (skipn n r)
          else scan_part f' bd b c (cnt + 1) (if 2 <=? cnt then acc ++ [a] else acc) r
      end
  end.
Definition get_attr (m : smap (list Z)) (k : list Z) : list Z := match find m k with Some v => v | None => [] end.
(** base.cpp:260-279 *)
Definition add_part (c : cgi) (hd : header) (body : list Z) : cgi :=
  let (hd', cd) := get hd (str "Content-Disposition") in
  let (v, at_) := extract_header cd in
  match eqs v (str "form-data"), find at_ (str "name"), find at_ (str "filename") with
  | true, Some n, Some f => add_file (add_query c n f) f body hd'
  | true, Some n, None => add_query c n body
  | _, _, _ => if eqs v (str "attachment") then add_file c (get_attr at_ (str "filename")) body hd' else c
  end.
(** base.cpp:211-282 *)
Section Multipart.
Context (again : list Z -> list Z -> cgi -> outcome cgi).
Fixpoint parts (f : nat) (bd s : list Z) (c : cgi) : outcome cgi :=
  match f with
  | O => Fuel
  | S f' =>
      let* (text, rest, e) := scan_part (S (length s)) bd 0 0 0 [] s in
      let* (hd, body) := split_part text in
      let (hd, ct) := get hd (str "Content-Type") in
      let* c' := match find_sub (str "multipart/") ct with
                 | Some _ => again body (substr ct (match find_sub (str "boundary=") ct with Some i => i + 9 | None => 8 end)%nat None) c
                 | None => Ok (add_part c hd body)
                 end in
      if e : bool then Ok c' else parts f' bd rest c'
  end.
End Multipart.
Fixpoint parse_multipart (depth : nat) (s bd : list Z) (c : cgi) : outcome cgi :=
  match depth with
  | O => Fuel
  | S d =>
      match skip_preamble (S (length s)) bd s with
      | Some (_, true) => Ok c
      | Some (rest, false) => parts (parse_multipart d) (S (S (length rest))) bd rest c
      | None => parts (parse_multipart d) 2 bd [] c
      end
  end.
(** Parts get shorter from level to level. *)
Definition parse_multipart_input (s bd : list Z) (c : cgi) : outcome cgi := parse_multipart (S (length s)) s bd c.
