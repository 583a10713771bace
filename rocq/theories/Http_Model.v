(** Model of HTTP headers and body streams: src/network/http/base.cpp:44-391.
    char is signed; tolower and isspace are those of the C locale and leave bytes >= 128 alone.
    The connection is a stream_socket with the kernel as environment (Socket_Model.v). *)
From Verif Require Import Common Socket_Spec Socket_Model Http_Spec.
Local Open Scope Z_scope.

(** base.cpp:45 *)
Definition line_limit : Z := 4096.
(** base.cpp:44 *)
Definition body_buf_size : Z := 4096.

Definition tolower (c : Z) : Z := if (65 <=? c) && (c <=? 90) then c + 32 else c.
Definition isspace (c : Z) : bool := (c =? 32) || ((9 <=? c) && (c <=? 13)).
(** base.cpp:51-59 *)
Fixpoint cicmp (s t : list Z) : bool :=
  match s, t with
  | [], [] => true
  | a :: s', b :: t' => (tolower a =? tolower b) && cicmp s' t'
  | _, _ => false
  end.

(** The member dat (base.h:87). *)
Definition header : Type := list (list Z * list Z).
(** base.cpp:148-154 *)
Fixpoint has_key (h : header) (key : list Z) : bool :=
  match h with [] => false | (k, _) :: h' => if cicmp k key then true else has_key h' key end.
(** base.cpp:176-184: the non-const [], and what it refers to *)
Fixpoint ref (h : header) (key : list Z) : header * list Z :=
  match h with
  | [] => ([(key, [])], [])
  | (k, v) :: h' => if cicmp k key then (h, v) else let (h2, v2) := ref h' key in ((k, v) :: h2, v2)
  end.
(** base.cpp:161-164: (( *this)[key]=val *)
Fixpoint set (h : header) (key val : list Z) : header :=
  match h with
  | [] => [(key, val)]
  | (k, v) :: h' => if cicmp k key then (k, val) :: h' else (k, v) :: set h' key val
  end.
(** base.cpp:166-174 *)
Fixpoint erase (h : header) (key : list Z) : header :=
  match h with [] => [] | (k, v) :: h' => if cicmp k key then h' else (k, v) :: erase h' key end.
(** base.cpp:156-159: get is the non-const [] *)
Definition get (h : header) (key : list Z) : header * list Z := ref h key.
(** base.cpp:186-194: the const [] *)
Fixpoint const_ref (h : header) (key : list Z) : list Z :=
  match h with [] => [] | (k, v) :: h' => if cicmp k key then v else const_ref h' key end.

(** A client's operations on a header. *)
Definition apply_op (h : header) (o : hop) : header :=
  match o with HSet k v => set h k v | HErase k => erase h k | HGet k => fst (get h k) end.

(** base.cpp:76-88: the key and the value of a line *)
Fixpoint rtrim_rev (r : list Z) : list Z := match r with c :: r' => if isspace c then rtrim_rev r' else r | [] => [] end.
Fixpoint split_line (key line : list Z) : list Z * list Z :=
  match line with
  | [] => (key, [])
  | c :: l => if c =? 58 then (rev (rtrim_rev (rev key)), l) else split_line (key ++ [c]) l
  end.
(** base.cpp:102-108 *)
Definition ends_space (v : list Z) : bool := match rev v with c :: _ => isspace c | [] => false end.
Fixpoint lws (val line : list Z) : list Z :=
  match line with [] => val | c :: l => lws (if ends_space val && isspace c then val else val ++ [c]) l end.
Fixpoint ltrim (v : list Z) : list Z := match v with c :: v' => if isspace c then ltrim v' else v | [] => [] end.
Definition eqs (a b : list Z) : bool := if list_eq_dec Z.eq_dec a b then true else false.

Section Lines.
Context {S : Type} (getl : S -> outcome (option (list Z) * S)).
(** base.cpp:91-112: the value with its continuation lines, and the line after it if there is one *)
Fixpoint rest_of_value (f : nat) (val : list Z) (x : S) : outcome (list Z * option (list Z) * S) :=
  match f with
  | O => Fuel
  | Datatypes.S f' =>
      let* (r, x') := getl x in
      match r with
      | None => Ok (val, None, x')
      | Some line =>
          match line with
          | [] => Ok (val, None, x')
          | c :: _ => if eqs line [13] then Ok (val, None, x')
                      else if isspace c then rest_of_value f' (lws val line) x' else Ok (val, Some line, x')
          end
      end
  end.
(** base.cpp:73-120 *)
Fixpoint read_fields (f : nat) (line : list Z) (h : header) (x : S) : outcome (header * S) :=
  match f with
  | O => Fuel
  | Datatypes.S f' =>
      let (key, val) := split_line [] line in
      let* (val, next, x') := rest_of_value f val x in
      let h' := set h key (ltrim val) in
      match next with None => Ok (h', x') | Some line' => read_fields f' line' h' x' end
  end.
(** base.cpp:65-121; f bounds the number of lines *)
Definition read_header (f : nat) (x : S) : outcome (header * S) :=
  let* (r, x') := getl x in
  match r with
  | None => Throw
  | Some [] => Ok ([], x')
  | Some line => read_fields f line [] x'
  end.
End Lines.

Section Kernel.
Context (rc sc : nat -> Z).

Definition fuel (x : st) : nat := S (S (length (rb (fst x)) + length (kin (snd x)))).
(** base.cpp:123-131: every line but the last takes a byte off the connection *)
Definition header_from (x : st) : outcome (header * st) := read_header (getline rc line_limit) (fuel x) x.
(** base.cpp:216-224 *)
Fixpoint send_fields (h : header) (x : st) : outcome st :=
  match h with
  | [] => Ok x
  | (k, v) :: h' =>
      let* (b, x') := puts sc (k ++ str ": " ++ v ++ [13; 10]) x in
      if b then send_fields h' x' else Throw
  end.
Definition send_header (h : header) (x : st) : outcome st :=
  let* x' := send_fields h x in
  let* (_, x'') := puts sc [13; 10] x' in Ok x''.

(** A char as int. *)
Definition schar (c : Z) : Z := if c <? 128 then c else c - 256.

(** std::istream >> std::hex >> int, as in libstdc++: white space, a sign, 0x, digits; the nearest int on overflow, 0 if there
    is no digit. *)
Fixpoint skip0x (l : list Z) : list Z :=
  match l with
  | c :: (d :: r) => if (c =? 48) && ((d =? 120) || (d =? 88)) then skip0x r else l
  | _ => l
  end.
Definition hexval (c : Z) : option Z :=
  if (48 <=? c) && (c <=? 57) then Some (c - 48)
  else if (97 <=? c) && (c <=? 102) then Some (c - 87)
  else if (65 <=? c) && (c <=? 70) then Some (c - 55) else None.
Fixpoint hexdigits (acc : Z) (l : list Z) : Z :=
  match l with
  | c :: r => match hexval c with Some d => hexdigits (16 * acc + d) r | None => acc end
  | [] => acc
  end.
Definition clamp (n : Z) : Z := Z.max (- 2 ^ 31) (Z.min (2 ^ 31 - 1) n).
Definition scan_hex (line : list Z) : Z :=
  match ltrim line with
  | [] => 0
  | c :: r => if c =? 45 then clamp (- hexdigits 0 (skip0x r))
              else clamp (hexdigits 0 (skip0x (if c =? 43 then r else c :: r)))
  end.

(** basic_httpbody_chunked_streambuf (base.cpp:228-332): sock != NULL, chunk_rest, buf[buf_pos..buf_end). *)
Record chunked := mkC { has_sock : bool; chunk_rest : Z; cbuf : list Z }.
(** base.cpp:233-239 *)
Definition chunked_init : chunked := mkC true 0 [].
(** base.cpp:256-261 *)
Definition chunked_off : chunked := mkC false 0 [].
(** base.cpp:311-324 *)
Definition read_chunk_size (x : st) : outcome (chunked * st) :=
  let* (r, x') := getline rc line_limit x in
  match r with None => Ok (chunked_off, x') | Some line => Ok (mkC true (scan_hex line) [], x') end.
(** base.cpp:280-281 *)
Fixpoint skip_trailer (f : nat) (x : st) : outcome st :=
  match f with
  | O => Fuel
  | S f' => let* (r, x') := getline rc line_limit x in
            match r with None | Some [] => Ok x' | Some _ => skip_trailer f' x' end
  end.
(** base.cpp:300-307; getc's int becomes a char *)
Definition footer (x : st) : outcome st :=
  let (c, x') := getc rc x in
  if c =? 13 then let (c2, x'') := getc rc x' in if c2 =? 10 then Ok x'' else Throw
  else if c =? 10 then Ok x' else Throw.
(** base.cpp:271-309; called with an empty buffer *)
Definition fill (b : chunked) (x : st) : outcome (chunked * st) :=
  if negb (has_sock b) then Ok (b, x) else
  let* (b1, x1) := (if chunk_rest b =? 0 then read_chunk_size x else Ok (b, x)) in
  if chunk_rest b1 =? 0 then
    let* x2 := (if has_sock b1 then skip_trailer (fuel x1) x1 else Ok x1) in Ok (chunked_off, x2)
  else
    let cur := Z.min (chunk_rest b1) body_buf_size in
    let* (d, x2) := read_int rc cur x1 in
    if negb (Z.of_nat (length d) =? cur) then Ok (chunked_off, x2) else
    let rest := chunk_rest b1 - cur in
    let* x3 := (if rest =? 0 then footer x2 else Ok x2) in
    Ok (mkC true rest d, x3).

(** The body streams as std::streambuf: sgetc calls underflow and sbumpc calls uflow, since no get area is set. Peek and Next are in Http_Spec.v. *)
(** base.cpp:247-253 and 241-245 *)
Definition chunked_step (o : rdop) (s : chunked * st) : outcome (Z * (chunked * st)) :=
  let (b, x) := s in
  let* (b', x') := match cbuf b with [] => fill b x | _ => Ok (b, x) end in
  match cbuf b' with
  | [] => Ok (-1, (b', x'))
  | c :: r => Ok (schar c, (match o with Peek => b' | Next => mkC (has_sock b') (chunk_rest b') r end, x'))
  end.

(** basic_httpbody_streambuf (base.cpp:334-367): sock != NULL, rest, buf. *)
Record sized := mkZ { z_sock : bool; z_rest : Z; z_buf : Z }.
(** base.cpp:339-343 *)
Definition sized_init (n : Z) : sized := mkZ true n (-1).
(** base.cpp:345-360; rest does not overflow *)
Definition sized_step (o : rdop) (s : sized * st) : outcome (Z * (sized * st)) :=
  let (b, x) := s in
  let '(ret, b', x') :=
    (if z_buf b =? -1 then
       if negb (z_sock b) then (-1, b, x)
       else let (c, x') := getc rc x in
            (c, mkZ (negb (z_rest b - 1 =? 0)) (z_rest b - 1) c, x')
     else (z_buf b, b, x)) in
  Ok (ret, (match o with Peek => b' | Next => mkZ (z_sock b') (z_rest b') (-1) end, x')).

(** A reader of the stream: the ints it gets. *)
Fixpoint run_body {B} (step : rdop -> B * st -> outcome (Z * (B * st))) (ops : list rdop) (s : B * st) : outcome (list Z * (B * st)) :=
  match ops with
  | [] => Ok ([], s)
  | o :: os => let* (r, s') := step o s in let* (rs, s'') := run_body step os s' in Ok (r :: rs, s'')
  end.
End Kernel.
