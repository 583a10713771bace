(** Model of src/text/json/{base.h,parser.h,parser.cpp}: JSON values, printing, parsing. *)
From Verif Require Import Common NumText_Model Double_Model Utf8_Model.
Local Open Scope Z_scope.

(** base.h:82-152: a json value.  The unordered_map of an object is an association list in
    iteration order; which order that is is left open (the theorems hold for each).
    Simplification: values are trees; sharing through shared_ptr is not represented here. *)
Inductive json :=
| JNull | JBool (b : bool) | JInt (n : Z) | JFloat (d : double) | JStr (s : list Z)
| JArr (l : list json) | JObj (m : list (list Z * json)).

Definition keyeqb (a b : list Z) : bool := if list_eq_dec Z.eq_dec a b then true else false.

(** member[name] = j (base.h:411-413) *)
Fixpoint obj_add {A} (m : list (list Z * A)) (k : list Z) (v : A) : list (list Z * A) :=
  match m with
  | [] => [(k, v)]
  | (k', v') :: r => if keyeqb k k' then (k, v) :: r else (k', v') :: obj_add r k v
  end.
Fixpoint obj_get {A} (m : list (list Z * A)) (k : list Z) : option A :=
  match m with
  | [] => None
  | (k', v') :: r => if keyeqb k k' then Some v' else obj_get r k
  end.

(** ** Printing *)

(** base.h:378-382 tohex *)
Definition jhex (c : Z) : Z := if c <=? 9 then 48 + c else 65 + c - 10.

(** base.h:319-324, 356-361: the characters with a short escape. *)
Definition escs : list (Z * Z) := [(34, 34); (92, 92); (47, 47); (8, 98); (12, 102); (10, 110); (13, 114); (9, 116)].
Fixpoint assoc (l : list (Z * Z)) (c : Z) : option Z :=
  match l with [] => None | (a, b) :: r => if a =? c then Some b else assoc r c end.

(** ctype.h iscntrl in the C locale; a negative char (byte above 127) counts as no control. *)
Definition iscntrl (c : Z) : bool := (c <? 32) || (c =? 127).

(** base.h:328-340, 365-375 (the same text twice): one char of at most 7 bits or, without
    escaping, any byte. *)
Definition print_low (c : Z) : list Z :=
  match assoc escs c with
  | Some x => [92; x]
  | None => if iscntrl c then str "\u00" ++ [jhex (Z.land (Z.shiftr c 4) 15); jhex (Z.land c 15)] else [c]
  end.

Definition print_u4 (u : Z) : list Z :=
  str "\u" ++ [jhex (Z.land (Z.shiftr u 12) 15); jhex (Z.land (Z.shiftr u 8) 15);
               jhex (Z.land (Z.shiftr u 4) 15); jhex (Z.land u 15)].

(** base.h:318-353 print_char; the surrogate branch calls print_char twice with values in
    0xD800..0xDFFF, which take the second branch. *)
Definition print_char (u : Z) : list Z :=
  if u <=? 127 then print_low u
  else if u <? 65536 then print_u4 u
  else print_u4 (55296 + (u - 65536) / 1024) ++ print_u4 (56320 + (u - 65536) mod 1024).

(** base.h:297-303: [while ( *p)] over the C string, so it stops at the first NUL byte.
    chars_to_uchar replaces malformed bytes by U+FFFD. *)
Fixpoint print_esc (fuel : nat) (s : list Z) : list Z :=
  match fuel with
  | O => []
  | S f => match s with
           | [] => []
           | c :: _ => if c =? 0 then [] else let '(u, r) := chars_to_uchar s in print_char u ++ print_esc f r
           end
  end.
(** base.h:304-309 *)
Fixpoint print_raw (s : list Z) : list Z :=
  match s with
  | [] => []
  | c :: r => if c =? 0 then [] else print_low c ++ print_raw r
  end.

(** base.h:295-311 json_string::print *)
Definition print_string (esc : bool) (s : list Z) : list Z :=
  [34] ++ (if esc then print_esc (length s) s else print_raw s) ++ [34].

Fixpoint sep_by (sep : list Z) (xs : list (list Z)) : list Z :=
  match xs with
  | [] => []
  | [x] => x
  | x :: r => x ++ sep ++ sep_by sep r
  end.

(** base.h:179-190, 235-237, 261-271, 459-472, 517-519, 537-539 *)
Fixpoint print (esc : bool) (v : json) : list Z :=
  match v with
  | JNull => str "null"
  | JBool b => if b then str "true" else str "false"
  | JInt n => show_int n
  | JFloat d => fmt12 d
  | JStr s => print_string esc s
  | JArr l => [91] ++ sep_by [44] (map (print esc) l) ++ [93]
  | JObj m => [123] ++ sep_by [44] (map (fun kv => print_string esc (fst kv) ++ [58] ++ print esc (snd kv)) m) ++ [125]
  end.

Definition spaces (n : nat) : list Z := repeat 32 n.

(** base.h:192-210, 474-494 and the default pretty = print (base.h:145-147) *)
Fixpoint pretty_at (esc : bool) (lv : nat) (v : json) : list Z :=
  match v with
  | JArr l =>
      [91] ++ sep_by [44] (map (fun x => [10] ++ spaces ((lv + 1) * 2) ++ pretty_at esc (lv + 1) x) l) ++
      [10] ++ spaces (lv * 2) ++ [93]
  | JObj m =>
      [123] ++ sep_by [44] (map (fun kv => [10] ++ spaces ((lv + 1) * 2) ++ print_string esc (fst kv) ++ [58; 32] ++
                                           pretty_at esc (lv + 1) (snd kv)) m) ++
      [10] ++ spaces (lv * 2) ++ [125]
  | _ => print esc v
  end.
(** base.h:714-718 *)
Definition pretty (esc : bool) (v : json) : list Z := pretty_at esc 0 v ++ [10].

(** ** Comparison, base.h:804-848 *)
Fixpoint equals (conv : bool) (a b : json) {struct a} : bool :=
  match a, b with
  | JInt n, JFloat d => conv && int_d_eq n d
  | JFloat d, JInt n => conv && int_d_eq n d
  | JNull, JNull => true
  | JInt n, JInt m => n =? m
  | JFloat d, JFloat e => d_eq d e
  | JBool x, JBool y => Bool.eqb x y
  | JStr s, JStr t => keyeqb s t
  | JArr l, JArr m =>
      (fix eqs l m := match l, m with
                      | [], [] => true
                      | x :: l', y :: m' => equals conv x y && eqs l' m'
                      | _, _ => false
                      end) l m
  | JObj l, JObj m =>
      Nat.eqb (length l) (length m) &&
      (fix eqs l := match l with
                    | [] => true
                    | (k, x) :: l' => match obj_get m k with Some y => equals conv x y | None => false end && eqs l'
                    end) l
  | _, _ => false
  end.

(** ** Merging, base.h:415-434, 615-636 *)
(** [f] is the user's function; [merge] passes return_second. *)
Fixpoint merge_loop (f : json -> json -> json) (ret obj : list (list Z * json)) : list (list Z * json) :=
  match obj with
  | [] => ret
  | (k, v) :: r =>
      merge_loop f (match obj_get ret k with None => obj_add ret k v | Some js => obj_add ret k (f js v) end) r
  end.
Definition merge_with (f : json -> json -> json) (a b : json) : outcome json :=
  match a, b with
  | JObj m, JObj n => Ok (JObj (merge_loop f (fold_left (fun acc kv => obj_add acc (fst kv) (snd kv)) m []) n))
  | _, _ => Throw
  end.
Definition merge (a b : json) : outcome json := merge_with (fun _ y => y) a b.

(** ** The parser *)

(** Results: a value, a parse_error, an end_of_data, undefined behaviour, out of fuel. *)
Inductive jres (A : Type) := JOk (a : A) | JParse | JEnd | JUB | JFuel.
Arguments JOk {A} a. Arguments JParse {A}. Arguments JEnd {A}. Arguments JUB {A}. Arguments JFuel {A}.

(** parser.h:155-161: the stream iterator (what is left to read), the look-ahead cell cbuf
    ([None] for -1) and the size of buf.  Line and column counts are left out. *)
Record pst := mkP { inp : list Z; cbuf : option Z; cap : Z }.

Definition P (A : Type) := pst -> jres (A * pst).
Definition ret {A} (a : A) : P A := fun st => JOk (a, st).
Definition bind {A B} (m : P A) (f : A -> P B) : P B := fun st =>
  match m st with JOk (a, st') => f a st' | JParse => JParse | JEnd => JEnd | JUB => JUB | JFuel => JFuel end.
Definition fail {A} : P A := fun _ => JParse.
Notation "x <- m ;; k" := (bind m (fun x => k)) (at level 61, m at next level, right associativity).
Notation "m ;;; k" := (bind m (fun _ => k)) (at level 61, right associativity).

Inductive ev := ENull | EBool (b : bool) | EInt (n : Z) | ENum (d : double) | EStr (s : list Z)
  | EObjS | EKey (s : list Z) | EObjE | EArrS | EArrE.

Section Parser.
  (** ustring.h:125-201 calls the fallback with std::string(begin, in) where both are
      istreambuf_iterators of the same stream.  Such iterators compare equal whenever both or
      neither are at the end, so what that string holds (hence whether the fallback answers 0 or
      U+FFFD) depends on the library: it is an arbitrary function here. *)
  Context (fbk : list Z -> Z).

  Definition next_uchar (s : list Z) : Z * list Z :=
    match chars_to_uchar_impl s with Val c r => (c, r) | Bad _ r => (fbk r, r) end.

  Definition at_end (st : pst) : bool := match inp st with [] => true | _ => false end.  (* it == end *)

  (** parser.h:98-106 *)
  Definition peek : P Z := fun st =>
    match cbuf st with
    | Some c => JOk (c, st)
    | None => match inp st with
              | [] => JEnd
              | s => let '(c, r) := next_uchar s in JOk (c, mkP r (Some c) (cap st))
              end
    end.
  (** parser.h:107-116 *)
  Definition incr : P Z := c <- peek ;; fun st => JOk (c, mkP (inp st) None (cap st)).

  (** parser.h:122-135; isspace and isdigit of the C locale. *)
  Definition jspace (c : Z) : bool := ((9 <=? c) && (c <=? 13)) || (c =? 32).

  (** parser.h:117-120 *)
  Fixpoint ss_loop (f : nat) : P unit := fun st =>
    match f with
    | O => JFuel
    | S f' => if at_end st then JOk (tt, st)
              else (c <- peek ;; if jspace c then incr ;;; ss_loop f' else ret tt) st
    end.
  Definition ss : P unit := fun st => ss_loop (length (inp st) + 2) st.

  (** parser.h:137-151 *)
  Definition match_c (c : Z) : P unit := x <- peek ;; if x =? c then incr ;;; ret tt else fail.
  Definition speek : P Z := ss ;;; peek.
  Definition smatch (c : Z) : P unit := ss ;;; match_c c.

  (** parser.h:85-96 *)
  Definition parse_hex : P Z :=
    c <- incr ;;
    if isdigit c then ret (c - 48)
    else if (65 <=? c) && (c <=? 70) then ret (c - 65 + 10)
    else if (97 <=? c) && (c <=? 102) then ret (c - 97 + 10)
    else fail.
  Definition parse_hex4 : P Z :=
    a <- parse_hex ;; b <- parse_hex ;; c <- parse_hex ;; d <- parse_hex ;;
    ret (Z.lor (Z.lor (Z.lor (Z.shiftl a 12) (Z.shiftl b 8)) (Z.shiftl c 4)) d).

  (** parser.cpp:321-329: growing buf; 2*buf_len is an int. *)
  Definition grow (len : nat) : P unit := fun st =>
    if cap st <=? Z.of_nat len + 8 then
      (if 2 ^ 31 <=? 2 * cap st then JUB else JOk (tt, mkP (inp st) (cbuf st) (2 * cap st)))
    else JOk (tt, st).
  (** writing bytes at p; outside buf is undefined behaviour *)
  Definition put (out bs : list Z) : P (list Z) := fun st =>
    if Z.of_nat (length out + length bs) <=? cap st then JOk (out ++ bs, st) else JUB.

  (** parser.cpp:335-393: what one escape sequence denotes, after the backslash. *)
  Definition parse_escape : P (list Z) :=
    c <- incr ;;
    if c =? 34 then ret [34] else if c =? 92 then ret [92] else if c =? 47 then ret [47]
    else if c =? 98 then ret [8] else if c =? 102 then ret [12] else if c =? 110 then ret [10]
    else if c =? 114 then ret [13] else if c =? 116 then ret [9]
    else if c =? 117 then
      u <- parse_hex4 ;;
      if (56320 <=? u) && (u <=? 57343) then fail
      else if (55296 <=? u) && (u <=? 56319) then
        match_c 92 ;;; match_c 117 ;;; l <- parse_hex4 ;;
        if (l <? 56320) || (57343 <? l) then fail
        else ret (uchar_to_chars (65536 + (u - 55296) * 1024 + (l - 56320)))
      else ret (uchar_to_chars u)
    else fail.

  (** parser.cpp:314-414 *)
  Fixpoint string_loop (f : nat) (out : list Z) : P (list Z) := fun st =>
    match f with
    | O => JFuel
    | S f' =>
        (grow (length out) ;;;
         c <- peek ;;
         if c =? 34 then ret out
         else if c =? 92 then incr ;;; bs <- parse_escape ;; out' <- put out bs ;; string_loop f' out'
         else c <- incr ;;
              if ((32 <=? c) && (c <=? 33)) || ((35 <=? c) && (c <=? 91)) || ((93 <=? c) && (c <=? 1114111))
              then out' <- put out (uchar_to_chars c) ;; string_loop f' out'
              else fail) st
    end.
  Definition parse_string_prim : P (list Z) :=
    match_c 34 ;;; out <- (fun st => string_loop (length (inp st) + 2) [] st) ;; match_c 34 ;;; ret out.

  (** parser.cpp:245-248, 254-257, 274-277: [while (it != end && safe_isdigit(peek()))]; with
      [strict = false] the test of the first loop, [(cbuf != -1 || it != end)]. *)
  Fixpoint digit_loop (strict : bool) (f : nat) (src : list Z) : P (list Z) := fun st =>
    match f with
    | O => JFuel
    | S f' =>
        if at_end st && (strict || match cbuf st with None => true | _ => false end) then JOk (src, st)
        else (c <- peek ;; if isdigit c then incr ;;; digit_loop strict f' (src ++ [c]) else ret src) st
    end.
  Definition digit_run (strict : bool) (src : list Z) : P (list Z) := fun st => digit_loop strict (length (inp st) + 2) src st.

  (** strtoll(src, &endptr, 10) on an optional '-' and digits; [None] is errno == ERANGE. *)
  Definition strtoll (s : list Z) : option Z :=
    let '(neg, ds) := match s with 45 :: r => (true, r) | _ => (false, s) end in
    let v := dec_val (fst (spanb isdigit ds)) in
    let n := if neg then - v else v in
    if (n <? - 2 ^ 63) || (2 ^ 63 <=? n) then None else Some n.

  (** parser.cpp:235-305 *)
  Definition parse_number : P (list ev) :=
    c <- peek ;;
    src <- (if c =? 45 then incr ;;; ret [45] else ret []) ;;
    src <- digit_run false src ;;
    r <- (fun st => if at_end st then JOk ((src, false), st) else
            (c <- peek ;; if c =? 46 then incr ;;; src' <- digit_run true (src ++ [46]) ;; ret (src', true)
                          else ret (src, false)) st) ;;
    let '(src, frac) := r in
    r <- (fun st => if at_end st then JOk ((src, frac), st) else
            (c <- peek ;;
             if (c =? 101) || (c =? 69) then
               incr ;;; fun st => if at_end st then JParse else
               (d <- peek ;; if (d =? 43) || (d =? 45) then incr ;;; ret (src ++ [c; d], true) else ret (src ++ [c], true)) st
             else ret (src, frac)) st) ;;
    let '(src, frac) := r in
    src <- digit_run true src ;;
    if (frac : bool) then match strtod src with DOk d => ret [ENum d] | DRange => fail end
    else match strtoll src with Some n => ret [EInt n] | None => fail end.

  (** parser.cpp:416-442 *)
  Fixpoint match_all (s : list Z) : P unit :=
    match s with [] => ret tt | c :: r => match_c c ;;; match_all r end.

  (** parser.cpp:146-188 parse_impl, 190-213 parse_object, 215-233 parse_array *)
  Fixpoint parse_impl (f : nat) : P (list ev) :=
    match f with
    | O => fun _ => JFuel
    | S f' =>
        ss ;;; c <- peek ;;
        if c =? 123 then smatch 123 ;;; es <- obj_loop f' true ;; ret (EObjS :: es ++ [EObjE])
        else if c =? 91 then smatch 91 ;;; es <- arr_loop f' true ;; ret (EArrS :: es ++ [EArrE])
        else if isdigit c || (c =? 45) then parse_number
        else if c =? 34 then s <- parse_string_prim ;; ret [EStr s]
        else if c =? 102 then match_all (str "false") ;;; ret [EBool false]
        else if c =? 110 then match_all (str "null") ;;; ret [ENull]
        else if c =? 116 then match_all (str "true") ;;; ret [EBool true]
        else fail
    end
  with obj_loop (f : nat) (first : bool) : P (list ev) :=
    match f with
    | O => fun _ => JFuel
    | S f' =>
        c <- speek ;;
        if c =? 125 then smatch 125 ;;; ret []
        else (if first then ret tt else smatch 44) ;;;
             ss ;;; k <- parse_string_prim ;; smatch 58 ;;;
             es <- parse_impl f' ;; rest <- obj_loop f' false ;; ret (EKey k :: es ++ rest)
    end
  with arr_loop (f : nat) (first : bool) : P (list ev) :=
    match f with
    | O => fun _ => JFuel
    | S f' =>
        c <- speek ;;
        if c =? 93 then smatch 93 ;;; ret []
        else (if first then ret tt else smatch 44) ;;;
             es <- parse_impl f' ;; rest <- arr_loop f' false ;; ret (es ++ rest)
    end.

  (** parser.cpp:138-144 *)
  Definition parse_stream : P (list ev) :=
    ss ;;; fun st =>
    if at_end st && match cbuf st with None => true | _ => false end then JEnd
    else parse_impl (2 * length (inp st) + 4) st.

  (** ** json_builder, parser.cpp:50-115 *)
  Record bst := mkB { stk : list json; keys : list (list Z); ixs : list nat }.   (* vectors: last at the end; ixs: top first *)

  Definition add_all (m : list (list Z * json)) : list (list Z * json) :=
    fold_left (fun acc kv => obj_add acc (fst kv) (snd kv)) m [].

  Definition bstep (b : bst) (e : ev) : outcome bst :=
    let push v := Ok (mkB (stk b ++ [v]) (keys b) (ixs b)) in
    match e with
    | ENull => push JNull
    | EBool x => push (JBool x)
    | EInt n => push (JInt n)
    | ENum d => push (JFloat d)
    | EStr s => push (JStr s)
    | EKey s => Ok (mkB (stk b) (keys b ++ [s]) (ixs b))
    | EObjS | EArrS => Ok (mkB (stk b) (keys b) (length (stk b) :: ixs b))
    | EObjE =>
        match ixs b with
        | [] => UB
        | ix :: r =>
            let sz := (length (stk b) - ix)%nat in
            if ((length (stk b) <? ix) || (length (keys b) <? sz))%nat then UB else
            let vs := skipn ix (stk b) in
            let ks := skipn (length (keys b) - sz) (keys b) in
            Ok (mkB (firstn ix (stk b) ++ [JObj (add_all (combine ks vs))]) (firstn (length (keys b) - sz) (keys b)) r)
        end
    | EArrE =>
        match ixs b with
        | [] => UB
        | ix :: r =>
            if (length (stk b) <? ix)%nat then UB else
            Ok (mkB (firstn ix (stk b) ++ [JArr (skipn ix (stk b))]) (keys b) r)
        end
    end.
  Fixpoint bsteps (b : bst) (es : list ev) : outcome bst :=
    match es with [] => Ok b | e :: r => let* b' := bstep b e in bsteps b' r end.

  (** parser.cpp:131-136 json_parser::parse with json_builder::get *)
  Definition parse : P json :=
    es <- parse_stream ;; fun st =>
    match bsteps (mkB [] [] []) es with
    | Ok b => match stk b with [v] => JOk (v, st) | _ => JParse end
    | _ => JUB
    end.

  (** parser.cpp:118-124 the constructor *)
  Definition start (s : list Z) : pst := mkP s None 256.
  (** parser.h:164-168 operator>>: one value from the front of a stream; the result is the
      value and what the stream still holds (a look-ahead character is gone with the parser). *)
  Definition read_json (s : list Z) : jres (json * list Z) :=
    match parse (start s) with
    | JOk (v, st) => JOk (v, inp st)
    | JParse => JParse | JEnd => JEnd | JUB => JUB | JFuel => JFuel
    end.
End Parser.
