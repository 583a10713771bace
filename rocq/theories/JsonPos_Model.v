(** Model of the places that errors of json_parser name: src/text/json/{parser.h,parser.cpp}.
    The parser is that of Json_Model with the counters lineno and charno. *)
From Verif Require Import Common NumText_Model Double_Model Utf8_Model Json_Model.
Local Open Scope Z_scope.

(** parser.h:155-161 with lineno and charno (parser.h:157).  Simplification: these are ints; texts of
    2^31 characters, on which they would overflow, are not considered. *)
Record qst := mkQ { qin : list Z; qbuf : option Z; qcap : Z; lineno : Z; charno : Z }.

(** A parse_error carries what error() puts there, parser.cpp:444-449 (filename "<istream>", lineno,
    charno): here the state it was thrown in. *)
Inductive qres (A : Type) := QOk (a : A) (st : qst) | QParse (st : qst) | QEnd (st : qst) | QUB | QFuel.
Arguments QOk {A} a st. Arguments QParse {A} st. Arguments QEnd {A} st. Arguments QUB {A}. Arguments QFuel {A}.

Definition Q (A : Type) := qst -> qres A.
Definition qret {A} (a : A) : Q A := fun st => QOk a st.
Definition qbind {A B} (m : Q A) (f : A -> Q B) : Q B := fun st =>
  match m st with QOk a st' => f a st' | QParse s => QParse s | QEnd s => QEnd s | QUB => QUB | QFuel => QFuel end.
(** parser.cpp:444-449 *)
Definition error {A} : Q A := fun st => QParse st.
Notation "'do' x <- m ; k" := (qbind m (fun x => k)) (at level 61, x binder, m at level 60, right associativity).
Notation "'do_' m ; k" := (qbind m (fun _ => k)) (at level 61, m at level 60, right associativity).

Section Parser.
  (** as in Json_Model: what the fallback answers for malformed bytes *)
  Context (fbk : list Z -> Z).

  Definition qend (st : qst) : bool := match qin st with [] => true | _ => false end.  (* it == end *)

  (** parser.h:98-106 *)
  Definition qpeek : Q Z := fun st =>
    match qbuf st with
    | Some c => QOk c st
    | None => match qin st with
              | [] => QEnd st
              | s => let '(c, r) := next_uchar fbk s in QOk c (mkQ r (Some c) (qcap st) (lineno st) (charno st))
              end
    end.
  (** parser.h:107-116 *)
  Definition qincr : Q Z :=
    do c <- qpeek ;
    fun st => QOk c (if c =? 10 then mkQ (qin st) None (qcap st) (lineno st + 1) 1
                     else mkQ (qin st) None (qcap st) (lineno st) (charno st + 1)).

  (** parser.h:117-120 *)
  Fixpoint qss_loop (f : nat) : Q unit := fun st =>
    match f with
    | O => QFuel
    | S f' => if qend st then QOk tt st
              else (do c <- qpeek ; if jspace c then do_ qincr ; qss_loop f' else qret tt) st
    end.
  Definition qss : Q unit := fun st => qss_loop (length (qin st) + 2) st.

  (** parser.h:137-151 *)
  Definition qmatch (c : Z) : Q unit := do x <- qpeek ; if x =? c then do_ qincr ; qret tt else error.
  Definition qspeek : Q Z := do_ qss ; qpeek.
  Definition qsmatch (c : Z) : Q unit := do_ qss ; qmatch c.

  (** parser.h:85-96 *)
  Definition qhex : Q Z :=
    do c <- qincr ;
    if isdigit c then qret (c - 48)
    else if (65 <=? c) && (c <=? 70) then qret (c - 65 + 10)
    else if (97 <=? c) && (c <=? 102) then qret (c - 97 + 10)
    else error.
  Definition qhex4 : Q Z :=
    do a <- qhex ; do b <- qhex ; do c <- qhex ; do d <- qhex ;
    qret (Z.lor (Z.lor (Z.lor (Z.shiftl a 12) (Z.shiftl b 8)) (Z.shiftl c 4)) d).

  (** parser.cpp:321-329 *)
  Definition qgrow (len : nat) : Q unit := fun st =>
    if qcap st <=? Z.of_nat len + 8 then
      (if 2 ^ 31 <=? 2 * qcap st then QUB else QOk tt (mkQ (qin st) (qbuf st) (2 * qcap st) (lineno st) (charno st)))
    else QOk tt st.
  (** writing at p, as in Json_Model *)
  Definition qput (out bs : list Z) : Q (list Z) := fun st =>
    if Z.of_nat (length out + length bs) <=? qcap st then QOk (out ++ bs) st else QUB.

  (** parser.cpp:335-393 *)
  Definition qescape : Q (list Z) :=
    do c <- qincr ;
    if c =? 34 then qret [34] else if c =? 92 then qret [92] else if c =? 47 then qret [47]
    else if c =? 98 then qret [8] else if c =? 102 then qret [12] else if c =? 110 then qret [10]
    else if c =? 114 then qret [13] else if c =? 116 then qret [9]
    else if c =? 117 then
      do u <- qhex4 ;
      if (56320 <=? u) && (u <=? 57343) then error
      else if (55296 <=? u) && (u <=? 56319) then
        do_ qmatch 92 ; do_ qmatch 117 ; do l <- qhex4 ;
        if (l <? 56320) || (57343 <? l) then error
        else qret (uchar_to_chars (65536 + (u - 55296) * 1024 + (l - 56320)))
      else qret (uchar_to_chars u)
    else error.

  (** parser.cpp:314-414 *)
  Fixpoint qstring_loop (f : nat) (out : list Z) : Q (list Z) := fun st =>
    match f with
    | O => QFuel
    | S f' =>
        (do_ qgrow (length out) ;
         do c <- qpeek ;
         if c =? 34 then qret out
         else if c =? 92 then do_ qincr ; do bs <- qescape ; do out' <- qput out bs ; qstring_loop f' out'
         else do c <- qincr ;
              if ((32 <=? c) && (c <=? 33)) || ((35 <=? c) && (c <=? 91)) || ((93 <=? c) && (c <=? 1114111))
              then do out' <- qput out (uchar_to_chars c) ; qstring_loop f' out'
              else error) st
    end.
  Definition qstring_run : Q (list Z) := fun st => qstring_loop (length (qin st) + 2) [] st.
  Definition qstring : Q (list Z) := do_ qmatch 34 ; do out <- qstring_run ; do_ qmatch 34 ; qret out.

  (** parser.cpp:245-248, 254-257, 274-277 *)
  Fixpoint qdigit_loop (strict : bool) (f : nat) (src : list Z) : Q (list Z) := fun st =>
    match f with
    | O => QFuel
    | S f' =>
        if qend st && (strict || match qbuf st with None => true | _ => false end) then QOk src st
        else (do c <- qpeek ; if isdigit c then do_ qincr ; qdigit_loop strict f' (src ++ [c]) else qret src) st
    end.
  Definition qdigit_run (strict : bool) (src : list Z) : Q (list Z) := fun st => qdigit_loop strict (length (qin st) + 2) src st.

  (** parser.cpp:250-258 *)
  Definition qfrac (src : list Z) : Q (list Z * bool) := fun st =>
    if qend st then QOk (src, false) st else
    (do c <- qpeek ; if c =? 46 then do_ qincr ; do src' <- qdigit_run true (src ++ [46]) ; qret (src', true)
                     else qret (src, false)) st.
  (** parser.cpp:265-271 *)
  Definition qexp_sign (src : list Z) (c : Z) : Q (list Z * bool) := fun st =>
    if qend st then QParse st else
    (do d <- qpeek ; if (d =? 43) || (d =? 45) then do_ qincr ; qret (src ++ [c; d], true) else qret (src ++ [c], true)) st.
  (** parser.cpp:260-272 *)
  Definition qexp (src : list Z) (frac : bool) : Q (list Z * bool) := fun st =>
    if qend st then QOk (src, frac) st else
    (do c <- qpeek ; if (c =? 101) || (c =? 69) then do_ qincr ; qexp_sign src c else qret (src, frac)) st.
  (** parser.cpp:235-305 *)
  Definition qnumber : Q (list ev) :=
    do c <- qpeek ;
    do src <- (if c =? 45 then do_ qincr ; qret [45] else qret []) ;
    do src <- qdigit_run false src ;
    do r <- qfrac src ;
    do r <- qexp (fst r) (snd r) ;
    do src <- qdigit_run true (fst r) ;
    if snd r then match strtod src with DOk d => qret [ENum d] | DRange => error end
    else match strtoll src with Some n => qret [EInt n] | None => error end.

  (** parser.cpp:416-442 *)
  Fixpoint qmatch_all (s : list Z) : Q unit :=
    match s with [] => qret tt | c :: r => do_ qmatch c ; qmatch_all r end.

  (** parser.cpp:146-188 parse_impl, 190-213 parse_object, 215-233 parse_array *)
  Fixpoint qparse_impl (f : nat) : Q (list ev) :=
    match f with
    | O => fun _ => QFuel
    | S f' =>
        do_ qss ; do c <- qpeek ;
        if c =? 123 then do_ qsmatch 123 ; do es <- qobj_loop f' true ; qret (EObjS :: es ++ [EObjE])
        else if c =? 91 then do_ qsmatch 91 ; do es <- qarr_loop f' true ; qret (EArrS :: es ++ [EArrE])
        else if isdigit c || (c =? 45) then qnumber
        else if c =? 34 then do s <- qstring ; qret [EStr s]
        else if c =? 102 then do_ qmatch_all (str "false") ; qret [EBool false]
        else if c =? 110 then do_ qmatch_all (str "null") ; qret [ENull]
        else if c =? 116 then do_ qmatch_all (str "true") ; qret [EBool true]
        else error
    end
  with qobj_loop (f : nat) (first : bool) : Q (list ev) :=
    match f with
    | O => fun _ => QFuel
    | S f' =>
        do c <- qspeek ;
        if c =? 125 then do_ qsmatch 125 ; qret []
        else do_ (if first then qret tt else qsmatch 44) ;
             do_ qss ; do k <- qstring ; do_ qsmatch 58 ;
             do es <- qparse_impl f' ; do rest <- qobj_loop f' false ; qret (EKey k :: es ++ rest)
    end
  with qarr_loop (f : nat) (first : bool) : Q (list ev) :=
    match f with
    | O => fun _ => QFuel
    | S f' =>
        do c <- qspeek ;
        if c =? 93 then do_ qsmatch 93 ; qret []
        else do_ (if first then qret tt else qsmatch 44) ;
             do es <- qparse_impl f' ; do rest <- qarr_loop f' false ; qret (es ++ rest)
    end.

  (** parser.cpp:138-144 *)
  Definition qimpl_run : Q (list ev) := fun st =>
    if qend st && match qbuf st with None => true | _ => false end then QEnd st
    else qparse_impl (2 * length (qin st) + 4) st.
  Definition qparse_stream : Q (list ev) := do_ qss ; qimpl_run.

  (** parser.cpp:131-136; json_builder::get (parser.cpp:52-56) throws a parse_error without a place (lang/exception.h:45-51),
      that is with line 0 and column 0. *)
  Definition qget (es : list ev) : Q json := fun st =>
    match bsteps (mkB [] [] []) es with
    | Ok b => match stk b with [v] => QOk v st | _ => QParse (mkQ (qin st) (qbuf st) (qcap st) 0 0) end
    | _ => QUB
    end.
  Definition qparse : Q json := do es <- qparse_stream ; qget es.

  (** parser.cpp:118-124 the constructor *)
  Definition qstart (s : list Z) : qst := mkQ s None 256 1 1.

  (** What comes of a text: the value, or the place in the parse_error.  end_of_data has no place. *)
  Inductive verdict := Value (v : json) | Bad_at (line col : Z) | Ended | Undefined.
  Definition judge (s : list Z) : verdict :=
    match qparse (qstart s) with
    | QOk v _ => Value v
    | QParse st => Bad_at (lineno st) (charno st)
    | QEnd _ => Ended
    | QUB | QFuel => Undefined
    end.
End Parser.
