(** Model of class uri: src/network/uri.cpp:94-894.
    A pointer into s.c_str() is the rest of the array behind it: the string's bytes and the final NUL.
    Reading from the empty rest (behind the NUL) and advancing beyond it are undefined behaviour.
    The character classes of <cctype> are those of the "C" locale; a negative argument
    (a byte >= 128) is in none of them, as in glibc. *)
From Verif Require Import Common.
Local Open Scope Z_scope.

Definition rd (p : list Z) : outcome Z := match p with [] => UB | c :: _ => Ok c end.
(** [p += n] *)
Fixpoint adv (n : nat) (p : list Z) : outcome (list Z) :=
  match n with O => Ok p | S n' => match p with [] => UB | _ :: r => adv n' r end end.
(** [p[n]] *)
Definition at_ (n : nat) (p : list Z) : outcome Z := let* q := adv n p in rd q.
(** [string(org,p)] *)
Definition span (org p : list Z) : list Z := firstn (length org - length p) org.

(** A [bool f(const char *&p)] *)
Definition P : Type := list Z -> outcome (bool * list Z).

Definition isdigit (c : Z) : bool := (48 <=? c) && (c <=? 57).
Definition isalpha (c : Z) : bool := ((65 <=? c) && (c <=? 90)) || ((97 <=? c) && (c <=? 122)).
Definition isalnum (c : Z) : bool := isalpha c || isdigit c.
Definition isxdigit (c : Z) : bool := isdigit c || ((65 <=? c) && (c <=? 70)) || ((97 <=? c) && (c <=? 102)).

(** uri.cpp:829-841 *)
Definition is_unreserved (c : Z) : bool :=
  isalpha c || isdigit c || (c =? 45) || (c =? 46) || (c =? 95) || (c =? 126).
(** uri.cpp:859-872 *)
Definition is_sub_delims (c : Z) : bool :=
  (c =? 33) || (c =? 36) || (c =? 38) || (c =? 39) || (c =? 40) || (c =? 41) || (c =? 42) || (c =? 43) || (c =? 44) || (c =? 59) || (c =? 61).

(** [A && B] of two parsers; a failing one leaves p where it is. *)
Definition andp (a b : P) : P := fun p => let* (x, p') := a p in if x then b p' else Ok (false, p').
Definition yes : P := fun p => Ok (true, p).
(** [*p++ == c], [isxdigit( *p++ )] *)
Definition eat (f : Z -> bool) : P := fun p => let* c := rd p in Ok (f c, tl p).
(** [if (f( *p)) { p++; return true }], else p stays *)
Definition take1 (f : Z -> bool) : P := fun p => let* c := rd p in if f c then Ok (true, tl p) else Ok (false, p).
(** [a(p) || b(p)] where a failing a leaves p alone *)
Definition orp (a b : P) : P := fun p => let* (x, p') := a p in if x then Ok (true, p') else b p'.
(** [while(a(p))] *)
Fixpoint many (f : nat) (a : P) (p : list Z) : outcome (list Z) :=
  match f with
  | O => Fuel
  | S f' => let* (x, p') := a p in if x then many f' a p' else Ok p'
  end.
Definition loop (a : P) (p : list Z) : outcome (list Z) := many (S (length p)) a p.

(** [x && y] on outcomes *)
Definition ando (a b : outcome bool) : outcome bool := let* x := a in if x then b else Ok false.

(** uri.cpp:817-827 *)
Definition parse_pct_encoded : P := fun p =>
  let* b := ando (omap (fun c => c =? 37) (at_ 0 p)) (ando (omap isxdigit (at_ 1 p)) (omap isxdigit (at_ 2 p))) in
  if b then let* q := adv 3 p in Ok (true, q) else Ok (false, p).
(** uri.cpp:753-775 *)
Definition parse_pchar (colon : bool) : P :=
  orp (take1 is_unreserved) (orp parse_pct_encoded (orp (take1 is_sub_delims)
    (orp (if colon then take1 (fun c => c =? 58) else fun p => Ok (false, p)) (take1 (fun c => c =? 64))))).
(** uri.cpp:732-736 *)
Definition parse_segment (p : list Z) : outcome (list Z) := loop (parse_pchar true) p.
(** uri.cpp:738-743 *)
Definition parse_segment_nz : P := fun p =>
  let* (x, p') := parse_pchar true p in if x then omap (fun q => (true, q)) (parse_segment p') else Ok (false, p').
(** uri.cpp:745-751 *)
Definition parse_segment_nz_nc : P := fun p =>
  let* (x, p') := parse_pchar false p in if x then omap (fun q => (true, q)) (loop (parse_pchar false) p') else Ok (false, p').

(** uri.cpp:663-676 (the result is the new p; path_ is set by the caller from org) *)
Definition abempty_step : P := fun p =>
  let* (x, p') := take1 (fun c => c =? 47) p in if x then omap (fun q => (true, q)) (parse_segment p') else Ok (false, p').
Definition parse_path_abempty (p : list Z) : outcome (list Z) := loop abempty_step p.
(** uri.cpp:678-696 *)
Definition parse_path_absolute : P := fun p =>
  let* c := rd p in
  if negb (c =? 47) then Ok (false, p) else
  let* (x, p') := parse_segment_nz (tl p) in
  if negb x then Ok (true, tl p) else omap (fun q => (true, q)) (parse_path_abempty p').
(** uri.cpp:698-710 *)
Definition parse_path_noscheme : P := fun p =>
  let* (x, p') := parse_segment_nz_nc p in
  if x then omap (fun q => (true, q)) (parse_path_abempty p') else Ok (false, p').
(** uri.cpp:712-724 *)
Definition parse_path_rootless : P := fun p =>
  let* (x, p') := parse_segment_nz p in
  if x then omap (fun q => (true, q)) (parse_path_abempty p') else Ok (false, p').
(** uri.cpp:777-795, 797-815: the loops of parse_query and parse_fragment *)
Definition query_step : P := orp (parse_pchar true) (orp (take1 (fun c => c =? 47)) (take1 (fun c => c =? 63))).
Definition parse_query (p : list Z) : outcome (list Z) := loop query_step p.

(** uri.cpp:611-641 *)
Definition range (a b : Z) (c : Z) : bool := (a <=? c) && (c <=? b).
Definition parse_dec_octet : P := fun p =>
  let t n f := omap f (at_ n p) in
  let* b := ando (t 0%nat (Z.eqb 50)) (ando (t 1%nat (Z.eqb 53)) (t 2%nat (range 48 53))) in
  if b then let* q := adv 3 p in Ok (true, q) else
  let* b := ando (t 0%nat (Z.eqb 50)) (ando (t 1%nat (range 48 52)) (t 2%nat isdigit)) in
  if b then let* q := adv 3 p in Ok (true, q) else
  let* b := ando (t 0%nat (Z.eqb 49)) (ando (t 1%nat isdigit) (t 2%nat isdigit)) in
  if b then let* q := adv 3 p in Ok (true, q) else
  let* b := ando (t 0%nat (range 49 57)) (t 1%nat isdigit) in
  if b then let* q := adv 2 p in Ok (true, q) else
  take1 isdigit p.
(** uri.cpp:592-609 *)
Definition dot : P := eat (Z.eqb 46).
Definition colon : P := eat (Z.eqb 58).
Definition parse_ipv4address : P :=
  andp parse_dec_octet (andp dot (andp parse_dec_octet (andp dot (andp parse_dec_octet (andp dot parse_dec_octet))))).
(** uri.cpp:566-573 *)
Definition parse_h16 : P := andp (eat isxdigit) (andp (eat isxdigit) (andp (eat isxdigit) (eat isxdigit))).
(** [if (a(p)) return true; p=org; return b(p)] *)
Definition alt (a b : P) : P := fun p => let* (x, p') := a p in if x then Ok (true, p') else b p.
(** [if (!a(p)) p=org;] *)
Definition opt (a : P) : P := alt a yes.
(** uri.cpp:575-590 *)
Definition parse_ls32 : P := alt parse_ipv4address (andp parse_h16 (andp colon parse_h16)).
(** n lines [if (!parse_h16(p) || *p++!=':') return false;], then k *)
Fixpoint groups (n : nat) (k : P) : P := match n with O => k | S n' => andp parse_h16 (andp colon (groups n' k)) end.
Definition colons (k : P) : P := andp colon (andp colon k).
(** uri.cpp:449-564 *)
Definition parse_ipv6_1 : P := groups 6 parse_ls32.
Definition parse_ipv6_2 : P := colons (groups 5 parse_ls32).
Definition parse_ipv6_3 : P := andp (opt parse_h16) (colons (groups 4 parse_ls32)).
Definition parse_ipv6_4 : P := andp (opt (groups 1 parse_h16)) (colons (groups 3 parse_ls32)).
Definition parse_ipv6_5 : P := andp (opt (groups 2 parse_h16)) (colons (groups 2 parse_ls32)).
Definition parse_ipv6_6 : P := andp (opt (groups 3 parse_h16)) (colons (groups 1 parse_ls32)).
Definition parse_ipv6_7 : P := andp (opt (groups 4 parse_h16)) (colons parse_ls32).
Definition parse_ipv6_8 : P := andp (opt (groups 5 parse_h16)) (colons parse_h16).
Definition parse_ipv6_9 : P := andp (opt (groups 6 parse_h16)) (colons yes).
(** uri.cpp:415-447 *)
Definition parse_ipv6address : P :=
  alt parse_ipv6_1 (alt parse_ipv6_2 (alt parse_ipv6_3 (alt parse_ipv6_4 (alt parse_ipv6_5 (alt parse_ipv6_6
    (alt parse_ipv6_7 (alt parse_ipv6_8 parse_ipv6_9))))))).
(** uri.cpp:388-413 (the condition of the last loop is the code's) *)
Definition fut (c : Z) : bool := is_unreserved c || is_sub_delims c || (c =? 58).
Definition parse_ipvfuture : P :=
  andp (eat (Z.eqb 118)) (fun p =>
    let* c := rd p in
    if negb (isxdigit c) then Ok (false, p) else
    let* p := loop (take1 isxdigit) p in
    andp (eat (Z.eqb 46)) (fun p =>
      let* c := rd p in
      if negb (fut c) then Ok (false, p) else
      omap (fun q => (true, q)) (loop (take1 (fun c => negb (fut c))) p)) p).
(** uri.cpp:367-386 *)
Definition parse_ip_literal : P :=
  andp (eat (Z.eqb 91)) (andp (alt parse_ipv6address parse_ipvfuture) (eat (Z.eqb 93))).
(** uri.cpp:643-661 *)
Definition parse_reg_name : P := fun p =>
  omap (fun q => (true, q)) (loop (orp (take1 is_unreserved) (orp (take1 is_sub_delims) parse_pct_encoded)) p).
(** uri.cpp:341-353 *)
Definition parse_host : P := alt parse_ip_literal (alt parse_ipv4address parse_reg_name).
(** uri.cpp:319-339: after an encoded byte, which parse_pct_encoded has already skipped, the code skips three more *)
Definition userinfo_step : P :=
  orp (take1 fut) (fun p => let* (x, p') := parse_pct_encoded p in if x then let* q := adv 3 p' in Ok (true, q) else Ok (false, p')).

(** The members. *)
Record comps := mkC { scheme : list Z; userinfo : list Z; host : list Z; port : list Z; path : list Z; query : list Z; fragment : list Z }.
Definition empty : comps := mkC [] [] [] [] [] [] [].

(** uri.cpp:281-295; the result is scheme_ and p *)
Definition parse_scheme (p : list Z) : outcome (option (list Z * list Z)) :=
  let* (x, q) := eat isalpha p in
  if negb x then Ok None else
  let* q := loop (take1 (fun c => isalnum c || (c =? 43) || (c =? 45) || (c =? 46))) q in
  Ok (Some (span p q, q)).
(** uri.cpp:297-317, 355-365: userinfo_, host_, port_ and p *)
Definition parse_authority (p : list Z) : outcome (option (list Z * list Z * list Z * list Z)) :=
  let* q := loop userinfo_step p in
  let* c := rd q in
  let '(u, h) := if c =? 64 then (span p q, tl q) else ([], p) in
  let* (x, q) := parse_host h in
  if negb x then Ok None else
  let ho := span h q in
  let* c := rd q in
  if c =? 58 then let* r := loop (take1 isdigit) (tl q) in Ok (Some (u, ho, span (tl q) r, r))
  else Ok (Some (u, ho, [], q)).

(** uri.cpp:226-279: parse_hier_part and parse_relative_part differ in one alternative. *)
Definition parse_part (third : P) (p : list Z) : outcome (option (list Z * list Z * list Z * list Z * list Z)) :=
  let* b := ando (omap (Z.eqb 47) (at_ 0 p)) (omap (Z.eqb 47) (at_ 1 p)) in
  if b then
    let* p := adv 2 p in
    let* a := parse_authority p in
    match a with
    | None => Ok None
    | Some (u, h, o, q) => let* r := parse_path_abempty q in Ok (Some (u, h, o, span q r, r))
    end
  else
    let* (x, q) := alt parse_path_absolute (alt third yes) p in
    Ok (Some ([], [], [], span p q, q)).
(** uri.cpp:185-200, 208-223: query, fragment and the end; the result is None on failure *)
Definition parse_tail (p : list Z) : outcome (option (list Z * list Z)) :=
  let* c := rd p in
  let* (q, p) := (if c =? 63 then let* r := parse_query (tl p) in Ok (span (tl p) r, r) else Ok ([], p)) in
  let* c := rd p in
  let* (f, p) := (if c =? 35 then let* r := parse_query (tl p) in Ok (span (tl p) r, r) else Ok ([], p)) in
  let* c := rd p in
  Ok (if c =? 0 then Some (q, f) else None).
(** uri.cpp:174-201 *)
Definition parse_uri (p : list Z) : outcome (option comps) :=
  let* s := parse_scheme p in
  match s with
  | None => Ok None
  | Some (s, p) =>
      let* (x, p) := colon p in
      if negb x then Ok None else
      let* h := parse_part parse_path_rootless p in
      match h with
      | None => Ok None
      | Some (u, h, o, pa, p) => let* t := parse_tail p in Ok (option_map (fun '(q, f) => mkC s u h o pa q f) t)
      end
  end.
(** uri.cpp:203-224 *)
Definition parse_relative_ref (p : list Z) : outcome (option comps) :=
  let* h := parse_part parse_path_noscheme p in
  match h with
  | None => Ok None
  | Some (u, h, o, pa, p) => let* t := parse_tail p in Ok (option_map (fun '(q, f) => mkC [] u h o pa q f) t)
  end.
(** uri.cpp:94-97, 147-161: the constructor *)
Definition uri (s : list Z) : outcome comps :=
  let p := s ++ [0] in
  let* a := parse_uri p in
  match a with
  | Some c => Ok c
  | None => let* b := parse_relative_ref p in Ok (match b with Some c => c | None => empty end)
  end.

(** uri.cpp:108-115 *)
Definition authority (c : comps) : list Z :=
  (match userinfo c with [] => [] | u => u ++ str "@" end) ++ host c ++ match port c with [] => [] | o => str ":" ++ o end.
(** uri.cpp:874-894 *)
Definition print (c : comps) : list Z :=
  (match scheme c with [] => [] | s => s ++ str "://" end) ++ authority c ++
  (match path c with [] => str "/" | p => p end) ++
  (match query c with [] => [] | q => str "?" ++ q end) ++ match fragment c with [] => [] | f => str "#" ++ f end.
