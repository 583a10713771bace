(** Model of src/database/postgresql/{value,statement,result}.cpp: what libpq is given and what is made of its answers.  strptime,
    strftime, atoi are glibc's in the C locale.  A parameter is sent in text format, so the server sees it up to its first NUL
    (the lengths in statement.cpp:86-94 are ignored by libpq).  A double is a finite one.  int is unbounded where it counts characters. *)
From Verif Require Import Common NumText_Model Cast_Model Ipv4_Model Clock_Model Double_Model Db_Model.
Local Open Scope Z_scope.

(** statement.cpp:47-59 *)
Fixpoint convert_loop (cnt : Z) (q : list Z) : list Z :=
  match q with
  | [] => []
  | c :: q => if c =? 63 then 36 :: show_int cnt ++ convert_loop (cnt + 1) q else c :: convert_loop cnt q
  end.
Definition convert_query (q : list Z) : list Z := convert_loop 1 q.
(** statement.cpp:65: what PQprepare is given *)
Definition prepared (q : list Z) : list Z := c_str (convert_query q).

(** ** From text, value.cpp:51-124 *)
(** value.cpp:51-75 *)
Inductive sql_type := SQL_BOOL | SQL_STRING | SQL_INT32 | SQL_INT64 | SQL_FLOAT | SQL_TIMESTAMP | SQL_UNKNOWN.
Definition oid_to_sql_type (o : Z) : sql_type :=
  if o =? 16 then SQL_BOOL else if o =? 20 then SQL_INT64 else if (o =? 21) || (o =? 23) then SQL_INT32
  else if (o =? 25) || (o =? 1043) then SQL_STRING else if (o =? 700) || (o =? 701) then SQL_FLOAT
  else if o =? 1114 then SQL_TIMESTAMP else SQL_UNKNOWN.

(** glibc's get_number of strptime: blanks, then up to n digits as long as the number can stay below to *)
Fixpoint more_digits (n : nat) (to v : Z) (p : list Z) : Z * list Z :=
  match n, p with
  | S n, c :: r => if (v * 10 <=? to) && isdigit c then more_digits n to (v * 10 + (c - 48)) r else (v, p)
  | _, _ => (v, p)
  end.
Definition get_number (from to : Z) (n : nat) (p : list Z) : option (Z * list Z) :=
  match skip_ws p with
  | c :: r => if isdigit c then
                let '(v, r) := more_digits (n - 1) to (c - 48) r in if (v <? from) || (to <? v) then None else Some (v, r)
              else None
  | [] => None
  end.
Definition literal (c : Z) (p : list Z) : option (list Z) := match p with a :: r => if a =? c then Some r else None | [] => None end.
Definition bind {A B} (x : option A) (f : A -> option B) : option B := match x with Some a => f a | None => None end.
(** strptime(p, "%Y-%m-%d %T.", &t): the fields and what is behind; None for NULL *)
Definition strptime (p : list Z) : option (Z * Z * Z * Z * Z * Z * list Z) :=
  bind (get_number 0 9999 4 p) (fun '(y, p) => bind (literal 45 p) (fun p =>
  bind (get_number 1 12 2 p) (fun '(mo, p) => bind (literal 45 p) (fun p =>
  bind (get_number 1 31 2 p) (fun '(d, p) => let p := skip_ws p in
  bind (get_number 0 23 2 p) (fun '(h, p) => bind (literal 58 p) (fun p =>
  bind (get_number 0 59 2 p) (fun '(mi, p) => bind (literal 58 p) (fun p =>
  bind (get_number 0 61 2 p) (fun '(s, p) => bind (literal 46 p) (fun p => Some (y, mo, d, h, mi, s, p)))))))))))).
Definition atoi (p : list Z) : Z := match scan_d p with Some (v, _) => v | None => 0 end.

Section zone.
Context (mktime : tm -> Z) (localtime : Z -> tm).
(** value.cpp:77-117; p is the text (without NUL), [junk] what the calendar_time finds as isdst; atoi of NULL is undefined.
    lexical_cast<double> is a parameter here; it is lexical_double of PgFloat_Model. *)
Definition make_sql_value (to_double : list Z -> outcome double) (junk : bool) (p : list Z) (t : sql_type) : outcome (sql double) :=
  match t with
  | SQL_BOOL => Ok (Sbool match p with
                          | [] => false
                          | c :: _ => (c =? 116) || (c =? 84) || (c =? 121) || (c =? 89) || (c =? 49)
                          end)
  | SQL_STRING => Ok (Sstring p)
  | SQL_INT32 => let* n := from_string (TNum true 32) p in Ok (Sint32 n)
  | SQL_INT64 => let* n := from_string (TNum true 64) p in Ok (Sint64 n)
  | SQL_FLOAT => let* d := to_double p in Ok (Sfloat d)
  | SQL_TIMESTAMP => match strptime p with
                     | None => UB
                     | Some (y, mo, d, h, mi, s, q) => Ok (Stimestamp (clock_of mktime (calendar_make mktime localtime junk y mo d h mi s (atoi q))))
                     end
  | SQL_UNKNOWN => Ok (Sunknown p)
  end.
(** value.cpp:119-124; None is a NULL *)
Definition str_to_sql (to_double : list Z -> outcome double) (junk : bool) (p : option (list Z)) (o : Z) : outcome (ptr double) :=
  match p with None => Ok None | Some p => let* v := make_sql_value to_double junk p (oid_to_sql_type o) in Ok (Some v) end.

(** ** To text, value.cpp:126-171 *)
(** printf("%0kd") *)
Definition zeros (k : nat) (s : list Z) : list Z := repeat 48 (k - length s) ++ s.
Definition zpad (k : nat) (n : Z) : list Z := if n <? 0 then 45 :: zeros (k - 1) (dec_text (- n)) else zeros k (dec_text n).
(** printf("%.10f") *)
Definition fixed10 (d : double) : list Z :=
  let n := if 0 <=? dexp d then dman d * 2 ^ dexp d * 10 ^ 10 else rhe (dman d * 10 ^ 10) (2 ^ (- dexp d)) in
  (if dneg d then [45] else []) ++ dec_text (n / 10 ^ 10) ++ [46] ++ zeros 10 (dec_text (n mod 10 ^ 10)).
(** value.cpp:150-165; strftime(buf, 64, "%Y-%m-%d %T.", &t) always fits, as do the up to 11 characters of usec *)
Definition stamp_text (c : clock) : list Z :=
  let t := calendar_of localtime c in
  show_int (year t) ++ [45] ++ zpad 2 (mon t) ++ [45] ++ zpad 2 (mday t) ++ [32] ++ zpad 2 (hour t) ++ [58] ++ zpad 2 (min t) ++ [58] ++
  zpad 2 (sec t) ++ [46] ++ zpad 6 (usec t).
Definition sql_to_str (p : ptr double) : option (list Z) :=
  match p with
  | None => None
  | Some v => Some match v with
                   | Sbool b => if b then str "true" else str "false"
                   | Sstring s => s
                   | Sint32 n | Sint64 n => show_int n
                   | Sfloat d => fixed10 d
                   | Stimestamp c => stamp_text c
                   | Sunknown s => s
                   end
  end.
(** statement.cpp:82-94: what the server sees *)
Definition parameter (p : ptr double) : option (list Z) := option_map c_str (sql_to_str p).
End zone.
