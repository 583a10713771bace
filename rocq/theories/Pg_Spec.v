(** PostgreSQL as its manual describes it: parameters $1, $2, ... of a prepared statement, and which text a column gives back for the text
    stored in it (DateStyle ISO). *)
From Verif Require Import Common NumText_Model Clock_Model Double_Model Db_Model.
Local Open Scope Z_scope.

(** A query as the programmer means it: text outside quotes, string constants, parameters *)
Inductive piece := Plain (s : list Z) | Constant (s : list Z) | Param.
Definition quoted (s : list Z) : list Z := [39] ++ flat_map (fun c => if c =? 39 then [39; 39] else [c]) s ++ [39].
Definition with_marks (ps : list piece) : list Z :=
  flat_map (fun p => match p with Plain s => s | Constant s => quoted s | Param => str "?" end) ps.
Fixpoint numbered (k : Z) (ps : list piece) : list Z :=
  match ps with
  | [] => []
  | Plain s :: ps => s ++ numbered k ps
  | Constant s :: ps => quoted s ++ numbered k ps
  | Param :: ps => str "$" ++ show_int k ++ numbered (k + 1) ps
  end.
Definition proper (p : piece) : Prop :=
  match p with Plain s => ~ In 0 s /\ ~ In 39 s /\ ~ In 63 s | Constant s => ~ In 0 s | Param => True end.

(** Columns, what they hold, and their texts *)
Inductive column := Cbool | Cint2 | Cint4 | Cint8 | Ctext | Cvarchar | Ctimestamp.
Definition oid (c : column) : Z :=
  match c with Cbool => 16 | Cint2 => 21 | Cint4 => 23 | Cint8 => 20 | Ctext => 25 | Cvarchar => 1043 | Ctimestamp => 1114 end.
Inductive datum := Dbool (b : bool) | Dint (n : Z) | Dtext (s : list Z) | Dstamp (year mon day hour min sec usec : Z).
(** n in k decimal places *)
Fixpoint places (k : nat) (n : Z) : list Z := match k with O => [] | S k => places k (n / 10) ++ [48 + n mod 10] end.
Definition date_time (y mo d h mi s : Z) : list Z :=
  places 4 y ++ str "-" ++ places 2 mo ++ str "-" ++ places 2 d ++ str " " ++ places 2 h ++ str ":" ++ places 2 mi ++ str ":" ++ places 2 s.
(** microseconds as a fraction without trailing zeros *)
Fixpoint fraction (k : nat) (u : Z) : list Z :=
  match k with O => [] | S k' => if u mod 10 =? 0 then fraction k' (u / 10) else places k u end.
Definition stamp_ok (y mo d h mi s u : Z) : Prop :=
  1000 <= y <= 9999 /\ 1 <= mo <= 12 /\ 1 <= d <= 31 /\ 0 <= h < 24 /\ 0 <= mi < 60 /\ 0 <= s < 60 /\ 0 <= u < 1000000.
(** the texts of interest here; a column takes many more *)
Inductive takes : column -> list Z -> datum -> Prop :=
| takes_true : takes Cbool (str "true") (Dbool true)
| takes_false : takes Cbool (str "false") (Dbool false)
| takes_int2 n : - 2 ^ 15 <= n < 2 ^ 15 -> takes Cint2 (show_int n) (Dint n)
| takes_int4 n : - 2 ^ 31 <= n < 2 ^ 31 -> takes Cint4 (show_int n) (Dint n)
| takes_int8 n : - 2 ^ 63 <= n < 2 ^ 63 -> takes Cint8 (show_int n) (Dint n)
| takes_text s : ~ In 0 s -> takes Ctext s (Dtext s)
| takes_varchar s : ~ In 0 s -> takes Cvarchar s (Dtext s)
| takes_stamp y mo d h mi s u : stamp_ok y mo d h mi s u ->
    takes Ctimestamp (date_time y mo d h mi s ++ str "." ++ places 6 u) (Dstamp y mo d h mi s u).
Definition shows (x : datum) : list Z :=
  match x with
  | Dbool b => if b then str "t" else str "f"
  | Dint n => show_int n
  | Dtext s => s
  | Dstamp y mo d h mi s u => date_time y mo d h mi s ++ (if u =? 0 then [] else str "." ++ fraction 6 u)
  end.

(** which values fit which columns *)
Definition fits {F} (v : sql F) (c : column) : Prop :=
  match v, c with
  | Sbool _, Cbool => True
  | Sint32 n, Cint2 => - 2 ^ 15 <= n < 2 ^ 15
  | Sint32 n, Cint4 => - 2 ^ 31 <= n < 2 ^ 31
  | Sint64 n, Cint8 => - 2 ^ 63 <= n < 2 ^ 63
  | Sstring s, (Ctext | Cvarchar) => ~ In 0 s
  | _, _ => False
  end.
(** the local time of t and us microseconds can be told, and what is stored for it *)
Definition fields (localtime : Z -> tm) (t us : Z) : Prop :=
  let f := localtime t in stamp_ok (t_year f + 1900) (t_mon f + 1) (t_mday f) (t_hour f) (t_min f) (t_sec f) us.
Definition stored (localtime : Z -> tm) (t us : Z) : datum :=
  let f := localtime t in Dstamp (t_year f + 1900) (t_mon f + 1) (t_mday f) (t_hour f) (t_min f) (t_sec f) us.
