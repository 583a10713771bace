(** What MySQL columns hold (types numbered as in its protocol) and the value each entry stands for. *)
From Verif Require Import Common Clock_Model Db_Model.
Local Open Scope Z_scope.

Section spec.
Context {F : Type}.
Inductive datum := Nul | Int (n : Z) | Flt (f : F) | Time (year mon day hour min sec usec : Z) | Str (s : list Z).
(** a column is its type; whether it is unsigned shows in what it holds *)
Definition column := Z.
(** the local time of a clock time *)
Definition local (localtime : Z -> tm) (c : clock) : datum :=
  let t := localtime (fst c) in Time (t_year t + 1900) (t_mon t + 1) (t_mday t) (t_hour t) (t_min t) (t_sec t) (snd c).
(** an entry d of a column of type t stands for the value v *)
Inductive stands (localtime : Z -> tm) : Z -> datum -> option (sql F) -> Prop :=
| stands_null t : stands localtime t Nul None
| stands_tiny n : - 2 ^ 7 <= n < 2 ^ 7 -> stands localtime 1 (Int n) (Some (Sint32 n))
| stands_short n : - 2 ^ 15 <= n < 2 ^ 15 -> stands localtime 2 (Int n) (Some (Sint32 n))
| stands_long n : - 2 ^ 31 <= n < 2 ^ 31 -> stands localtime 3 (Int n) (Some (Sint32 n))
| stands_longlong n : - 2 ^ 63 <= n < 2 ^ 63 -> stands localtime 8 (Int n) (Some (Sint64 n))
| stands_float t f : t = 4 \/ t = 5 -> stands localtime t (Flt f) (Some (Sfloat f))
| stands_time t c : t = 7 \/ t = 12 -> 0 <= fst c < 2 ^ 63 -> stands localtime t (local localtime c) (Some (Stimestamp c))
| stands_string t s : t = 252 \/ t = 254 -> stands localtime t (Str s) (Some (Sstring s)).
(** what a parameter is to be *)
Definition meant (localtime : Z -> tm) (p : option (sql F)) (d : datum) : Prop :=
  match p with
  | None => d = Nul
  | Some (Sbool b) => d = Int (if b then 1 else 0)
  | Some (Sint32 n) | Some (Sint64 n) => d = Int n
  | Some (Sfloat f) => d = Flt f
  | Some (Sstring s) => d = Str s
  | Some (Stimestamp c) => d = local localtime c
  | Some (Sunknown _) => False
  end.
(** the seconds are not negative *)
Definition clock_in (p : option (sql F)) : Prop := match p with Some (Stimestamp c) => 0 <= fst c < 2 ^ 63 | _ => True end.
(** the zone as far as a value needs it *)
Definition zone_ok (mktime : tm -> Z) (localtime : Z -> tm) (junk : bool) (v : option (sql F)) : Prop :=
  match v with Some (Stimestamp c) => mktime (localtime (fst c)) = fst c /\ junk = t_isdst (localtime (fst c)) | _ => True end.
Definition stands_row (localtime : Z -> tm) (cs : list column) (ds : list datum) (vs : list (option (sql F))) : Prop :=
  length ds = length cs /\ Forall2 (fun cd v => stands localtime (fst cd) (snd cd) v) (combine cs ds) vs.
End spec.
Arguments datum : clear implicits.
