(** Model of src/system/time_util.h:43-103 and time_util.cpp:42-104. *)
From Verif Require Import Common.
Local Open Scope Z_scope.

(** sec, usec *)
Definition clock : Type := Z * Z.
Definition u64 (z : Z) : Z := z mod 2 ^ 64.
Definition i32 (z : Z) : outcome Z := if (- 2 ^ 31 <=? z) && (z <? 2 ^ 31) then Ok z else UB.

(** time_util.h:59-62, 73-76 *)
Fixpoint carry (f : nat) (s u : Z) : outcome clock :=
  match f with
  | O => Fuel
  | S f' => if 1000000 <=? u then let* u := i32 (u - 1000000) in carry f' (u64 (s + 1)) u else Ok (s, u)
  end.
(** time_util.h:63-66, 77-80 *)
Fixpoint borrow (f : nat) (s u : Z) : outcome clock :=
  match f with
  | O => Fuel
  | S f' => if u <? 0 then let* u := i32 (u + 1000000) in borrow f' (u64 (s - 1)) u else Ok (s, u)
  end.
Definition fuel (u : Z) : nat := S (Z.to_nat (Z.abs u)).
Definition settle (s u : Z) : outcome clock :=
  let* (s, u) := carry (fuel u) s u in borrow (fuel u) s u.
(** time_util.h:56-68 *)
Definition plus (a b : clock) : outcome clock :=
  let* u := i32 (snd a + snd b) in settle (u64 (fst a + fst b)) u.
(** time_util.h:70-82 *)
Definition minus (a b : clock) : outcome clock :=
  let* u := i32 (snd a - snd b) in settle (u64 (fst a - fst b)) u.
(** time_util.h:96-99 *)
Definition less (a b : clock) : bool := if negb (fst a =? fst b) then fst a <? fst b else snd a <? snd b.

(** struct tm as far as it is used; the flag is zero or not *)
Record tm := mkTm { t_year : Z; t_mon : Z; t_mday : Z; t_hour : Z; t_min : Z; t_sec : Z; t_isdst : bool }.
(** The members of calendar_time but yday and wday, which are only copied out. *)
Record calendar := mkCal { year : Z; mon : Z; mday : Z; hour : Z; min : Z; sec : Z; usec : Z; isdst : bool }.
Section Zone.
(** mktime and localtime_r of the C library *)
Context (mktime : tm -> Z) (localtime : Z -> tm).
(** time_util.cpp:42-57 *)
Definition clock_of (c : calendar) : clock :=
  (u64 (mktime (mkTm (year c - 1900) (mon c - 1) (mday c) (hour c) (min c) (sec c) (isdst c))), usec c).
(** time_util.cpp:73-90; time_t has 64 bits *)
Definition calendar_of (c : clock) : calendar :=
  let t := localtime (if fst c <? 2 ^ 63 then fst c else fst c - 2 ^ 64) in
  mkCal (t_year t + 1900) (t_mon t + 1) (t_mday t) (t_hour t) (t_min t) (t_sec t) (snd c) (t_isdst t).
(** time_util.cpp:92-104: isdst is not initialised before clock_time reads it; [junk] is what is found there *)
Definition calendar_make (junk : bool) (y mo d h mi s us : Z) : calendar := calendar_of (clock_of (mkCal y mo d h mi s us junk)).
End Zone.
