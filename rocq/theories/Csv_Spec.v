(** CSV files (RFC 4180) and the tables they denote. *)
From Verif Require Import Common.
Local Open Scope Z_scope.

(** Characters that force quoting: comma, quote, carriage return, line feed. *)
Definition special (c : Z) : Prop := c = 44 \/ c = 34 \/ c = 13 \/ c = 10.

(** Quotes inside quotes are doubled. *)
Fixpoint doubled (s : list Z) : list Z :=
  match s with [] => [] | c :: r => if c =? 34 then 34 :: 34 :: doubled r else c :: doubled r end.

(** The texts of a field: as it is if nothing in it is special, or quoted. *)
Inductive field_text : list Z -> list Z -> Prop :=
| ft_plain s : Forall (fun c => ~ special c) s -> field_text s s
| ft_quoted s : field_text s ([34] ++ doubled s ++ [34]).

Inductive eol : list Z -> Prop :=
| eol_lf : eol [10]
| eol_crlf : eol [13; 10].

(** A line: fields separated by commas. *)
Inductive line : list (list Z) -> list Z -> Prop :=
| ln_one s t : field_text s t -> line [s] t
| ln_cons s t r u : field_text s t -> line r u -> line (s :: r) (t ++ [44] ++ u).

Inductive table : list (list (list Z)) -> list Z -> Prop :=
| tb_nil : table [] []
| tb_cons r t e rs u : line r t -> eol e -> table rs u -> table (r :: rs) (t ++ e ++ u)
(** The last line break may be missing after an unquoted, non-empty last field. *)
| tb_last r t c : line r (t ++ [c]) -> ~ special c -> table [r] (t ++ [c]).

(** Where the fields of a row end when they are laid out one after another, each followed by a NUL. *)
Fixpoint ends (pos : Z) (r : list (list Z)) : list Z :=
  match r with [] => [] | s :: r' => (pos + Z.of_nat (length s)) :: ends (pos + Z.of_nat (length s) + 1) r' end.
(** The guard: no field ends exactly at the end of the (doubling) buffer. *)
Definition roomy (r : list (list Z)) : Prop := Forall (fun p => forall k, 0 <= k -> p <> 1024 * 2 ^ k) (ends 0 r).
