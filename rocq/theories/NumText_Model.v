(** Numbers as text: what [ostream << integer] prints and what strtol-like functions
    read.  Shared by the models that print or read numbers. *)
From Verif Require Import Common.
Local Open Scope Z_scope.

(** Digit values of [n >= 0] in base [b], most significant first. *)
Fixpoint digs (fuel : nat) (b n : Z) : list Z :=
  match fuel with
  | O => [n]
  | S f => if n <? b then [n] else digs f b (n / b) ++ [n mod b]
  end.
Definition digits (b n : Z) : list Z := digs (Z.to_nat (Z.log2 n)) b n.

(** Value of a list of digit values, most significant first. *)
Definition digits_val (b : Z) (l : list Z) : Z := fold_left (fun a d => a * b + d) l 0.

(** Decimal text of an integer. *)
Definition dec_text (n : Z) : list Z := map (fun d => 48 + d) (digits 10 n).
Definition show_int (n : Z) : list Z := if n <? 0 then 45 :: dec_text (- n) else dec_text n.

(** ctype.h isdigit *)
Definition isdigit (c : Z) : bool := (48 <=? c) && (c <=? 57).

(** Value of a run of decimal digits. *)
Definition dec_val (l : list Z) : Z := digits_val 10 (map (fun c => c - 48) l).

(** The longest prefix satisfying [p], and the rest. *)
Fixpoint spanb (p : Z -> bool) (s : list Z) : list Z * list Z :=
  match s with
  | [] => ([], [])
  | c :: r => if p c then let '(a, b) := spanb p r in (c :: a, b) else ([], s)
  end.
