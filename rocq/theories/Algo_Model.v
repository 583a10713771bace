(** Model of src/data/string/algorithm.h.  Table entries of the first two functions are
    bounded by the lengths of the arguments, which are assumed to fit an [int]. *)
From Verif Require Import Common.

Section Tables.
  Variable A : Type.
  Variable aeq : forall a b : A, {a = b} + {a <> b}.

  (** algorithm.h:49-52, one row of the table: [left] is tbl[i][j-1], [diag] is
      tbl[i-1][j-1] and [up] starts with tbl[i-1][j].  Simplification: only the previous
      row is kept, which is all the code reads. *)
  Fixpoint ed_row (x : A) (left diag : nat) (up : list nat) (b : list A) : outcome (list nat) :=
    match b, up with
    | [], _ => Ok []
    | _ :: _, [] => UB
    | y :: b', u :: up' =>
        let v := diag + (if aeq x y then 0 else 1) in
        let v := Nat.min v (Nat.min u left + 1) in
        let* r := ed_row x v u up' b' in Ok (v :: r)
    end.
  (** algorithm.h:46-52: rows 1..a.size(); tbl[i][0]=i. *)
  Fixpoint ed_rows (i : nat) (a b : list A) (prev : list nat) : outcome (list nat) :=
    match a with
    | [] => Ok prev
    | x :: a' =>
        match prev with
        | [] => UB
        | d :: up => let* r := ed_row x i d up b in ed_rows (S i) a' b (i :: r)
        end
    end.
  (** Last element of a row: tbl[a.size()][b.size()] *)
  Definition last_of (l : list nat) (n : nat) : outcome nat :=
    match nth_error l n with Some v => Ok v | None => UB end.
  (** algorithm.h:43-54 *)
  Definition edit_distance (a b : list A) : outcome nat :=
    let* r := ed_rows 1 a b (seq 0 (S (length b))) in last_of r (length b).

  (** algorithm.h:59-63, as above. *)
  Fixpoint lcs_row (x : A) (left diag : nat) (up : list nat) (b : list A) : outcome (list nat) :=
    match b, up with
    | [], _ => Ok []
    | _ :: _, [] => UB
    | y :: b', u :: up' =>
        let v := diag + (if aeq x y then 1 else 0) in
        let v := Nat.max v (Nat.max u left) in
        let* r := lcs_row x v u up' b' in Ok (v :: r)
    end.
  Fixpoint lcs_rows (a b : list A) (prev : list nat) : outcome (list nat) :=
    match a with
    | [] => Ok prev
    | x :: a' =>
        match prev with
        | [] => UB
        | d :: up => let* r := lcs_row x 0 d up b in lcs_rows a' b (0 :: r)
        end
    end.
  (** algorithm.h:56-65 *)
  Definition longest_common_subsequence (a b : list A) : outcome nat :=
    let* r := lcs_rows a b (repeat 0 (S (length b))) in last_of r (length b).
End Tables.

Local Open Scope Z_scope.
Definition INT_MAX : Z := 2147483647.
Definition INT_MIN : Z := - 2147483648.
(** Conversion of an integer to [int] (tbl[id[i]]=a[i] at algorithm.h:74). *)
Definition to_int (x : Z) : Z := (x + 2147483648) mod 4294967296 - 2147483648.

(** std::lower_bound on a vector (the halving loop of libstdc++). *)
Fixpoint lower_bound_loop (fuel : nat) (tbl : list Z) (x : Z) (first len : nat) : outcome nat :=
  match len with
  | O => Ok first
  | _ =>
      match fuel with
      | O => Fuel
      | S f =>
          let half := Nat.div len 2 in
          match nth_error tbl (first + half) with
          | None => UB
          | Some m => if m <? x then lower_bound_loop f tbl x (first + half + 1)%nat (len - half - 1)%nat
                      else lower_bound_loop f tbl x first half
          end
      end
  end.
Definition lower_bound (tbl : list Z) (x : Z) : outcome nat := lower_bound_loop (length tbl) tbl x 0 (length tbl).

(** tbl[k]=v; writing outside is undefined. *)
Fixpoint write (tbl : list Z) (k : nat) (v : Z) : outcome (list Z) :=
  match tbl, k with
  | [], _ => UB
  | _ :: t, O => Ok (v :: t)
  | y :: t, S k' => let* r := write t k' v in Ok (y :: r)
  end.
(** algorithm.h:72-75, giving the vector [id]. *)
Fixpoint lis_loop (tbl : list Z) (a : list Z) : outcome (list nat) :=
  match a with
  | [] => Ok []
  | x :: a' =>
      let* k := lower_bound tbl x in
      let* tbl' := write tbl k (to_int x) in
      let* r := lis_loop tbl' a' in Ok (k :: r)
  end.
(** algorithm.h:67-77, for integer elements. *)
Definition longest_increasing_subsequence (a : list Z) : outcome nat :=
  match a with
  | [] => Ok O
  | _ => let* id := lis_loop (repeat INT_MAX (length a)) a in Ok (fold_right Nat.max O id + 1)%nat
  end.
