(** Model of the stream operators of src/math/vector.h for vectors of double, over the number input and output of LexFloat_Model. *)
From Verif Require Import Common NumText_Model Double_Model LexFloat_Model.
From Verif Require Cast_Model.
Local Open Scope Z_scope.

(** vector.h:197-200 *)
Fixpoint vwrite (a : list fl) : list Z := match a with [] => [] | x :: a' => insert x ++ match a' with [] => [] | _ => 32 :: vwrite a' end end.
(** a stream: the text left and whether eofbit or failbit is set *)
Record istr := { left : list Z; atend : bool; bad : bool }.
(** How many characters num_get takes: the sign, all leading zeros, and one for each character collected after them *)
Definition taken (s : list Z) : nat :=
  let '(sg, s1) := split_sign s in
  let '(z, s2) := spanb (fun c => c =? 48) s1 in
  (length sg + length z + length (accum false false (match z with [] => false | _ => true end) s2))%nat.
(** operator>> for a double: what is stored (None if the variable is not touched): zero for what is not a number, the largest double
    of its sign for a number that is too large *)
Definition get_dbl (i : istr) : option fl * istr :=
  if atend i || bad i then (None, {| left := left i; atend := atend i; bad := true |}) else
  match Cast_Model.skip_ws (left i) with
  | [] => (None, {| left := []; atend := true; bad := true |})
  | s => let rest := skipn (taken s) s in
         let e := match rest with [] => true | _ => false end in
         match parse_all (collect s) with
         | None => (Some (Fin (mkD false 0 (-1074))), {| left := rest; atend := e; bad := true |})
         | Some (neg, D, k) =>
             match dec_near neg D k with
             | Some d => (Some (Fin d), {| left := rest; atend := e; bad := false |})
             | None => (Some (Fin (mkD neg (2 ^ 53 - 1) 971)), {| left := rest; atend := e; bad := true |})
             end
         end
  end.
(** vector.h:188-194: reading a variable that was never written is undefined *)
Fixpoint get_dbls (n : nat) (i : istr) : list (option fl) * istr :=
  match n with O => ([], i) | S n => let (v, i) := get_dbl i in let (vs, i) := get_dbls n i in (v :: vs, i) end.
Fixpoint settled (l : list (option fl)) : outcome (list fl) :=
  match l with [] => Ok [] | None :: _ => UB | Some v :: l => let* l := settled l in Ok (v :: l) end.
Definition vread (n : nat) (i : istr) : outcome (list fl * istr) :=
  let (vs, i) := get_dbls n i in let* a := settled vs in Ok (a, i).

(** ** Vectors of char, vector.h:187-200: operator>> skips blanks and takes one character *)
Fixpoint cwrite (a : list Z) : list Z := match a with [] => [] | x :: a' => x :: match a' with [] => [] | _ => 32 :: cwrite a' end end.
Definition get_chr (i : istr) : option Z * istr :=
  if atend i || bad i then (None, {| left := left i; atend := atend i; bad := true |}) else
  match Cast_Model.skip_ws (left i) with
  | [] => (None, {| left := []; atend := true; bad := true |})
  | c :: r => (Some c, {| left := r; atend := false; bad := false |})
  end.
Fixpoint cread (n : nat) (i : istr) : outcome (list Z * istr) :=
  match n with
  | O => Ok ([], i)
  | S n => let (v, i) := get_chr i in
           match v with None => UB | Some c => let* (a, i) := cread n i in Ok (c :: a, i) end
  end.
