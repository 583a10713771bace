(** Model of the stream operators of src/math/vector.h for vectors of float, over the number input and output of LexSingle_Model. *)
From Verif Require Import Common Double_Model Single_Model LexFloat_Model LexSingle_Model VecFloat_Model.
From Verif Require Cast_Model.
Local Open Scope Z_scope.

(** vector.h:197-200 *)
Fixpoint fwrite (a : list sfl) : list Z := match a with [] => [] | x :: a' => insert_f x ++ match a' with [] => [] | _ => 32 :: fwrite a' end end.
(** operator>> for a float: what is stored (None if the variable is not touched): zero for what is not a number, the largest float
    of its sign for a number that is too large *)
Definition get_flt (i : istr) : option sfl * istr :=
  if atend i || bad i then (None, {| left := left i; atend := atend i; bad := true |}) else
  match Cast_Model.skip_ws (left i) with
  | [] => (None, {| left := []; atend := true; bad := true |})
  | s => let rest := skipn (taken s) s in
         let e := match rest with [] => true | _ => false end in
         match parse_all (collect s) with
         | None => (Some (SFin (mkF false 0 (-149))), {| left := rest; atend := e; bad := true |})
         | Some (neg, D, k) =>
             match dec_single neg D k with
             | SFin f => (Some (SFin f), {| left := rest; atend := e; bad := false |})
             | _ => (Some (SFin (mkF neg (2 ^ 24 - 1) 104)), {| left := rest; atend := e; bad := true |})
             end
         end
  end.
(** vector.h:188-194: reading a variable that was never written is undefined *)
Fixpoint get_flts (n : nat) (i : istr) : list (option sfl) * istr :=
  match n with O => ([], i) | S n => let (v, i) := get_flt i in let (vs, i) := get_flts n i in (v :: vs, i) end.
Fixpoint fsettled (l : list (option sfl)) : outcome (list sfl) :=
  match l with [] => Ok [] | None :: _ => UB | Some v :: l => let* l := fsettled l in Ok (v :: l) end.
Definition fread (n : nat) (i : istr) : outcome (list sfl * istr) :=
  let (vs, i) := get_flts n i in let* a := fsettled vs in Ok (a, i).
