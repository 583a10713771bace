(** Model of src/math/vector.h, generated code for the dimensions 2, 3, 4 (components by name and by array) and 5 to 10 (by array).  The
    copies differ only in the number and the names of the components (checked mechanically, but for what is said below), so a vector is the
    list of its components.  The lines cited are those of component_by_name::vector2. *)
From Verif Require Import Common NumText_Model Cast_Model.
Local Open Scope nat_scope.

Section vector.
Context {T : Type} (tO : T) (tadd tmul tsub tdiv : T -> T -> T) (topp tsqrt : T -> T) (teqb tltb : T -> T -> bool).
Fixpoint both (f : T -> T -> T) (a b : list T) : list T := match a, b with x :: a, y :: b => f x y :: both f a b | _, _ => [] end.
(** vector.h:50, dimension n *)
Definition vzero (n : nat) : list T := repeat tO n.
(** vector.h:54: the n elements v points to *)
Definition of_array (n : nat) (v : list T) : outcome (list T) := if Nat.leb n (length v) then Ok (firstn n v) else UB.
(** vector.h:58-60: the array v afterwards *)
Definition to_array (a v : list T) : outcome (list T) := if Nat.leb (length a) (length v) then Ok (a ++ skipn (length a) v) else UB.
(** vector.h:63-69 is special to vector2 by name: an assertion, and the second component for every other index if assertions are off.
    abort is Throw. *)
Definition at_name2 (ndebug : bool) (a : list T) (i : Z) : outcome T :=
  if negb ndebug && negb ((0 <=? i)%Z && (i <? 2)%Z) then Throw else
  match nth_error a (if (i =? 0)%Z then 0 else 1) with Some x => Ok x | None => UB end.
(** vector.h:231-236 and all others: a switch without default in a function that returns a reference *)
Definition at_switch (a : list T) (i : Z) : outcome T :=
  if (i <? 0)%Z then UB else match nth_error a (Z.to_nat i) with Some x => Ok x | None => UB end.
(** vector.h:73-76, 79-82, 85-88, 91-98, 101-104 *)
Definition vadd (a b : list T) : list T := both tadd a b.
Definition vsub (a b : list T) : list T := both tsub a b.
Definition vneg (a : list T) : list T := map topp a.
Definition vscale (m : T) (a : list T) : list T := map (fun x => tmul m x) a.
Definition vdiv (a : list T) (m : T) : list T := map (fun x => tdiv x m) a.
(** vector.h:107-110 *)
Definition inner (a b : list T) : T := match both tmul a b with p :: ps => fold_left tadd ps p | [] => tO end.
(** vector.h:113-116 and 442-445.  The copies in component_by_array name members that do not exist and cannot be used *)
Definition outer2 (a b : list T) : T := match a, b with [ax; ay], [bx; by_] => tsub (tmul ax by_) (tmul ay bx) | _, _ => tO end.
Definition outer3 (a b : list T) : list T :=
  match a, b with
  | [ax; ay; az], [bx; by_; bz] => [tsub (tmul ay bz) (tmul az by_); tsub (tmul az bx) (tmul ax bz); tsub (tmul ax by_) (tmul ay bx)]
  | _, _ => []
  end.
(** vector.h:142-145 *)
Fixpoint veqb (a b : list T) : bool := match a, b with x :: a, y :: b => teqb x y && veqb a b | _, _ => true end.
(** vector.h:148-152 *)
Fixpoint vltb (a b : list T) : bool :=
  match a, b with
  | x :: a', y :: b' => match a' with [] => tltb x y | _ => if negb (teqb x y) then tltb x y else vltb a' b' end
  | _, _ => false
  end.
(** vector.h:155-158, 161-164 *)
Definition norm (a : list T) : T := inner a a.
Definition vabs (a : list T) : T := tsqrt (norm a).
(** vector.h:168-171, 181-184 *)
Definition normalize (a : list T) (b : T) : list T := vscale (tdiv b (vabs a)) a.
(** vector.h:174-177 *)
Definition project (a b : list T) : T := tdiv (inner a b) (inner b b).
End vector.

(** vector.h:197-200 for integral components of type t *)
Fixpoint vwrite (t : ty) (a : list Z) : list Z := match a with [] => [] | x :: a' => insert t x ++ match a' with [] => [] | _ => 32%Z :: vwrite t a' end end.
(** a stream: the text left and whether eofbit or failbit is set *)
Record istr := { left : list Z; atend : bool; bad : bool }.
(** operator>> for a number: what is stored (None if the variable is not touched, as when there is nothing left to read) *)
Definition get_num (t : ty) (i : istr) : option Z * istr :=
  if atend i || bad i then (None, {| left := left i; atend := atend i; bad := true |}) else
  match skip_ws (left i) with
  | [] => (None, {| left := []; atend := true; bad := true |})
  | s => match scan s with
         | None => (Some 0%Z, {| left := []; atend := false; bad := true |}) (* left: some suffix that nobody can read *)
         | Some (neg, m, rest) =>
             let e := match rest with [] => true | _ => false end in
             match extract t s with
             | Some v => (Some v, {| left := rest; atend := e; bad := false |})
             | None => (Some (if neg && (lo t <? 0)%Z then lo t else hi t), {| left := rest; atend := e; bad := true |})
             end
         end
  end.
(** vector.h:188-194: reading an int that was never written is undefined *)
Fixpoint get_nums (t : ty) (n : nat) (i : istr) : list (option Z) * istr :=
  match n with O => ([], i) | S n => let (v, i) := get_num t i in let (vs, i) := get_nums t n i in (v :: vs, i) end.
Fixpoint settled (l : list (option Z)) : outcome (list Z) :=
  match l with [] => Ok [] | None :: _ => UB | Some v :: l => let* l := settled l in Ok (v :: l) end.
Definition vread (t : ty) (n : nat) (i : istr) : outcome (list Z * istr) :=
  let (vs, i) := get_nums t n i in let* a := settled vs in Ok (a, i).
