(** Model of ratio<T>: src/math/ratio.h:45-155.  [fits] says which values T has; an operation whose result T does not have, and a
    division by zero, is undefined. *)
From Verif Require Import Common NumText_Model.
Local Open Scope Z_scope.

Section T.
Context (fits : Z -> bool).
Definition chk (z : Z) : outcome Z := if fits z then Ok z else UB.
Definition mul (a b : Z) : outcome Z := chk (a * b).
Definition add (a b : Z) : outcome Z := chk (a + b).
Definition sub (a b : Z) : outcome Z := chk (a - b).
Definition div (a b : Z) : outcome Z := if b =? 0 then UB else chk (Z.quot a b).
Definition rem (a b : Z) : outcome Z := if b =? 0 then UB else if fits (Z.quot a b) then chk (Z.rem a b) else UB.

(** ratio.h:63-68; a and b shrink *)
Fixpoint gcd_loop (f : nat) (a b : Z) : outcome Z :=
  match f with
  | O => Fuel
  | S f' =>
      let* a := rem a b in
      if a =? 0 then Ok b else
      let* b := rem b a in
      if b =? 0 then Ok a else gcd_loop f' a b
  end.
(** ratio.h:61-69 *)
Definition gcd (a b : Z) : outcome Z :=
  let* a := chk (Z.abs a) in
  let* b := chk (Z.abs b) in
  gcd_loop (S (Z.to_nat b)) a b.

Definition ratio : Type := Z * Z.
(** ratio.h:73-78 *)
Definition reduce (r : ratio) : outcome ratio :=
  let* g := gcd (fst r) (snd r) in
  let* g := mul g (if 0 <? snd r then 1 else -1) in
  let* n := div (fst r) g in
  let* d := div (snd r) g in Ok (n, d).
(** ratio.h:47-54 *)
Definition of_int (a : Z) : ratio := (a, 1).
Definition make (n d : Z) : outcome ratio :=
  let* (n, d) := (if d <? 0 then let* d := mul d (-1) in let* n := mul n (-1) in Ok (n, d) else Ok (n, d)) in reduce (n, d).
(** ratio.h:91-97 *)
Definition plus (a b : ratio) : outcome ratio :=
  let* g := gcd (snd a) (snd b) in
  let* bg := div (snd b) g in
  let* x := mul (fst a) bg in
  let* ag := div (snd a) g in
  let* y := mul (fst b) ag in
  let* n := add x y in
  let* bg := div (snd b) g in
  let* d := mul (snd a) bg in reduce (n, d).
(** ratio.h:99-105 *)
Definition minus (a b : ratio) : outcome ratio :=
  let* g := gcd (snd a) (snd b) in
  let* bg := div (snd b) g in
  let* x := mul (fst a) bg in
  let* ag := div (snd a) g in
  let* y := mul (fst b) ag in
  let* n := sub x y in
  let* bg := div (snd b) g in
  let* d := mul (snd a) bg in reduce (n, d).
(** ratio.h:107-114 *)
Definition times (a b : ratio) : outcome ratio :=
  let* g1 := gcd (fst a) (snd b) in
  let* g2 := gcd (fst b) (snd a) in
  let* x := div (fst a) g1 in
  let* y := div (fst b) g2 in
  let* n := mul x y in
  let* z := div (snd a) g2 in
  let* w := div (snd b) g1 in
  let* d := mul z w in Ok (n, d).
(** ratio.h:116-126 *)
Definition over (a b : ratio) : outcome ratio :=
  let* g1 := gcd (fst a) (fst b) in
  let* g2 := gcd (snd a) (snd b) in
  let* x := div (fst a) g1 in
  let* y := div (snd b) g2 in
  let* n := mul x y in
  let* z := div (snd a) g2 in
  let* w := div (fst b) g1 in
  let* d := mul z w in
  if d <? 0 then
    let* n := mul n (-1) in
    let* d := mul d (-1) in Ok (n, d)
  else Ok (n, d).
(** ratio.h:145-148 *)
Definition equal (a b : ratio) : bool := (fst a =? fst b) && (snd a =? snd b).
End T.
(** ratio.h:150-155, T a signed or unsigned integral type wider than char and the stream in its initial state *)
Definition print (r : ratio) : list Z := show_int (fst r) ++ str "/" ++ show_int (snd r).
