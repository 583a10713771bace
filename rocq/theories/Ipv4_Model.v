(** Model of src/network/ipv4.h over glibc's sscanf. *)
From Verif Require Import Common NumText_Model Cast_Model.
Local Open Scope Z_scope.

(** c_str: up to the first NUL *)
Fixpoint c_str (s : list Z) : list Z := match s with [] => [] | c :: r => if c =? 0 then [] else c :: c_str r end.
(** %d: blanks, a sign and digits, converted with strtol (which saturates), then cut to an int *)
Definition sat64 (x : Z) : Z := Z.min (2 ^ 63 - 1) (Z.max (- 2 ^ 63) x).
Definition wrap32 (x : Z) : Z := (x + 2 ^ 31) mod 2 ^ 32 - 2 ^ 31.
Definition scan_d (s : list Z) : option (Z * list Z) :=
  match scan s with Some (neg, m, rest) => Some (wrap32 (sat64 (if neg then - m else m)), rest) | None => None end.
Definition point (s : list Z) : option (list Z) := match s with c :: r => if c =? 46 then Some r else None | [] => None end.
(** sscanf(s, "%d.%d.%d.%d", ...): the conversions made; a failed match stops it *)
Fixpoint scan_ds (k : nat) (s : list Z) : list Z :=
  match k with
  | O => []
  | S k => match scan_d s with
           | None => []
           | Some (v, rest) => v :: match point rest with Some r => scan_ds k r | None => [] end
           end
  end.
(** ipv4.cpp:42 *)
Definition none : Z * Z * Z * Z := (255, 255, 255, 255).
(** ipv4.h:58-71 *)
Definition bad (v : Z) : bool := (v <? 0) || (255 <? v).
Definition parse (s : list Z) : Z * Z * Z * Z :=
  match scan_ds 4 (c_str s) with
  | [b0; b1; b2; b3] => if bad b0 || bad b1 || bad b2 || bad b3 then none else (b0, b1, b2, b3)
  | _ => none
  end.
(** ipv4.h:83-87: sprintf into 16 bytes; UB if the text and its NUL do not fit *)
Definition to_string (a : Z * Z * Z * Z) : outcome (list Z) :=
  let '(w, x, y, z) := a in
  let t := show_int w ++ [46] ++ show_int x ++ [46] ++ show_int y ++ [46] ++ show_int z in
  if Z.of_nat (length t) + 1 <=? 16 then Ok t else UB.
(** ipv4.h:73-81 *)
Definition eq (a b : Z * Z * Z * Z) : bool :=
  let '(w, x, y, z) := a in let '(w', x', y', z') := b in (w =? w') && (x =? x') && (y =? y') && (z =? z').
Fixpoint lex (a b : list Z) : bool :=
  match a, b with
  | x :: a, y :: b => if x <? y then true else if y <? x then false else lex a b
  | [], _ :: _ => true
  | _, [] => false
  end.
Definition lt (a b : Z * Z * Z * Z) : bool :=
  let '(w, x, y, z) := a in let '(w', x', y', z') := b in lex [w; x; y; z] [w'; x'; y'; z'].
