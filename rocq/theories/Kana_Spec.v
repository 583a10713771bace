(** Voiced and semi-voiced katakana (Unicode canonical composition with U+3099
    and U+309A, katakana block). *)
From Verif Require Import Common.
Local Open Scope Z_scope.

Definition voiced : list (Z * Z) := [
  (0x30a6,0x30f4); (0x30ab,0x30ac); (0x30ad,0x30ae); (0x30af,0x30b0); (0x30b1,0x30b2); (0x30b3,0x30b4);
  (0x30b5,0x30b6); (0x30b7,0x30b8); (0x30b9,0x30ba); (0x30bb,0x30bc); (0x30bd,0x30be);
  (0x30bf,0x30c0); (0x30c1,0x30c2); (0x30c4,0x30c5); (0x30c6,0x30c7); (0x30c8,0x30c9);
  (0x30cf,0x30d0); (0x30d2,0x30d3); (0x30d5,0x30d6); (0x30d8,0x30d9); (0x30db,0x30dc); (0x30f2,0x30fa)].
Definition semivoiced : list (Z * Z) :=
  [(0x30cf,0x30d1); (0x30d2,0x30d4); (0x30d5,0x30d7); (0x30d8,0x30da); (0x30db,0x30dd)].

(** What a combining mark does to the last character [c] of a text. *)
Definition compose (t : list (Z * Z)) (mark c : Z) : list Z :=
  match find (fun p => fst p =? c) t with
  | Some (_, v) => [v]
  | None => [c; mark]
  end.

(** The compatibility decompositions of U+FF61 to U+FF9D in Unicode, in this order: half-width marks, small letters, and then the
    katakana in the order of the syllabary. *)
Definition wide : list Z := [
  0x3002; 0x300c; 0x300d; 0x3001; 0x30fb; 0x30f2; 0x30a1; 0x30a3; 0x30a5; 0x30a7; 0x30a9; 0x30e3; 0x30e5; 0x30e7; 0x30c3;
  0x30fc; 0x30a2; 0x30a4; 0x30a6; 0x30a8; 0x30aa; 0x30ab; 0x30ad; 0x30af; 0x30b1; 0x30b3; 0x30b5; 0x30b7; 0x30b9; 0x30bb;
  0x30bd; 0x30bf; 0x30c1; 0x30c4; 0x30c6; 0x30c8; 0x30ca; 0x30cb; 0x30cc; 0x30cd; 0x30ce; 0x30cf; 0x30d2; 0x30d5; 0x30d8;
  0x30db; 0x30de; 0x30df; 0x30e0; 0x30e1; 0x30e2; 0x30e4; 0x30e6; 0x30e8; 0x30e9; 0x30ea; 0x30eb; 0x30ec; 0x30ed; 0x30ef;
  0x30f3].
