(** Model of the character-width conversions of src/data/string/ustring.cpp. *)
From Verif Require Import Common.
Local Open Scope Z_scope.

(** ustring.cpp:53-58 *)
Definition hankaku_zenkaku_tbl : list Z := [
  0x0000;0x3002;0x300c;0x300d;0x3001;0x30fb;0x30f2;0x30a1;0x30a3;0x30a5;0x30a7;0x30a9;0x30e3;0x30e5;0x30e7;0x30c3;
  0x30fc;0x30a2;0x30a4;0x30a6;0x30a8;0x30aa;0x30ab;0x30ad;0x30af;0x30b1;0x30b3;0x30b5;0x30b7;0x30b9;0x30bb;0x30bd;
  0x30bf;0x30c1;0x30c4;0x30c6;0x30c8;0x30ca;0x30cb;0x30cc;0x30cd;0x30ce;0x30cf;0x30d2;0x30d5;0x30d8;0x30db;0x30de;
  0x30df;0x30e0;0x30e1;0x30e2;0x30e4;0x30e6;0x30e8;0x30e9;0x30ea;0x30eb;0x30ec;0x30ed;0x30ef;0x30f3;0x3099;0x309a].

(** ustring.cpp:60-73 *)
Definition take_dakuten_tbl : list Z := [
  0;0;0;0;0;0;1;0;0;0;0;1;0;1;0;1;
  0;1;0;1;0;1;0;1;0;1;0;1;0;1;0;1;
  0;1;0;0;1;0;1;0;1;0;0;0;0;0;0;1;
  0;0;1;0;0;1;0;0;1;0;0;1;0;0;0;0;
  0;0;0;0;0;0;0;0;0;0;0;0;0;0;0;0;
  0;0;1;0;0;0;0;0;0;0;0;0;0;0;0;0].

(** ustring.cpp:75-88 *)
Definition take_handakuten_tbl : list Z := [
  0;0;0;0;0;0;0;0;0;0;0;0;0;1;0;1;
  0;1;0;1;0;1;0;1;0;1;0;1;0;1;0;1;
  0;1;0;0;1;0;1;0;1;0;0;0;0;0;0;1;
  0;0;1;0;0;1;0;0;1;0;0;1;0;0;0;0;
  0;0;0;0;0;0;0;0;0;0;0;0;0;0;0;0;
  0;0;0;0;0;0;0;0;0;0;0;0;0;0;0;0].

(** ustring.cpp:136-153 *)
Definition is_basic_latin (uc : Z) : bool := uc <=? 0x7f.
Definition is_katakana (uc : Z) : bool := (0x30a0 <=? uc) && (uc <=? 0x30ff).
Definition is_hankaku (uc : Z) : bool := (0xff60 <=? uc) && (uc <=? 0xff9f).

(** Table access; [None] would be an access outside the array. *)
Definition tbl (t : list Z) (i : Z) : option Z := if i <? 0 then None else nth_error t (Z.to_nat i).

(** ustring.cpp:257-290: one iteration.  [res] is the result so far, LAST
    element first; an empty [res] plays the role of c = 0xFFFFFFFF (a result
    that really ends in 0xFFFFFFFF is treated like an empty one by the code;
    that code point does not exist). *)
Definition h2z_step (res : list Z) (x : Z) : outcome (list Z) :=
  let push v := Ok (v :: res) in
  if is_hankaku x then
    if x =? 0xff9e then
      match res with
      | c :: r =>
          if negb (c =? 0xFFFFFFFF) && is_katakana c then
            match tbl take_dakuten_tbl (c - 0x30a0) with
            | None => UB
            | Some t =>
                if negb (t =? 0) then
                  Ok ((if c =? 0x30a6 then 0x30f4 else if c =? 0x30f2 then 0x30fa else c + 1) :: r)
                else push 0x3099
            end
          else push 0x3099
      | [] => push 0x3099
      end
    else if x =? 0xff9f then
      match res with
      | c :: r =>
          if negb (c =? 0xFFFFFFFF) && is_katakana c then
            match tbl take_handakuten_tbl (c - 0x30a0) with
            | None => UB
            | Some t => if negb (t =? 0) then Ok (c + 2 :: r) else push 0x309a
            end
          else push 0x309a
      | [] => push 0x309a
      end
    else match tbl hankaku_zenkaku_tbl (x - 0xff60) with None => UB | Some v => push v end
  else if x =? 0x2d then
    match res with
    | c :: _ => if negb (c =? 0xFFFFFFFF) && negb (is_basic_latin c) then push 0x30fc else push x
    | [] => push x
    end
  else push x.

(** ustring.cpp:255-292 *)
Fixpoint h2z_loop (res : list Z) (u : list Z) : outcome (list Z) :=
  match u with
  | [] => Ok (rev res)
  | x :: r => let* res' := h2z_step res x in h2z_loop res' r
  end.
Definition hankaku_to_zenkaku (u : list Z) : outcome (list Z) := h2z_loop [] u.

(** ustring.cpp:295-332 *)
Definition z2b1 (uc : Z) : Z :=
  if (0xff01 <=? uc) && (uc <=? 0xff5e) then uc - 0xff00 + 0x20
  else if uc =? 0x3000 then 0x20 else uc.
Definition b2z1 (uc : Z) : Z :=
  if (0x21 <=? uc) && (uc <=? 0x7e) then uc - 0x20 + 0xff00
  else if uc =? 0x20 then 0x3000 else uc.
Definition zenkaku_latin_to_basic_latin (u : list Z) : list Z := map z2b1 u.
Definition basic_latin_to_zenkaku_latin (u : list Z) : list Z := map b2z1 u.
