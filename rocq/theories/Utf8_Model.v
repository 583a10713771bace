(** Model of the UTF-8 functions of src/data/string/ustring.{h,cpp}. *)
From Verif Require Import Common.
Local Open Scope Z_scope.

(** Result of [chars_to_uchar_impl] (ustring.h:125-201) before the fallback is
    consulted: a code point, or a call of the fallback with the consumed bytes
    [std::string(begin, in)].  Both carry the input that is left. *)
Inductive decoded : Type :=
| Val (c : Z) (rest : list Z)
| Bad (consumed rest : list Z).

(** ustring.h:148-150 *)
Definition head_masks : list Z := [224; 240; 248; 252; 254].   (* E0 F0 F8 FC FE *)
Definition tail_masks : list Z := [31; 15; 7; 3; 1].
Definition flag_bits : list Z := [192; 224; 240; 248; 252].    (* C0 E0 F0 F8 FC *)

(** ustring.h:155-160: the mask loop; returns (ret, nbytes), (0, 0) if no
    entry matches. *)
Fixpoint lead_loop (c : Z) (hs ts fs : list Z) (i : Z) : Z * Z :=
  match hs, ts, fs with
  | h :: hs', t :: ts', f :: fs' =>
      if Z.land c h =? f then (Z.land c t, i + 2) else lead_loop c hs' ts' fs' (i + 1)
  | _, _, _ => (0, 0)
  end.

(** ustring.h:162-173: reading [n] continuation bytes.  [inl (ret, rest)] when
    all were there, [inr rest] when the fallback is called.  The 32-bit shift
    [ret <<= 6] is exact here: at most 6 bytes, 31 bits. *)
Fixpoint cont_loop (n : nat) (ret : Z) (s : list Z) : (Z * list Z) + list Z :=
  match n with
  | O => inl (ret, s)
  | S n' =>
      match s with
      | [] => inr []
      | b :: r =>
          if negb (Z.land b 192 =? 128) then inr s
          else cont_loop n' (Z.lor (Z.shiftl ret 6 mod 2 ^ 32) (Z.land b 63)) r
      end
  end.

(** ustring.h:180-181 (indexed by nbytes 2..4) *)
Definition mins (n : Z) : Z := if n =? 2 then 128 else if n =? 3 then 2048 else if n =? 4 then 65536 else 0.
Definition maxs (n : Z) : Z := if n =? 2 then 2047 else if n =? 3 then 65535 else if n =? 4 then 2097151 else 0.

(** [std::string(begin, in)] for string iterators: the bytes of [s] before the
    suffix [rest]. *)
Definition taken (s rest : list Z) : list Z := firstn (length s - length rest) s.

(** ustring.h:125-201 *)
Definition chars_to_uchar_impl (s : list Z) : decoded :=
  match s with
  | [] => Bad [] []
  | c :: r =>
      if Z.land c 128 =? 0 then Val c r
      else if (c <? 192) || (253 <? c) then Bad [c] r
      else
        let '(ret, nbytes) := lead_loop c head_masks tail_masks flag_bits 0 in
        match cont_loop (Z.to_nat (nbytes - 1)) ret r with
        | inr rest => Bad (taken s rest) rest
        | inl (ret, rest) =>
            if 5 <=? nbytes then Bad (taken s rest) rest
            else if (ret <? mins nbytes) || (maxs nbytes <? ret) then Bad (taken s rest) rest
            else if 1114111 <? ret then Bad (taken s rest) rest
            else if (55296 <=? ret) && (ret <=? 57343) then Bad (taken s rest) rest
            else Val ret rest
        end
  end.

(** ustring.h:104-122 [replacement_fallback]. *)
Definition replacement_fallback (repl : Z) (consumed : list Z) : Z :=
  match consumed with [] => 0 | _ => repl end.

(** ustring.h:225-230: [chars_to_uchar(in, end)] on string iterators. *)
Definition chars_to_uchar (s : list Z) : Z * list Z :=
  match chars_to_uchar_impl s with
  | Val c r => (c, r)
  | Bad b r => (replacement_fallback 65533 b, r)
  end.

(** ustring.h:90-102 with 232-236: the throwing variant. *)
Definition chars_to_uchar_throw (s : list Z) : outcome (Z * list Z) :=
  match chars_to_uchar_impl s with
  | Val c r => Ok (c, r)
  | Bad [] r => Ok (0, r)
  | Bad _ _ => Throw
  end.

(** ustring.h:239-267.  [b] is a [char]: [|] is taken on the low eight bits.
    Nothing is written for c > 0x10FFFF. *)
Definition uchar_to_chars (c : Z) : list Z :=
  if c <=? 127 then [c]
  else if (128 <=? c) && (c <=? 2047) then
    [Z.lor (Z.shiftr c 6) 192; Z.lor (Z.land c 63) 128]
  else if (2048 <=? c) && (c <=? 65535) then
    [Z.lor (Z.shiftr c 12) 224; Z.lor (Z.land (Z.shiftr c 6) 63) 128; Z.lor (Z.land c 63) 128]
  else if (65536 <=? c) && (c <=? 1114111) then
    [Z.lor (Z.shiftr c 18) 240; Z.lor (Z.land (Z.shiftr c 12) 63) 128;
     Z.lor (Z.land (Z.shiftr c 6) 63) 128; Z.lor (Z.land c 63) 128]
  else [].

(** ustring.cpp:94-107 [string_to_ustring]; both overloads run the same loop. *)
Fixpoint s2u_loop (fuel : nat) (s : list Z) : outcome (list Z) :=
  match s with
  | [] => Ok []
  | _ => match fuel with
         | O => Fuel
         | S f => let '(c, r) := chars_to_uchar s in omap (cons c) (s2u_loop f r)
         end
  end.
Definition string_to_ustring (s : list Z) : outcome (list Z) := s2u_loop (length s) s.

(** ustring.cpp:109-115 *)
Definition ustring_to_string (u : list Z) : list Z := flat_map uchar_to_chars u.

(** ustring.cpp:117-122 *)
Definition uchar_to_string (c : Z) : list Z := uchar_to_chars c.

(** ustring.cpp:131-134 *)
Definition string_to_uchar (s : list Z) : Z := fst (chars_to_uchar s).

(** ustring.cpp:185-195 *)
Fixpoint check_loop (fuel : nat) (s : list Z) : outcome bool :=
  match s with
  | [] => Ok true
  | _ => match fuel with
         | O => Fuel
         | S f => match chars_to_uchar_throw s with
                  | Ok (_, r) => check_loop f r
                  | Throw => Ok false
                  | UB => UB | Fuel => Fuel
                  end
         end
  end.
Definition check_utf8 (s : list Z) : outcome bool := check_loop (length s) s.

(** ** sanitize_utf8 (ustring.cpp:156-253), with explicit indices *)

(** [s[p]] on a const std::string: position [size()] reads '\0', beyond is
    undefined behaviour. *)
Definition rd (s : list Z) (p : Z) : outcome Z :=
  if (0 <=? p) && (p <? Z.of_nat (length s)) then Ok (nth (Z.to_nat p) s 0)
  else if p =? Z.of_nat (length s) then Ok 0
  else UB.

(** ustring.cpp:174-182 *)
Definition utf8_skip (s : list Z) (p : Z) : outcome Z :=
  let* c := rd s p in
  Ok (if c =? 0 then -1
      else if Z.land c 128 =? 0 then 0
      else if Z.land c 192 =? 128 then -1
      else if Z.land c 224 =? 192 then 1
      else if Z.land c 240 =? 224 then 2
      else if Z.land c 248 =? 240 then 3
      else -1).

(** ustring.cpp:156-172; [b0 b1 b2 b3] are the bytes of [buf]. *)
Definition utf8_invalid2 (b0 b1 : Z) : bool :=
  (b0 <? 194) || (Z.land b1 128 =? 0) || (Z.land b1 192 =? 192).
Definition utf8_invalid3 (b0 b1 b2 : Z) : bool :=
  (Z.land b2 128 =? 0)
  || (if (b0 =? 239) && (b1 =? 191) then 189 <? b2 else Z.land b2 192 =? 192)
  || (if b0 =? 224 then (b1 <? 160) || (Z.land b1 192 =? 192)
      else (Z.land b1 128 =? 0) || (if b0 =? 237 then 159 <? b1 else Z.land b1 192 =? 192)).
Definition utf8_invalid4 (b0 b1 b2 b3 : Z) : bool :=
  (Z.land b3 128 =? 0) || (Z.land b3 192 =? 192) || (Z.land b2 128 =? 0) || (Z.land b2 192 =? 192)
  || (if b0 =? 240 then (b1 <? 144) || (Z.land b1 192 =? 192)
      else (Z.land b1 128 =? 0) || (if b0 =? 244 then 143 <? b1 else Z.land b1 192 =? 192)).

Definition btw (a x b : Z) : bool := (a <=? x) && (x <=? b).

(** ustring.cpp:224-249: is the collected sequence kept?  [buf] holds exactly
    the [cccc] bytes of the sequence. *)
Definition keep (buf : list Z) : bool :=
  match buf with
  | [b0] => negb (b0 <? 32)
  | [b0; b1] => negb (utf8_invalid2 b0 b1) && (btw 194 b0 223 && btw 128 b1 191)
  | [b0; b1; b2] =>
      negb (utf8_invalid3 b0 b1 b2) &&
      ((b0 =? 224) && btw 160 b1 191 && btw 128 b2 191
       || btw 225 b0 236 && btw 128 b1 191 && btw 128 b2 191
       || (b0 =? 237) && btw 128 b1 159 && btw 128 b2 191
       || btw 238 b0 239 && btw 128 b1 191 && btw 128 b2 191)
  | [b0; b1; b2; b3] =>
      negb (utf8_invalid4 b0 b1 b2 b3) &&
      ((b0 =? 240) && btw 144 b1 191 && btw 128 b2 191 && btw 128 b3 191
       || btw 241 b0 243 && btw 128 b1 191 && btw 128 b2 191 && btw 128 b3 191
       || (b0 =? 244) && btw 128 b1 143 && btw 128 b2 191 && btw 128 b3 191)
  | _ => false
  end.

(** ustring.cpp:210-212: the scan over continuation bytes, from [p]. *)
Fixpoint scan (fuel : nat) (s : list Z) (lim p : Z) : outcome Z :=
  if (p <=? lim) && (p <? Z.of_nat (length s)) then
    match fuel with
    | O => Fuel
    | S f => let* c := rd s p in
             if negb (Z.land c 192 =? 128) then Ok p else scan f s lim (p + 1)
    end
  else Ok p.

(** ustring.cpp:216-220: copying [s[a..b)]. *)
Fixpoint copy (fuel : nat) (s : list Z) (a b : Z) : outcome (list Z) :=
  if a <? b then
    match fuel with
    | O => Fuel
    | S f => let* c := rd s a in omap (cons c) (copy f s (a + 1) b)
    end
  else Ok [].

(** ustring.cpp:200-251: the main loop from position [p].  [buf] has ten
    elements and at most four are used. *)
Fixpoint san_loop (fuel : nat) (s : list Z) (p : Z) : outcome (list Z) :=
  if p <? Z.of_nat (length s) then
    match fuel with
    | O => Fuel
    | S f =>
        let* ccc := utf8_skip s p in
        if ccc <? 0 then san_loop f s (p + 1)
        else
          let* q := scan 4 s (ccc + p) (p + 1) in
          if q =? ccc + p + 1 then
            let* buf := copy 4 s p q in
            if keep buf then omap (app buf) (san_loop f s q) else san_loop f s q
          else san_loop f s q
    end
  else Ok [].
Definition sanitize_utf8 (s : list Z) : outcome (list Z) := san_loop (length s) s 0.
