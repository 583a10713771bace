(** Model of src/data/encoding/base64.cpp. *)
From Verif Require Import Common.
Local Open Scope Z_scope.

(** base64.cpp:45 the alphabet string [tochar]. *)
Definition tochar_tbl : list Z :=
  str "ABCDEFGHIJKLMNOPQRSTUVWXYZabcdefghijklmnopqrstuvwxyz0123456789+/".

(** [tochar[i]]; an index outside the table would be undefined behaviour.  The
    model returns -1 (no byte) there and the proofs show it never happens. *)
Definition tochar (i : Z) : Z := nth (Z.to_nat i) tochar_tbl (-1).

(** base64.cpp:47-56 [toint]; [None] is the thrown invalid_argument.  Character
    comparisons are on plain [char]; bytes >= 128 are negative there and fall
    through to the throw, exactly as they do on the unsigned value. *)
Definition toint (c : Z) : option Z :=
  if (65 <=? c) && (c <=? 90) then Some (c - 65)
  else if (97 <=? c) && (c <=? 122) then Some (c - 97 + 26)
  else if (48 <=? c) && (c <=? 57) then Some (c - 48 + 52)
  else if c =? 43 then Some 62
  else if c =? 47 then Some 63
  else if c =? 61 then Some (-1)
  else None.

(** base64.cpp:59-98 [base64_encode].  The index loop over [srclen/3] blocks
    followed by the [remain] cases is structural recursion by three. *)
Fixpoint base64_encode (s : list Z) : list Z :=
  match s with
  | a :: b :: c :: rest =>                                     (* lines 67-75 *)
      let val := Z.lor (Z.lor (Z.shiftl a 16) (Z.shiftl b 8)) c in
      tochar (Z.shiftr val 18) ::
      tochar (Z.land (Z.shiftr val 12) 63) ::
      tochar (Z.land (Z.shiftr val 6) 63) ::
      tochar (Z.land val 63) :: base64_encode rest
  | [a; b] =>                                                   (* remain == 2 *)
      let val := Z.lor (Z.shiftl a 16) (Z.shiftl b 8) in
      [tochar (Z.shiftr val 18); tochar (Z.land (Z.shiftr val 12) 63);
       tochar (Z.land (Z.shiftr val 6) 63); 61]
  | [a] =>                                                      (* remain == 1 *)
      let val := Z.lor (Z.shiftl a 16) 0 in
      [tochar (Z.shiftr val 18); tochar (Z.land (Z.shiftr val 12) 63); 61; 61]
  | [] => []
  end.

(** base64.cpp:111-129 the block loop.  [push_back] of an int keeps the low
    eight bits ([mod 256]).  On padding the loop breaks and everything after it
    is ignored, as in the code. *)
Fixpoint decode_blocks (s : list Z) : outcome (list Z) :=
  match s with
  | c1 :: c2 :: c3 :: c4 :: rest =>
      match toint c1 with None => Throw | Some v1 =>
      match toint c2 with None => Throw | Some v2 =>
      if (v1 =? -1) || (v2 =? -1) then Throw else
      let o1 := (Z.lor (Z.shiftl v1 2) (Z.shiftr v2 4)) mod 256 in
      match toint c3 with None => Throw | Some v3 =>
      if v3 =? -1 then Ok [o1] else
      let o2 := Z.land (Z.lor (Z.shiftl v2 4) (Z.shiftr v3 2)) 255 in
      match toint c4 with None => Throw | Some v4 =>
      if v4 =? -1 then Ok [o1; o2] else
      let o3 := Z.land (Z.lor (Z.shiftl v3 6) v4) 255 in
      omap (fun r => o1 :: o2 :: o3 :: r) (decode_blocks rest)
      end end end end
  | [] => Ok []
  | _ => UB     (* would read past c_str(); excluded by the length check *)
  end.

(** base64.cpp:100-132 [base64_decode]. *)
Definition base64_decode (s : list Z) : outcome (list Z) :=
  if negb (Z.of_nat (length s) mod 4 =? 0) then Throw else decode_blocks s.
