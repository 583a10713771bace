(** Model of [uri_encode] / [uri_decode], src/network/uri.cpp:41-92. *)
From Verif Require Import Common.
Local Open Scope Z_scope.

(** [isalnum] in the "C" locale.  uri.cpp:60 passes a plain [char]; for bytes
    >= 128 that is a negative argument, which ISO C leaves undefined and glibc
    maps to "not alphanumeric"; the model follows glibc. *)
Definition isalnum (c : Z) : bool :=
  ((48 <=? c) && (c <=? 57)) || ((65 <=? c) && (c <=? 90)) || ((97 <=? c) && (c <=? 122)).

(** uri.cpp:41-47 *)
Definition tohex (c : Z) : Z :=
  if (48 <=? c) && (c <=? 57) then c - 48
  else if (65 <=? c) && (c <=? 70) then c - 65 + 10
  else if (97 <=? c) && (c <=? 102) then c - 97 + 10
  else 0.

(** uri.cpp:49-54 *)
Definition hexchar (h : Z) : Z :=
  if h <? 10 then 48 + h else if h <? 16 then 65 + h - 10 else 0.

(** uri.cpp:60-73, one iteration of the loop body. *)
Definition uri_encode1 (c : Z) : list Z :=
  if isalnum c || (c =? 45) || (c =? 95) || (c =? 46) || (c =? 126) then [c]
  else if c =? 32 then [43]
  else [37; hexchar (c / 16); hexchar (c mod 16)].

(** uri.cpp:56-76 *)
Fixpoint uri_encode (s : list Z) : list Z :=
  match s with
  | [] => []
  | c :: r => uri_encode1 c ++ uri_encode r
  end.

(** uri.cpp:78-92.  [i+2 < s.length()] is "at least two more characters". *)
Fixpoint uri_decode (s : list Z) : list Z :=
  match s with
  | [] => []
  | c :: r =>
      match r with
      | a :: b :: r' =>
          if c =? 37 then (tohex a * 16 + tohex b) mod 256 :: uri_decode r'
          else (if c =? 43 then 32 else c) :: uri_decode r
      | _ => (if c =? 43 then 32 else c) :: uri_decode r
      end
  end.
