(** UTF-8 as defined by RFC 3629: each scalar value has exactly one encoding. *)
From Verif Require Import Common.
Local Open Scope Z_scope.

(** Unicode scalar values: code points except surrogates. *)
Definition scalar (c : Z) : Prop := (0 <= c <= 0xD7FF) \/ (0xE000 <= c <= 0x10FFFF).

(** The encoding table of RFC 3629 section 3. *)
Inductive utf8_char : Z -> list Z -> Prop :=
| u1 c : 0 <= c <= 0x7F -> utf8_char c [c]
| u2 c : 0x80 <= c <= 0x7FF -> utf8_char c [0xC0 + c / 64; 0x80 + c mod 64]
| u3 c : 0x800 <= c <= 0xFFFF -> scalar c ->
    utf8_char c [0xE0 + c / 4096; 0x80 + (c / 64) mod 64; 0x80 + c mod 64]
| u4 c : 0x10000 <= c <= 0x10FFFF ->
    utf8_char c [0xF0 + c / 262144; 0x80 + (c / 4096) mod 64; 0x80 + (c / 64) mod 64; 0x80 + c mod 64].

(** [utf8 cs s]: [s] is the UTF-8 encoding of the code point sequence [cs]. *)
Inductive utf8 : list Z -> list Z -> Prop :=
| utf8_nil : utf8 [] []
| utf8_cons c cs e s : utf8_char c e -> utf8 cs s -> utf8 (c :: cs) (e ++ s).

Definition well_formed (s : list Z) : Prop := exists cs, utf8 cs s.

(** What sanitize_utf8 lets through: no C0 control characters and neither
    U+FFFE nor U+FFFF. *)
Definition clean_char (c : Z) : Prop := 32 <= c /\ c <> 0xFFFE /\ c <> 0xFFFF.
Definition clean (s : list Z) : Prop := exists cs, utf8 cs s /\ Forall clean_char cs.
