(** RFC 3986 section 2 / application/x-www-form-urlencoded, as a grammar. *)
From Verif Require Import Common.
Local Open Scope Z_scope.

Definition unreserved (c : Z) : Prop :=
  In c (str "ABCDEFGHIJKLMNOPQRSTUVWXYZabcdefghijklmnopqrstuvwxyz0123456789-._~").

(** Value of a hexadecimal digit character (upper or lower case). *)
Inductive hexdigit : Z -> Z -> Prop :=
| hex_num d : 0 <= d <= 9 -> hexdigit (48 + d) d
| hex_up d : 10 <= d <= 15 -> hexdigit (65 + (d - 10)) d
| hex_low d : 10 <= d <= 15 -> hexdigit (97 + (d - 10)) d.

(** [percent_form s e]: [e] is a form-encoding of the byte string [s] in which
    every byte stands for itself, a '+' stands for a space, or a %XX triplet
    stands for the byte XX. *)
Inductive percent_form : list Z -> list Z -> Prop :=
| pf_nil : percent_form [] []
| pf_char c s e : unreserved c -> percent_form s e -> percent_form (c :: s) (c :: e)
| pf_plus s e : percent_form s e -> percent_form (32 :: s) (43 :: e)
| pf_hex h l s e ch cl : hexdigit ch h -> hexdigit cl l ->
    percent_form s e -> percent_form (16 * h + l :: s) (37 :: ch :: cl :: e).

(** Upper-case hexadecimal digits only. *)
Definition uphex (c : Z) : Prop := (48 <= c <= 57) \/ (65 <= c <= 70).

(** Canonical shape: which character may appear. *)
Inductive canonical : list Z -> Prop :=
| cf_nil : canonical []
| cf_char c e : unreserved c -> canonical e -> canonical (c :: e)
| cf_plus e : canonical e -> canonical (43 :: e)
| cf_hex a b e : uphex a -> uphex b -> canonical e -> canonical (37 :: a :: b :: e).

(** What any text at all stands for: a character that is no digit counts as the digit 0, and a '%' that two characters do not follow as itself. *)
Definition digit_value (c v : Z) : Prop := hexdigit c v \/ v = 0 /\ forall w, ~ hexdigit c w.
Inductive decodes : list Z -> list Z -> Prop :=
| dec_nil : decodes [] []
| dec_hex a b h l e s : digit_value a h -> digit_value b l -> decodes e s -> decodes (37 :: a :: b :: e) (16 * h + l :: s)
| dec_plus e s : decodes e s -> decodes (43 :: e) (32 :: s)
| dec_char c e s : c <> 43 -> (c = 37 -> (length e < 2)%nat) -> decodes e s -> decodes (c :: e) (c :: s).
