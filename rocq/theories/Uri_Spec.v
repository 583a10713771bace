(** URI references by RFC 3986: character classes, components, recomposition (section 5.3). *)
From Verif Require Import Common.
Local Open Scope Z_scope.

Definition ALPHA (c : Z) : Prop := In c (str "ABCDEFGHIJKLMNOPQRSTUVWXYZabcdefghijklmnopqrstuvwxyz").
Definition DIGIT (c : Z) : Prop := In c (str "0123456789").
Definition HEXDIG (c : Z) : Prop := In c (str "0123456789ABCDEFabcdef").
Definition unreserved (c : Z) : Prop := ALPHA c \/ DIGIT c \/ In c (str "-._~").
Definition sub_delim (c : Z) : Prop := In c (str "!$&'()*+,;=").
Definition pchar (c : Z) : Prop := unreserved c \/ sub_delim c \/ In c (str ":@").

(** Characters of a class and percent-encoded bytes. *)
Inductive encoded (cls : Z -> Prop) : list Z -> Prop :=
| en_nil : encoded cls []
| en_char c s : cls c -> encoded cls s -> encoded cls (c :: s)
| en_pct a b s : HEXDIG a -> HEXDIG b -> encoded cls s -> encoded cls (37 :: a :: b :: s).

(** Hosts *)
Definition decimal (n : Z) : list Z :=
  if n <? 10 then [48 + n] else if n <? 100 then [48 + n / 10; 48 + n mod 10] else [48 + n / 100; 48 + n / 10 mod 10; 48 + n mod 10].
Definition octet (t : list Z) : Prop := exists n, 0 <= n < 256 /\ t = decimal n.
Definition ipv4 (t : list Z) : Prop := exists a b c d, octet a /\ octet b /\ octet c /\ octet d /\
  t = a ++ str "." ++ b ++ str "." ++ c ++ str "." ++ d.
Definition reg_name : list Z -> Prop := encoded (fun c => unreserved c \/ sub_delim c).
(** A group of an IPv6 address, here with all its four digits. *)
Definition h16 (t : list Z) : Prop := length t = 4%nat /\ Forall HEXDIG t.
(** [h16s n t]: n groups, the last two possibly as an IPv4 address. *)
Inductive h16s : nat -> list Z -> Prop :=
| hs_nil : h16s 0 []
| hs_one g : h16 g -> h16s 1 g
| hs_v4 a : ipv4 a -> h16s 2 a
| hs_cons g n t : h16 g -> h16s (S n) t -> h16s (S (S n)) (g ++ str ":" ++ t).
(** Groups without an IPv4 address. *)
Inductive h16only : nat -> list Z -> Prop :=
| ho_one g : h16 g -> h16only 1 g
| ho_cons g n t : h16 g -> h16only (S n) t -> h16only (S (S n)) (g ++ str ":" ++ t).
(** Eight groups; or "::" for one group, or for any number of groups at the start. *)
Inductive ipv6 : list Z -> Prop :=
| i6_full t : h16s 8 t -> ipv6 t
| i6_start n t : (n <= 7)%nat -> h16s n t -> ipv6 (str "::" ++ t)
| i6_one k n t u : (k + n = 7)%nat -> h16only k t -> h16s n u -> ipv6 (t ++ str "::" ++ u).

(** The parts of a URI reference. *)
Record auth := mkA { a_user : option (list Z); a_host : list Z; a_port : option (list Z) }.
Record parts := mkP { p_scheme : option (list Z); p_auth : option auth; p_path : list Z; p_query : option (list Z); p_fragment : option (list Z) }.

Definition pre (c : String.string) (o : option (list Z)) : list Z := match o with Some s => str c ++ s | None => [] end.
Definition post (o : option (list Z)) (c : String.string) : list Z := match o with Some s => s ++ str c | None => [] end.
Definition compose_auth (a : auth) : list Z := post (a_user a) "@" ++ a_host a ++ pre ":" (a_port a).
Definition compose (p : parts) : list Z :=
  post (p_scheme p) ":" ++ pre "//" (option_map compose_auth (p_auth p)) ++ p_path p ++ pre "?" (p_query p) ++ pre "#" (p_fragment p).

Definition ok_opt (F : list Z -> Prop) (o : option (list Z)) : Prop := match o with Some s => F s | None => True end.
Definition ok_scheme (s : list Z) : Prop := exists c r, s = c :: r /\ ALPHA c /\ Forall (fun c => ALPHA c \/ DIGIT c \/ In c (str "+-.")) r.
Definition ok_query : list Z -> Prop := encoded (fun c => pchar c \/ In c (str "/?")).
Definition path_chars : list Z -> Prop := encoded (fun c => pchar c \/ c = 47).
(** The first segment of a path. *)
Fixpoint segment1 (s : list Z) : list Z := match s with [] => [] | c :: r => if c =? 47 then [] else c :: segment1 r end.

(** The host forms: registered name, IPv4 address, IP literal.  RFC 3986's grammar gives an address
    precedence over a name when both match; the guard is that a name does not begin with an address. *)
Definition ok_host (h : list Z) : Prop :=
  (Forall (fun c => unreserved c \/ sub_delim c) h /\ ~ exists a b, h = a ++ b /\ ipv4 a) \/ ipv4 h \/
  exists t, ipv6 t /\ h = str "[" ++ t ++ str "]".
(** The guard on userinfo and name: no percent-encoding. *)
Definition ok_auth (a : auth) : Prop :=
  ok_opt (Forall (fun c => unreserved c \/ sub_delim c \/ c = 58)) (a_user a) /\ ok_host (a_host a) /\ ok_opt (Forall DIGIT) (a_port a).
Definition ok_path (p : parts) : Prop :=
  path_chars (p_path p) /\
  match p_auth p with
  | Some _ => p_path p = [] \/ exists r, p_path p = 47 :: r
  | None =>
      (forall r, p_path p <> 47 :: 47 :: r) /\
      match p_scheme p with Some _ => True | None => ~ In 58 (segment1 (p_path p)) end
  end.
Definition ok_parts (p : parts) : Prop :=
  ok_opt ok_scheme (p_scheme p) /\ (forall a, p_auth p = Some a -> ok_auth a) /\ ok_path p /\
  ok_opt ok_query (p_query p) /\ ok_opt ok_query (p_fragment p).
