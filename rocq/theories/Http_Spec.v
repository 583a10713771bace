(** Headers as a map with case-insensitive names, the wire format of headers and bodies, and a reader of a body. *)
From Verif Require Import Common.
Local Open Scope Z_scope.

(** ** Headers *)
Definition lower (s : list Z) : list Z := map (fun c => if (65 <=? c) && (c <=? 90) then c + 32 else c) s.
Definition same (a b : list Z) : bool := if list_eq_dec Z.eq_dec (lower a) (lower b) then true else false.

Inductive hop := HSet (k v : list Z) | HErase (k : list Z) | HGet (k : list Z).
(** The value under a name after a history (last operation first); reading a missing name by [] puts the empty value there. *)
Fixpoint value (past : list hop) (k : list Z) : option (list Z) :=
  match past with
  | [] => None
  | HSet k' v :: p => if same k' k then Some v else value p k
  | HErase k' :: p => if same k' k then None else value p k
  | HGet k' :: p => if same k' k then Some (match value p k with Some v => v | None => [] end) else value p k
  end.
(** The names present, in the order and the spelling of their insertion. *)
Fixpoint names (past : list hop) : list (list Z) :=
  match past with
  | [] => []
  | HSet k _ :: p | HGet k :: p => match value p k with Some _ => names p | None => names p ++ [k] end
  | HErase k :: p => filter (fun n => negb (same n k)) (names p)
  end.
Definition orempty (v : option (list Z)) : list Z := match v with Some s => s | None => [] end.

(** RFC 2616 2.2: token characters. *)
Definition token_char (c : Z) : Prop := 33 <= c <= 126 /\ ~ In c (str "()<>@,;:\/[]?={}") /\ c <> 34.
Definition token (s : list Z) : Prop := s <> [] /\ Forall token_char s.
(** A value on one line. *)
Definition single_line (v : list Z) : Prop := bytes v /\ ~ In 13 v /\ ~ In 10 v.
Definition blank (c : Z) : Prop := c = 32 \/ 9 <= c <= 13.
Definition wire (h : list (list Z * list Z)) : list Z :=
  flat_map (fun f : list Z * list Z => fst f ++ [58; 32] ++ snd f ++ [13; 10]) h ++ [13; 10].

(** A field whose line fits the limit of 4096 bytes and whose value does not start with a blank. *)
Definition field_ok (f : list Z * list Z) : Prop :=
  token (fst f) /\ single_line (snd f) /\ (forall c v, snd f = c :: v -> ~ blank c) /\
  (length (fst f) + length (snd f) <= 4092)%nat.

(** ** Bodies *)
Inductive rdop := Peek | Next.
(** What a reader gets from the body b and then the end of the file. *)
Fixpoint reads (ops : list rdop) (b : list Z) : list (option Z) :=
  match ops with
  | [] => []
  | o :: os => match b with
               | [] => None :: reads os []
               | c :: r => Some c :: reads os (match o with Peek => b | Next => r end)
               end
  end.
(** What is left of the body after these calls. *)
Fixpoint unread (ops : list rdop) (b : list Z) : list Z :=
  match ops with
  | [] => b
  | Peek :: os => unread os b
  | Next :: os => unread os (tl b)
  end.
(** The int that a streambuf function returns: -1 is EOF, else a char. *)
Definition delivered (r : Z) : option Z := if r =? -1 then None else Some (r mod 256).

(** RFC 2616 3.6.1: hexadecimal numbers, chunks, the last chunk and the trailer. *)
Definition hexdigit (c v : Z) : Prop :=
  0 <= v < 16 /\ (nth (Z.to_nat v) (str "0123456789abcdef") 0 = c \/ nth (Z.to_nat v) (str "0123456789ABCDEF") 0 = c).
Inductive hexnum : list Z -> Z -> Prop :=
| hx_one c v : hexdigit c v -> hexnum [c] v
| hx_more ds n c v : hexnum ds n -> hexdigit c v -> hexnum (ds ++ [c]) (16 * n + v).
(** Chunk extensions: anything on the line that starts with a semicolon or blank; the line has at most 4094 bytes. *)
Definition extension (e : list Z) : Prop :=
  bytes e /\ ~ In 13 e /\ ~ In 10 e /\ match e with [] => True | c :: _ => c = 59 \/ c = 32 \/ c = 9 end.
Inductive size_line (n : Z) : list Z -> Prop :=
| sl_intro ds e : hexnum ds n -> extension e -> (length (ds ++ e) <= 4094)%nat -> size_line n (ds ++ e ++ [13; 10]).
Inductive chunk (d : list Z) : list Z -> Prop :=
| ck_intro l : d <> [] -> Z.of_nat (length d) < 2 ^ 31 -> size_line (Z.of_nat (length d)) l -> chunk d (l ++ d ++ [13; 10]).
Definition trailer_line (l : list Z) : Prop := l <> [] /\ (length l <= 4094)%nat /\ bytes l /\ ~ In 13 l /\ ~ In 10 l.
(** [chunked_body b t]: t is an encoding of the body b, cut into chunks in any way. *)
Inductive chunked_body : list Z -> list Z -> Prop :=
| cb_end l tr : size_line 0 l -> Forall trailer_line tr ->
    chunked_body [] (l ++ flat_map (fun t => t ++ [13; 10]) tr ++ [13; 10])
| cb_chunk d c b t : chunk d c -> chunked_body b t -> chunked_body (d ++ b) (c ++ t).
