(** What a byte stream with buffering must do: calls of a client, and the bytes they stand for. *)
From Verif Require Import Common.
Local Open Scope Z_scope.

Inductive call :=
| Write (d : list Z) | Puts (d : list Z) | Flush
| Read (n : nat) | Getc | Getline (limit : Z).
(** Results: a number, a truth value, the bytes read, a line (None: false). *)
Inductive result := RNum (n : Z) | RBool (b : bool) | RBytes (d : list Z) | RLine (l : option (list Z)).

(** The bytes the client wants sent. *)
Definition written (c : call) : list Z := match c with Write d => d | Puts d => d | _ => [] end.

(** [took c r d]: with result r the call c has taken the bytes d off the incoming stream. *)
Inductive took : call -> result -> list Z -> Prop :=
| tk_write d n : took (Write d) (RNum n) []
| tk_puts d b : took (Puts d) (RBool b) []
| tk_flush n : took Flush (RNum n) []
| tk_read n d : (length d <= n)%nat -> took (Read n) (RBytes d) d
| tk_getc c : took Getc (RNum c) [c]
| tk_eof : took Getc (RNum (-1)) []
| tk_crlf l s : ~ In 10 s -> took (Getline l) (RLine (Some s)) (s ++ [13; 10])
| tk_lf l s : ~ In 10 s -> (forall a, s <> a ++ [13]) -> took (Getline l) (RLine (Some s)) (s ++ [10])
| tk_part l s : ~ In 10 s -> (0 <= l -> Z.of_nat (length s) <= l) -> took (Getline l) (RLine (Some s)) s
| tk_none l : took (Getline l) (RLine None) [].
(** The call got less than asked for: the stream was at its end or broken. *)
Definition cut_short (c : call) (r : result) (d : list Z) : Prop :=
  match c, r with
  | Read n, RBytes d => (length d < n)%nat
  | Getc, RNum c => d = []
  | Getline l, RLine None => True
  | Getline l, RLine (Some s) => d = s /\ (0 <= l -> Z.of_nat (length s) < l)
  | _, _ => False
  end.

(** The call says that it did all it was asked for. *)
Definition success (c : call) (r : result) : Prop :=
  match c, r with
  | Write d, RNum n => n = Z.of_nat (length d)
  | Puts d, RBool b => b = true
  | Flush, RNum n => n < 0
  | _, _ => True
  end.
Inductive Forall3 {A B C} (R : A -> B -> C -> Prop) : list A -> list B -> list C -> Prop :=
| F3_nil : Forall3 R [] [] []
| F3_cons a b c l m n : R a b c -> Forall3 R l m n -> Forall3 R (a :: l) (b :: m) (c :: n).
