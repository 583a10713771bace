(** Addresses and ports as the system gets them, and the order in which they are tried. *)
From Verif Require Import Common Ipv4_Spec.
Local Open Scope Z_scope.

(** struct sockaddr_in, the address and the port as bytes in memory *)
Record sockaddr := mkSa { family : Z; ip : list Z; portb : list Z }.
Definition bytes_of (a : addr) : list Z := let '(w, x, y, z) := a in [w; x; y; z].
(** AF_INET is 2; in network order the most significant byte comes first *)
Definition denotes (sa : sockaddr) (a : addr) (port : Z) : Prop :=
  family sa = 2 /\ ip sa = bytes_of a /\ exists h l, portb sa = [h; l] /\ byte h /\ byte l /\ port = 256 * h + l.

(** the system's answers to ::connect: interrupted by a signal, connected, failed *)
Inductive answer := Intr | Yes | No.
(** The addresses are tried in order; one more try after an interruption; the first that answers is it. *)
Inductive visit (port : Z) : list addr -> list (sockaddr * answer) -> option addr -> Prop :=
| V_end : visit port [] [] None
| V_intr sa a l log r : denotes sa a port -> visit port (a :: l) log r -> visit port (a :: l) ((sa, Intr) :: log) r
| V_no sa a l log r : denotes sa a port -> visit port l log r -> visit port (a :: l) ((sa, No) :: log) r
| V_yes sa a l : denotes sa a port -> visit port (a :: l) [(sa, Yes)] (Some a).

(** A resolver: one given by the program, or one that the library has made. *)
Inductive rid := Given (n : nat) | Default (n : nat).
Inductive rev := SetTo (r : option nat) | Took (k : rid).
(** Each connect takes the resolver that was set last; if there is none, one of the library's, which then stays. *)
Fixpoint right (cur : option rid) (l : list rev) : Prop :=
  match l with
  | [] => True
  | SetTo r :: l => right (match r with Some n => Some (Given n) | None => None end) l
  | Took k :: l => match cur with Some c => k = c | None => exists n, k = Default n end /\ right (Some k) l
  end.
