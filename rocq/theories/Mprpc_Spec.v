(** msgpack objects, what a codec for them has to do, and what a byte stream cut in pieces is. *)
From Verif Require Import Common.
Local Open Scope Z_scope.

(** a map is the list of its keys and values in turn; doubles by their bits *)
Inductive obj := ONil | OBool (b : bool) | OInt (z : Z) | OFloat (bits : Z) | ODouble (bits : Z) | ORaw (s : list Z) | OArr (l : list obj) | OMap (l : list obj).
(** reading an object at the head of a buffer: not there yet, there, or no msgpack *)
Inductive parsed (A : Type) := More | Got (a : A) (rest : list Z) | Bad.
Arguments More {A}. Arguments Got {A} a rest. Arguments Bad {A}.
Record codec := mkCodec { good : obj -> Prop; pack : obj -> list Z; parse : list Z -> parsed obj }.
(** an object is found exactly when its last byte is there *)
Record codec_ok (c : codec) : Prop := mkOk {
  whole : forall o rest, good c o -> parse c (pack c o ++ rest) = Got o rest;
  part : forall o p q, good c o -> pack c o = p ++ q -> q <> [] -> parse c p = More;
  shorter : forall l o rest, parse c l = Got o rest -> (length rest < length l)%nat }.
Definition wire (c : codec) (os : list obj) : list Z := concat (map (pack c) os).

Definition request (id : Z) (name : list Z) (args : list obj) : obj := OArr [OInt 0; OInt id; ORaw name; OArr args].
Definition response (id : Z) (error result : obj) : obj := OArr [OInt 1; OInt id; error; result].

(** a message that is not the reply to id *)
Definition message (kind id : Z) (a b : obj) : obj := OArr [OInt kind; OInt id; a; b].
Definition other (id : Z) (o : obj) : Prop := exists k i a b, o = message k i a b /\ 0 <= k < 256 /\ 0 <= i < 2 ^ 32 /\ (k <> 1 \/ i <> id).

(** * What system calls return *)
Inductive errno := EINTR | EAGAIN | EOTHER.
(** write: how many bytes it took, or why it failed, and whether the timeout has passed since *)
Inductive wev := Took (n : Z) | WErr (e : errno) (late : bool).
(** read: bytes (none: end of the stream), or why it failed *)
Inductive rev := RData (b : list Z) | RErr (e : errno) (late : bool).
(** nothing but delays *)
Definition benign_w (e : wev) : Prop := match e with Took n => 0 < n | WErr EINTR _ => True | WErr EAGAIN late => late = false | WErr EOTHER _ => False end.
Definition benign_r (e : rev) : Prop := match e with RData b => b <> [] | RErr EINTR _ => True | RErr EAGAIN late => late = false | RErr EOTHER _ => False end.
Definition taken (evs : list wev) : Z := fold_right (fun e s => match e with Took n => n + s | _ => s end) 0 evs.
Definition incoming (evs : list rev) : list Z := concat (map (fun e => match e with RData b => b | _ => [] end) evs).
(** the kernel takes all of n bytes in the end, and hands over what it is given in any pieces *)
Definition delivers (n : Z) (w : list wev) : Prop := Forall benign_w w /\ n <= taken w.
Definition pieces (cut : list Z -> list rev) : Prop := forall b, Forall benign_r (cut b) /\ incoming (cut b) = b.

(** * The functions of a server *)
(** the first of a name counts *)
Definition bound {V} (funcs : list (list Z * V)) (name : list Z) (v : V) : Prop := exists pre post, funcs = pre ++ (name, v) :: post /\ ~ In name (map fst pre).
Definition unbound {V} (funcs : list (list Z * V)) (name : list Z) : Prop := ~ In name (map fst funcs).
(** some argument is the first not of the type wanted *)
Definition mistyped (ts : list (obj -> bool)) (l : list obj) : Prop :=
  exists ts1 t ts2 l1 o l2, ts = ts1 ++ t :: ts2 /\ l = l1 ++ o :: l2 /\ length ts1 = length l1 /\ Forall (fun p => fst p (snd p) = true) (combine ts1 l1) /\ t o = false.
