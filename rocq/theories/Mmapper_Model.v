(** Model of src/system/mmapper.{h,cpp}.  The kernel keeps the open descriptors and the mappings (address, length) of the process.  NO_INTR repeats
    a call that was interrupted; an answer is that of the last call.  The bytes of the files are not modelled. *)
From Verif Require Import Common.
Local Open Scope Z_scope.

(** mmapper.h:81-84 *)
Record obj := { ptr : Z; len : Z; fd : Z }.
(** mmapper.h:49 *)
Definition fresh : obj := {| ptr := 0; len := 0; fd := -1 |}.
(** stray: descriptors and addresses released that were not there *)
Record kernel := { fds : list Z; maps : list (Z * Z); stray : bool }.
Fixpoint take {A} (eqb : A -> A -> bool) (x : A) (l : list A) : option (list A) :=
  match l with [] => None | y :: l => if eqb x y then Some l else match take eqb x l with Some l' => Some (y :: l') | None => None end end.
Definition eqm (a b : Z * Z) : bool := (fst a =? fst b) && (snd a =? snd b).
(** close(2), munmap(2) *)
Definition sys_close (f : Z) (k : kernel) : kernel :=
  match take Z.eqb f (fds k) with Some l => {| fds := l; maps := maps k; stray := stray k |} | None => {| fds := fds k; maps := maps k; stray := true |} end.
Definition sys_munmap (p n : Z) (k : kernel) : kernel :=
  match take eqm (p, n) (maps k) with Some l => {| fds := fds k; maps := l; stray := stray k |} | None => {| fds := fds k; maps := maps k; stray := true |} end.

(** mmapper.cpp:72-83; also the destructor, mmapper.h:53 *)
Definition close (o : obj) (k : kernel) : obj * kernel :=
  let '(o, k) := if 0 <=? fd o then ({| ptr := ptr o; len := len o; fd := -1 |}, sys_close (fd o) k) else (o, k) in
  if negb (ptr o =? 0) then ({| ptr := 0; len := len o; fd := fd o |}, sys_munmap (ptr o) (len o) k) else (o, k).
Definition destroy (o : obj) (k : kernel) : kernel := snd (close o k).
(** What open(2), fstat(2) and mmap(2) answer: a descriptor or a negative number, the size, the address; None is failure *)
Record answers := { a_fd : Z; a_size : option Z; a_map : option Z }.
(** mmapper.cpp:46-70 *)
Definition open (o : obj) (a : answers) (k : kernel) : Z * obj * kernel :=
  if a_fd a <? 0 then (-1, o, destroy {| ptr := 0; len := 0; fd := a_fd a |} k) else
  let k := {| fds := a_fd a :: fds k; maps := maps k; stray := stray k |} in
  match a_size a with
  | None => (-1, o, destroy {| ptr := 0; len := 0; fd := a_fd a |} k)
  | Some n => match a_map a with
              | None => (-1, o, destroy {| ptr := 0; len := n; fd := a_fd a |} k)
              | Some p => let k := {| fds := fds k; maps := (p, n) :: maps k; stray := stray k |} in
                          (0, {| ptr := p; len := n; fd := a_fd a |}, destroy o k)
              end
  end.
(** mmapper.h:75-79 *)
Definition swap (a b : obj) : obj * obj := (b, a).
(** mmapper.h:50-52: the new object, what rhs is then, and the kernel after the temporary was destroyed *)
Definition move_ctor (rhs : obj) (k : kernel) : obj * obj * kernel :=
  let this := {| ptr := ptr rhs; len := len rhs; fd := fd rhs |} in
  let (tmp, rhs) := swap fresh rhs in
  (this, rhs, destroy tmp k).
(** mmapper.h:61-70 *)
Definition is_open (o : obj) : bool := negb (ptr o =? 0).
Definition size (o : obj) : Z := len o.
Definition begin (o : obj) : Z := ptr o.
Definition finish (o : obj) : Z := ptr o + len o.
(** a byte of memory that mmap provided *)
Definition mapped (k : kernel) (p : Z) : bool := existsb (fun m => (fst m <=? p) && (p <? fst m + snd m)) (maps k).
Definition at_ (o : obj) (n : Z) (k : kernel) : outcome Z := if mapped k (ptr o + n) then Ok (ptr o + n) else UB.

(** A program with any number of mmappers: object i is Some while it lives *)
Inductive op := New | Open (i : nat) (a : answers) | Close (i : nat) | Swap (i j : nat) | Move (i : nat) | Assign (i j : nat) | Destroy (i : nat).
Record world := { objs : list (option obj); kern : kernel }.
Fixpoint set {A} (l : list A) (i : nat) (x : A) : list A := match l, i with [], _ => [] | _ :: l, O => x :: l | y :: l, S i => y :: set l i x end.
Definition object (w : world) (i : nat) : option obj := match nth_error (objs w) i with Some (Some o) => Some o | _ => None end.
(** None: the program uses an object that does not live *)
Definition step (p : op) (w : world) : option world :=
  match p with
  | New => Some {| objs := objs w ++ [Some fresh]; kern := kern w |}
  | Open i a => match object w i with
                | Some o => let '(_, o, k) := open o a (kern w) in Some {| objs := set (objs w) i (Some o); kern := k |}
                | None => None
                end
  | Close i => match object w i with Some o => let (o, k) := close o (kern w) in Some {| objs := set (objs w) i (Some o); kern := k |} | None => None end
  | Swap i j => match object w i, object w j with
                | Some o, Some q => Some {| objs := set (set (objs w) i (Some q)) j (Some o); kern := kern w |}
                | _, _ => None
                end
  | Move i => match object w i with
              | Some o => let '(n, o, k) := move_ctor o (kern w) in Some {| objs := set (objs w) i (Some o) ++ [Some n]; kern := k |}
              | None => None
              end
  | Assign i j => (* mmapper.h:55-59: object i is assigned from j *)
      match object w j with
      | Some q => let '(t, q, k) := move_ctor q (kern w) in
                  let w := {| objs := set (objs w) j (Some q); kern := k |} in
                  match object w i with Some o => Some {| objs := set (objs w) i (Some t); kern := destroy o k |} | None => None end
      | None => None
      end
  | Destroy i => match object w i with Some o => Some {| objs := set (objs w) i None; kern := destroy o (kern w) |} | None => None end
  end.
Fixpoint run (l : list op) (w : world) : option world := match l with [] => Some w | p :: l => match step p w with Some w => run l w | None => None end end.
