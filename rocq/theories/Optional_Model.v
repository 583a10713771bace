(** Model of src/data/optional.h: objects holding pointers into a heap. *)
From Verif Require Import Common.

Section Optional.
  Variable T : Type.

  (** The heap: live cells with their contents; [nxt] is an unused address. *)
  Record st := mkSt { env : nat -> option nat; heap : list (nat * T); nxt : nat }.

  Fixpoint hget (l : nat) (h : list (nat * T)) : option T :=
    match h with [] => None | (a, v) :: r => if (a =? l)%nat then Some v else hget l r end.
  Fixpoint hset (l : nat) (v : T) (h : list (nat * T)) : list (nat * T) :=
    match h with [] => [] | (a, w) :: r => if (a =? l)%nat then (a, v) :: r else (a, w) :: hset l v r end.
  Fixpoint hdel (l : nat) (h : list (nat * T)) : list (nat * T) :=
    match h with [] => [] | (a, w) :: r => if (a =? l)%nat then r else (a, w) :: hdel l r end.

  Definition eset (e : nat -> option nat) (x : nat) (p : option nat) : nat -> option nat :=
    fun y => if (y =? x)%nat then p else e y.

  (** delete: undefined unless the pointer is null or a live cell. *)
  Definition delete (p : option nat) (h : list (nat * T)) : outcome (list (nat * T)) :=
    match p with
    | None => Ok h
    | Some l => match hget l h with Some _ => Ok (hdel l h) | None => UB end
    end.
  (** Reading through a pointer: undefined unless it is a live cell. *)
  Definition deref (p : option nat) (h : list (nat * T)) : outcome T :=
    match p with None => UB | Some l => match hget l h with Some v => Ok v | None => UB end end.

  (** All variables start default-constructed (optional.h:46-48). *)
  Definition opt_init : st := mkSt (fun _ => None) [] 0.

  (** optional.h:54-56 / 58-61: the copy, as (pointer, heap, next address). *)
  Definition copy (p : option nat) (s : st) : outcome (option nat * list (nat * T) * nat) :=
    match p with
    | None => Ok (None, heap s, nxt s)
    | Some _ => let* v := deref p (heap s) in Ok (Some (nxt s), (nxt s, v) :: heap s, S (nxt s))
    end.

  (** optional.h:67-71 (73-78): copy, swap, destroy the old contents (63-65). *)
  Definition assign_opt (x : nat) (p : option nat) (s : st) : outcome st :=
    let* (tmp, h1, n1) := copy p s in
    let old := env s x in
    let* h2 := delete old h1 in
    Ok (mkSt (eset (env s) x tmp) h2 n1).

  (** optional.h:80-88 *)
  Definition assign_val (x : nat) (v : T) (s : st) : outcome st :=
    match env s x with
    | Some l => match hget l (heap s) with
                | Some _ => Ok (mkSt (env s) (hset l v (heap s)) (nxt s))
                | None => UB
                end
    | None => Ok (mkSt (eset (env s) x (Some (nxt s))) ((nxt s, v) :: heap s) (S (nxt s)))
    end.

  (** optional.h:94, [*x = v] *)
  Definition write (x : nat) (v : T) (s : st) : outcome st :=
    match env s x with
    | Some l => match hget l (heap s) with
                | Some _ => Ok (mkSt (env s) (hset l v (heap s)) (nxt s))
                | None => UB
                end
    | None => UB
    end.

  (** optional.h:98-100 *)
  Definition swap (x y : nat) (s : st) : st :=
    mkSt (eset (eset (env s) x (env s y)) y (env s x)) (heap s) (nxt s).

  Inductive oop :=
  | Reset (x : nat)              (* x = optional<T>() *)
  | AssignOpt (x y : nat)        (* x = y, also copy construction *)
  | AssignVal (x : nat) (v : T)  (* x = v *)
  | AssignDeref (x y : nat)      (* x = *y *)
  | Write (x : nat) (v : T)      (* *x = v *)
  | Swap (x y : nat).            (* x.swap(y) *)

  Definition ostep (s : st) (o : oop) : outcome st :=
    match o with
    | Reset x => assign_opt x None s
    | AssignOpt x y => assign_opt x (env s y) s
    | AssignVal x v => assign_val x v s
    | AssignDeref x y => let* v := deref (env s y) (heap s) in assign_val x v s
    | Write x v => write x v s
    | Swap x y => Ok (swap x y s)
    end.
  Fixpoint orun (ops : list oop) (s : st) : outcome st :=
    match ops with [] => Ok s | o :: r => let* s' := ostep s o in orun r s' end.

  (** The contents of a variable: test (90-92), then dereference. *)
  Definition read (s : st) (x : nat) : outcome (option T) :=
    match env s x with None => Ok None | Some l => omap Some (deref (Some l) (heap s)) end.

  (** ** Comparisons, for an element type with == and < (optional.h:106-146) *)
  Variable eqb ltb : T -> T -> bool.
  Definition o_eq (r s : option T) : bool :=
    match r with None => match s with None => true | Some _ => false end
               | Some a => match s with Some b => eqb a b | None => false end end.
  Definition o_ne r s := negb (o_eq r s).
  Definition o_lt (r s : option T) : bool :=
    match r with None => match s with None => false | Some _ => true end
               | Some a => match s with Some b => ltb a b | None => false end end.
  Definition o_gt r s := o_lt s r.
  Definition o_le r s := negb (o_lt s r).
  Definition o_ge r s := negb (o_lt r s).
End Optional.
Arguments mkSt {T}. Arguments env {T}. Arguments heap {T}. Arguments nxt {T}. Arguments opt_init {T}.
Arguments Reset {T}. Arguments AssignOpt {T}. Arguments AssignVal {T}. Arguments AssignDeref {T}. Arguments Write {T}. Arguments Swap {T}.
