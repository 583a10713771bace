(** Documents as values: what a program on JSON variables does if each variable, element and member has a value of its own. *)
From Verif Require Import Common.
Local Open Scope Z_scope.

Definition key := list Z.
Inductive scalar := Null | Int (z : Z) | Float (bits : Z) | Bool (b : bool) | Str (s : list Z).
Inductive doc := JS (s : scalar) | JA (l : list doc) | JO (l : list (key * doc)).

(** Programs on variables 0, 1, ...: a place is a variable, or an element or member below it. *)
Inductive seg := Key (k : key) | Ix (i : nat).
Definition place : Type := nat * list seg.
Inductive lit := LS (s : scalar) | LA | LO.
(** What is stored: a new document, a document at a place as it is, or a clone of it *)
Inductive src := New (l : lit) | Share (r : place) | Clone (r : place).
(** r = s; r.add(s); x = merge(a, b), or if deep x = merge(a, b).clone() *)
Inductive op := Put (r : place) (s : src) | Push (r : place) (s : src) | Merge (x : nat) (deep : bool) (a b : place).

Fixpoint upd {A} (i : nat) (x : A) (l : list A) : list A :=
  match l, i with [], _ => [] | _ :: r, O => x :: r | y :: r, S j => y :: upd j x r end.
Section members.
Context {A : Type}.
Fixpoint lookup (k : key) (l : list (key * A)) : option A :=
  match l with [] => None | (j, v) :: r => if list_eq_dec Z.eq_dec j k then Some v else lookup k r end.
(** Replace the member or add it *)
Fixpoint set (k : key) (v : A) (l : list (key * A)) : list (key * A) :=
  match l with [] => [(k, v)] | (j, w) :: r => if list_eq_dec Z.eq_dec j k then (j, v) :: r else (j, w) :: set k v r end.
(** All of the first, and then the second over it *)
Definition merged (l m : list (key * A)) : list (key * A) := fold_left (fun a x => set (fst x) (snd x) a) m l.
End members.

Fixpoint get (p : list seg) (t : doc) : option doc :=
  match p, t with
  | [], _ => Some t
  | Key k :: q, JO l => match lookup k l with Some v => get q v | None => None end
  | Ix i :: q, JA l => match nth_error l i with Some v => get q v | None => None end
  | _, _ => None
  end.
(** Change what is at a place; a member that is not there is null. *)
Fixpoint modify (p : list seg) (f : doc -> outcome doc) (t : doc) : outcome doc :=
  match p with
  | [] => f t
  | Key k :: q =>
      match t with
      | JO l => match lookup k l with
                | Some v => let* w := modify q f v in Ok (JO (set k w l))
                | None => let* w := modify q f (JS Null) in Ok (JO (l ++ [(k, w)]))
                end
      | _ => Throw
      end
  | Ix i :: q =>
      match t with
      | JA l => match nth_error l i with Some v => let* w := modify q f v in Ok (JA (upd i w l)) | None => UB end
      | _ => Throw
      end
  end.
Definition of_lit (l : lit) : doc := match l with LS s => JS s | LA => JA [] | LO => JO [] end.
Definition store := list doc.
(** Reading at a place: the document there and the store, in which a missing member is null now *)
Definition d_read (r : place) (st : store) : outcome (doc * store) :=
  match nth_error st (fst r) with
  | None => UB
  | Some t => let* t := modify (snd r) Ok t in match get (snd r) t with Some v => Ok (v, upd (fst r) t st) | None => UB end
  end.
Definition d_change (r : place) (f : doc -> outcome doc) (st : store) : outcome store :=
  match nth_error st (fst r) with
  | None => UB
  | Some t => let* t := modify (snd r) f t in Ok (upd (fst r) t st)
  end.
Definition d_eval (s : src) (st : store) : outcome (doc * store) :=
  match s with New l => Ok (of_lit l, st) | Share r | Clone r => d_read r st end.
Definition d_step (o : op) (st : store) : outcome store :=
  match o with
  | Put r s => let* (v, st) := d_eval s st in d_change r (fun _ => Ok v) st
  | Push r s => let* (v, st) := d_eval s st in d_change r (fun t => match t with JA l => Ok (JA (l ++ [v])) | _ => Throw end) st
  | Merge x _ a b =>
      let* (_, st) := d_read a st in
      let* (v, st) := d_read b st in
      let* (u, st) := d_read a st in
      match u, v with JO l, JO m => d_change (x, []) (fun _ => Ok (JO (merged l m))) st | _, _ => Throw end
  end.
Fixpoint d_run (p : list op) (st : store) : outcome store :=
  match p with [] => Ok st | o :: r => let* st := d_step o st in d_run r st end.

(** Programs that store nothing but new documents and clones *)
Definition cloning (o : op) : Prop :=
  match o with Put _ (Share _) | Push _ (Share _) | Merge _ false _ _ => False | _ => True end.
(** Programs in which a variable does not occur; those that do not assign to a variable as a whole *)
Definition without (z : nat) (o : op) : Prop :=
  let off (r : place) := fst r <> z in
  match o with
  | Put r s | Push r s => off r /\ match s with New _ => True | Share q | Clone q => off q end
  | Merge x _ a b => x <> z /\ off a /\ off b
  end.
Definition keeps (z : nat) (o : op) : Prop :=
  match o with Put (x, []) _ | Merge x _ _ _ => x <> z | _ => True end.
