(** Model of src/lang/any.h: any objects own holders in a heap.  The values are of any type V that copies to equal values; types are
    numbers.  *)
From Verif Require Import Common Any_Spec.

Section any.
Context {V : Type}.
(** any.h:102-116: a holder<T>: T and val.  A cell was never allocated, is live or is deleted. *)
Inductive cell := Fresh | Live (ty : nat) (v : V) | Deleted.
Definition ptr := option nat.   (* content; None: NULL *)
Record state := { heap : nat -> cell; next : nat; vars : nat -> option ptr }.
Definition init : state := {| heap := fun _ => Fresh; next := 0; vars := fun _ => None |}.
Definition put {A} (f : nat -> A) (x : nat) (a : A) : nat -> A := fun y => if Nat.eqb y x then a else f y.
Definition set_heap (s : state) h n : state := {| heap := h; next := n; vars := vars s |}.
Definition set_var (s : state) x p : state := {| heap := heap s; next := next s; vars := put (vars s) x p |}.

(** new holder<T>(v); Throw if the allocation or the copy throws *)
Definition new_holder (fail : bool) (s : state) (ty : nat) (v : V) : outcome (state * ptr) :=
  if fail then Throw else Ok (set_heap s (put (heap s) (next s) (Live ty v)) (S (next s)), Some (next s)).
(** *p *)
Definition deref (s : state) (p : nat) : outcome (nat * V) := match heap s p with Live ty v => Ok (ty, v) | _ => UB end.
(** delete p *)
Definition delete (s : state) (p : ptr) : outcome state :=
  match p with
  | None => Ok s
  | Some a => match heap s a with Live _ _ => Ok (set_heap s (put (heap s) a Deleted) (next s)) | _ => UB end
  end.
(** any.h:58-60, 107-109 *)
Definition clone (fail : bool) (s : state) (p : ptr) : outcome (state * ptr) :=
  match p with
  | None => Ok (s, None)
  | Some a => let* c := deref s a in new_holder fail s (fst c) (snd c)
  end.
Definition live (s : state) (x : nat) : outcome ptr := match vars s x with Some p => Ok p | None => UB end.
Definition dead (s : state) (x : nat) : outcome unit := match vars s x with Some _ => UB | None => Ok tt end.
(** any.h:86-91: dynamic_cast<const holder<T>*>(content): NULL for a null pointer or another type *)
Definition cast (s : state) (ty : nat) (p : ptr) : outcome (option V) :=
  match p with
  | None => Ok None
  | Some a => let* c := deref s a in Ok (if Nat.eqb (fst c) ty then Some (snd c) else None)
  end.
(** An exception leaves the program with the state as it was when thrown; a throwing constructor makes no object. *)
Definition catching (s : state) (r : outcome state) : outcome (state * obs V) :=
  match r with Ok s' => Ok (s', Done) | Throw => Ok (s, Failed) | UB => UB | Fuel => Fuel end.

Definition step (s : state) (o : op V) : outcome (state * obs V) :=
  match o with
  | Default x => let* _ := dead s x in Ok (set_var s x (Some None), Done)                              (* any.h:49-51 *)
  | From fail x ty v =>                                                                                 (* any.h:53-56 *)
      let* _ := dead s x in catching s (let* r := new_holder fail s ty v in Ok (set_var (fst r) x (Some (snd r))))
  | Copy fail x y =>                                                                                    (* any.h:58-60 *)
      let* _ := dead s x in let* p := live s y in catching s (let* r := clone fail s p in Ok (set_var (fst r) x (Some (snd r))))
  | Destroy x => let* p := live s x in let* s' := delete s p in Ok (set_var s' x None, Done)            (* any.h:62-64 *)
  | Swap x y =>                                                                                         (* any.h:66-69 *)
      let* p := live s x in let* q := live s y in Ok (set_var (set_var s x (Some q)) y (Some p), Done)
  | Assign fail x ty v =>                                                                               (* any.h:71-75: any(r).swap of *this *)
      let* p := live s x in
      catching s (let* r := new_holder fail s ty v in delete (set_var (fst r) x (Some (snd r))) p)
  | AssignAny fail x y =>                                                                               (* any.h:77-80: the argument is a copy *)
      let* p := live s x in let* q := live s y in
      catching s (let* r := clone fail s q in delete (set_var (fst r) x (Some (snd r))) p)
  | Cast ty x => let* p := live s x in let* r := cast s ty p in                                         (* any.h:86-91 *)
                 Ok (s, match r with Some v => Value v | None => Bad_cast end)
  | Type_of x => let* p := live s x in                                                                  (* any.h:82-84 *)
                 match p with None => Ok (s, Is_type None) | Some a => let* c := deref s a in Ok (s, Is_type (Some (fst c))) end
  end.
Fixpoint run (s : state) (os : list (op V)) : outcome (state * list (obs V)) :=
  match os with
  | [] => Ok (s, [])
  | o :: os => let* r := step s o in let* rs := run (fst r) os in Ok (fst rs, snd r :: snd rs)
  end.
End any.
Arguments cell : clear implicits.
Arguments state : clear implicits.
