(** Model of src/lang/shared_ptr.h:62-133, src/lang/weak_ptr.h:43-71 and src/lang/enable_shared_from_this.h: any number of shared_ptrs and
    weak_ptrs to objects of classes derived from enable_shared_from_this, used by one thread.  The classes wrap those of the standard library,
    whose counted control blocks are modelled as libstdc++ has them (shared_ptr_base.h).
    Simplifications: the destructor of T does nothing but end the object, which is deleted by delete; the memory of control blocks is not modelled. *)
From Verif Require Import Common Shared_Spec.

(** The address that is handed over: null; that of a new object; some other *)
Inductive raw := Null | New | Raw (k : nat).
(** A control block: the pointer to delete, the number of shared_ptrs *)
Record block := B { obj : option nat; uses : nat }.
(** A pointer variable: gone (None), empty (Some None), or with a control block.  self: the weak_ptr within each object *)
Record heap := mk { blocks : list block; sh : list (option (option nat)); wk : list (option (option nat)); self : nat -> option nat;
                    alive : list nat; next : nat; log : list event }.
Definition empty : heap := mk [] [] [] (fun _ => None) [] 0 [].

Fixpoint upd {A} (l : list A) (i : nat) (x : A) : list A := match l, i with [], _ => [] | _ :: r, O => x :: r | y :: r, S i => y :: upd r i x end.
Definition with_blocks (h : heap) (bs : list block) : heap := mk bs (sh h) (wk h) (self h) (alive h) (next h) (log h).
Definition with_sh (h : heap) (l : list (option (option nat))) : heap := mk (blocks h) l (wk h) (self h) (alive h) (next h) (log h).
Definition with_wk (h : heap) (l : list (option (option nat))) : heap := mk (blocks h) (sh h) l (self h) (alive h) (next h) (log h).

Definition count (h : heap) (v : option nat) : nat := match v with Some b => match nth_error (blocks h) b with Some c => uses c | None => 0 end | None => 0 end.
(** the counter goes up for a copy *)
Definition retain (h : heap) (v : option nat) : heap :=
  match v with
  | None => h
  | Some b => match nth_error (blocks h) b with Some c => with_blocks h (upd (blocks h) b (B (obj c) (S (uses c)))) | None => h end
  end.
(** delete of null does nothing; of an object that is not there it is undefined *)
Definition delete (h : heap) (p : option nat) : outcome heap :=
  match p with
  | None => Ok h
  | Some k => if existsb (Nat.eqb k) (alive h) then Ok (mk (blocks h) (sh h) (wk h) (self h) (filter (fun j => negb (Nat.eqb j k)) (alive h)) (next h) (log h ++ [Deleted k])) else UB
  end.
(** and down when a shared_ptr goes; the last one deletes *)
Definition release (h : heap) (v : option nat) : outcome heap :=
  match v with
  | None => Ok h
  | Some b => match nth_error (blocks h) b with
              | None => UB
              | Some c => match uses c with
                          | O => UB
                          | S O => delete (with_blocks h (upd (blocks h) b (B (obj c) 0))) (obj c)
                          | S (S n) => Ok (with_blocks h (upd (blocks h) b (B (obj c) (S n))))
                          end
              end
  end.
(** shared_ptr.h:83: base(p) makes a control block, and sets the weak_ptr within the object unless that has an owner already *)
Definition fresh (h : heap) : heap := mk (blocks h) (sh h) (wk h) (self h) (next h :: alive h) (S (next h)) (log h).
Definition adopt (h : heap) (p : option nat) : outcome (heap * option nat) :=
  let b := length (blocks h) in
  let h1 := with_blocks h (blocks h ++ [B p 1]) in
  match p with
  | None => Ok (h1, Some b)
  | Some k => if existsb (Nat.eqb k) (alive h) then
                let s := if Nat.eqb (count h (self h k)) 0 then fun j => if Nat.eqb j k then Some b else self h j else self h in
                Ok (mk (blocks h1) (sh h) (wk h) s (alive h) (next h) (log h ++ [Given k]), Some b)
              else UB
  end.
Definition make (h : heap) (p : raw) : outcome (heap * option nat) :=
  match p with Null => adopt h None | New => adopt (fresh h) (Some (next h)) | Raw k => adopt h (Some k) end.

(** operations; the new variables come at the end of the list *)
Inductive op :=
| Make (p : raw) | Empty | Copy (j : nat) | Cast (j : nat) (fits : bool) | Assign (i j : nat) | Destroy (i : nat) | Deref (i : nat)
| WEmpty | WOf (j : nat) | WCopy (j : nat) | WAssign (i j : nat) | WAssignS (i j : nat) | WDestroy (i : nat)
| Lock (j : nat) | FromWeak (j : nat) | FromThis (k : nat) | Fresh.
Definition get (l : list (option (option nat))) (i : nat) : option (option nat) := match nth_error l i with Some (Some v) => Some v | _ => None end.
Definition pushs (h : heap) (v : option nat) : heap := with_sh h (sh h ++ [Some v]).
Definition pushw (h : heap) (v : option nat) : heap := with_wk h (wk h ++ [Some v]).
Definition target (h : heap) (v : option nat) : option nat := match v with Some b => match nth_error (blocks h) b with Some c => obj c | None => None end | None => None end.
(** shared_ptr.h:101 for a temporary std::shared_ptr v: it is copied and destroyed *)
Definition wrap (h : heap) (v : option nat) : outcome heap := let h := pushs (retain h v) v in release h v.
(** std::weak_ptr::lock *)
Definition locked (h : heap) (v : option nat) : heap * option nat := if Nat.eqb (count h v) 0 then (h, None) else (retain h v, v).

(** true: bad_weak_ptr is thrown.  Operations on variables that are not there do nothing (no C++ program has them). *)
Definition step (h : heap) (o : op) : outcome (heap * bool) :=
  match o with
  | Make p => let* (h, v) := make h p in Ok (pushs h v, false)   (* shared_ptr.h:83 *)
  | Empty => Ok (pushs h None, false)   (* :80 *)
  | Copy j => match get (sh h) j with None => Ok (h, false) | Some v => Ok (pushs (retain h v) v, false) end   (* :89 *)
  | Cast j fits =>   (* :111-127 *)
      match get (sh h) j with
      | None => Ok (h, false)
      | Some v => let v := if fits then v else None in let* h := wrap (retain h v) v in Ok (h, false)
      end
  | Assign i j =>   (* :105-108 *)
      match get (sh h) i, get (sh h) j with
      | Some old, Some v => let* h := release (with_sh (retain h v) (upd (sh h) i (Some v))) old in Ok (h, false)
      | _, _ => Ok (h, false)
      end
  | Destroy i => match get (sh h) i with None => Ok (h, false) | Some v => let* h := release (with_sh h (upd (sh h) i None)) v in Ok (h, false) end
  | Deref i =>
      match get (sh h) i with
      | None => Ok (h, false)
      | Some v => match target h v with None => UB | Some k => if existsb (Nat.eqb k) (alive h) then Ok (h, false) else UB end
      end
  | WEmpty => Ok (pushw h None, false)   (* weak_ptr.h:48 *)
  | WOf j => match get (sh h) j with None => Ok (h, false) | Some v => Ok (pushw h v, false) end   (* :51 *)
  | WCopy j => match get (wk h) j with None => Ok (h, false) | Some v => Ok (pushw h v, false) end   (* :54 *)
  | WAssign i j => match get (wk h) i, get (wk h) j with Some _, Some v => Ok (with_wk h (upd (wk h) i (Some v)), false) | _, _ => Ok (h, false) end   (* :57-60 *)
  | WAssignS i j => match get (wk h) i, get (sh h) j with Some _, Some v => Ok (with_wk h (upd (wk h) i (Some v)), false) | _, _ => Ok (h, false) end   (* :63-66 *)
  | WDestroy i => match get (wk h) i with None => Ok (h, false) | Some _ => Ok (with_wk h (upd (wk h) i None), false) end
  | Lock j => match get (wk h) j with None => Ok (h, false) | Some v => let (h, t) := locked h v in let* h := wrap h t in Ok (h, false) end   (* :68-70 *)
  | FromWeak j =>   (* shared_ptr.h:92-97 *)
      match get (wk h) j with
      | None => Ok (h, false)
      | Some v => if Nat.eqb (count h v) 0 then Ok (h, true) else Ok (pushs (retain h v) v, false)
      end
  | FromThis k =>   (* enable_shared_from_this.h:55-68: both overloads *)
      if existsb (Nat.eqb k) (alive h) then
        if Nat.eqb (count h (self h k)) 0 then Ok (h, true) else let* h := wrap (retain h (self h k)) (self h k) in Ok (h, false)
      else UB
  | Fresh => Ok (fresh h, false)   (* new T outside *)
  end.
Fixpoint run (h : heap) (os : list op) : outcome heap := match os with [] => Ok h | o :: r => let* (h, _) := step h o in run h r end.
(** std::shared_ptr::use_count, get; what the weak_ptrs refer to *)
Definition use_count (h : heap) (i : nat) : nat := match get (sh h) i with Some v => count h v | None => 0 end.
Definition weaks (h : heap) : list (option nat) := map (fun x => match x with Some v => target h v | None => None end) (wk h).
Definition pointers (h : heap) : list (option nat) := map (fun x => match x with Some v => target h v | None => None end) (sh h).

(** No address is handed over twice, and only those of objects. *)
Definition fair (h : heap) (o : op) : Prop := match o with Make (Raw k) => (k < next h)%nat /\ ~ In (Given k) (log h) | _ => True end.
Fixpoint all_fair (h : heap) (os : list op) : Prop := match os with [] => True | o :: r => fair h o /\ match step h o with Ok (h, _) => all_fair h r | _ => True end end.
