(** Model of json values as they are shared: src/text/json/base.h:82-136 (a json is a shared_ptr to a json_value), 155-545, 553-636, 720-734.
    Memory is a list of json_values; addresses are not used again.  An unordered_map is a list of members in the order of their insertion.  A program ends with
    the first exception.  The source of an assignment is evaluated before its target; floats are finite. *)
From Verif Require Import Common JsonRef_Spec.
Local Open Scope Z_scope.

Definition addr := nat.
(** json_null, json_integer, json_float, json_bool, json_string; json_array; json_object *)
Inductive cell := CS (s : scalar) | CA (l : list addr) | CO (l : list (key * addr)).
Definition heap := list cell.
Definition alloc (h : heap) (c : cell) : heap * addr := (h ++ [c], length h).
Definition vars := list addr.
Definition state : Type := heap * vars.

(** base.h:570-576, 436-438 (a member that is not there is made, with a new json_null: 553-555); 586-589, 578-584, 167-169 (no check of the index) *)
Definition child (s : seg) (h : heap) (a : addr) : outcome (heap * addr) :=
  match nth_error h a with
  | None => UB
  | Some c =>
      match s, c with
      | Key k, CO l =>
          match lookup k l with
          | Some b => Ok (h, b)
          | None => let (h, b) := alloc h (CS Null) in Ok (upd a (CO (l ++ [(k, b)])) h, b)
          end
      | Ix i, CA l => match nth_error l i with Some b => Ok (h, b) | None => UB end
      | _, _ => Throw
      end
  end.
Fixpoint walk (p : list seg) (h : heap) (a : addr) : outcome (heap * addr) :=
  match p with [] => Ok (h, a) | s :: q => let* (h, b) := child s h a in walk q h b end.
Definition at_place (r : place) (x : state) : outcome (state * addr) :=
  let (h, vs) := x in
  match nth_error vs (fst r) with None => UB | Some a => let* (h, b) := walk (snd r) h a in Ok ((h, vs), b) end.
(** The json that a variable, a member (base.h:570-576; 599-605, add(name, v), is the same) or an element is, becomes another one. *)
Definition put_slot (s : seg) (h : heap) (a v : addr) : outcome heap :=
  match nth_error h a with
  | None => UB
  | Some c =>
      match s, c with
      | Key k, CO l => Ok (upd a (CO (set k v l)) h)
      | Ix i, CA l => if (i <? length l)%nat then Ok (upd a (CA (upd i v l)) h) else UB
      | _, _ => Throw
      end
  end.
Definition assign (r : place) (v : addr) (x : state) : outcome state :=
  let (y, p) := r in
  match rev p with
  | [] => let (h, vs) := x in if (y <? length vs)%nat then Ok (h, upd y v vs) else UB
  | s :: q => let* (x, a) := at_place (y, rev q) x in let (h, vs) := x in let* h := put_slot s h a v in Ok (h, vs)
  end.
(** base.h:607-613, 175-177 *)
Definition push (r : place) (v : addr) (x : state) : outcome state :=
  let* (x, a) := at_place r x in
  let (h, vs) := x in
  match nth_error h a with Some (CA l) => Ok (upd a (CA (l ++ [v])) h, vs) | Some _ => Throw | None => UB end.

(** base.h:720-723, 213-218, 240-242, 274-276, 314-316, 497-502, 522-524, 542-544.  [f] bounds the depth; [clone_cell] is for an object that is not in memory. *)
Section list.
Context (c : heap -> addr -> outcome (heap * addr)).
Fixpoint clones (h : heap) (l : list addr) : outcome (heap * list addr) :=
  match l with [] => Ok (h, []) | a :: r => let* (h, b) := c h a in let* (h, m) := clones h r in Ok (h, b :: m) end.
End list.
Definition clone_with (c : heap -> addr -> outcome (heap * addr)) (h : heap) (x : cell) : outcome (heap * addr) :=
  match x with
  | CS s => Ok (alloc h (CS s))
  | CA l => let* (h, m) := clones c h l in Ok (alloc h (CA m))
  | CO l => let* (h, m) := clones c h (map snd l) in Ok (alloc h (CO (combine (map fst l) m)))
  end.
Fixpoint clone (f : nat) (h : heap) (a : addr) : outcome (heap * addr) :=
  match f with O => Fuel | S f => match nth_error h a with None => UB | Some x => clone_with (clone f) h x end end.
(** base.h:731-734, 627-636, 415-434: the members are the json of the two objects; on a common name the second one *)
Definition merge (h : heap) (a b : addr) : outcome cell :=
  match nth_error h a, nth_error h b with
  | Some (CO l), Some (CO m) => Ok (CO (merged l m))
  | Some _, Some _ => Throw
  | _, _ => UB
  end.

Section run.
Context (f : nat).
Definition eval (s : src) (x : state) : outcome (state * addr) :=
  match s with
  | New l => let (h, a) := alloc (fst x) (match l with LS s => CS s | LA => CA [] | LO => CO [] end) in Ok ((h, snd x), a)
  | Share r => at_place r x
  | Clone r => let* (x, a) := at_place r x in let* (h, b) := clone f (fst x) a in Ok ((h, snd x), b)
  end.
Definition step (o : op) (x : state) : outcome state :=
  match o with
  | Put r s => let* (x, v) := eval s x in assign r v x
  | Push r s => let* (x, v) := eval s x in push r v x
  | Merge z deep a b =>
      let* (x, u) := at_place a x in
      let* (x, v) := at_place b x in
      let* c := merge (fst x) u v in
      let* (h, w) := (if deep : bool then clone_with (clone f) (fst x) c else Ok (alloc (fst x) c)) in
      assign (z, []) w (h, snd x)
  end.
Fixpoint run (p : list op) (x : state) : outcome state :=
  match p with [] => Ok x | o :: r => let* x := step o x in run r x end.
End run.
(** n variables: json() each *)
Definition init (n : nat) : state := (repeat (CS Null) n, seq 0 n).

(** The document at an address, if it is finite *)
Section fits.
Context (R : addr -> doc -> Prop).
Inductive fits : cell -> doc -> Prop :=
| f_s s : fits (CS s) (JS s)
| f_a l ts : Forall2 R l ts -> fits (CA l) (JA ts)
| f_o l ts : Forall2 (fun x y => fst x = fst y /\ R (snd x) (snd y)) l ts -> fits (CO l) (JO ts).
End fits.
Inductive val (h : heap) (a : addr) (t : doc) : Prop := val_ c : nth_error h a = Some c -> fits (val h) c t -> val h a t.
(** The document in a variable *)
Definition value (x : state) (z : nat) (t : doc) : Prop := exists a, nth_error (snd x) z = Some a /\ val (fst x) a t.
