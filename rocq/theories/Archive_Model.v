(** Model of the binary archives, src/data/serialization/*.h. *)
From Verif Require Import Common.
Local Open Scope Z_scope.

(** The C++ types with a [serialize] overload.  [TNum n sg] are the arithmetic types of
    [n] bytes (for floating-point types the unsigned bit pattern stands for the value),
    [TSeq] is std::vector, std::deque and std::list, [TArr n] is T[n]; a user class with
    members serialised in order is a nest of [TPair]. *)
Inductive ty : Type :=
| TBool | TNum (n : nat) (sg : bool) | TStr | TSeq (t : ty) | TArr (n : nat) (t : ty) | TPair (a b : ty)
| TSet (t : ty) | TMap (k v : ty) | TUSet (t : ty) | TUMap (k v : ty).

(** Values; [VUndef] is an uninitialised arithmetic variable.  Containers are listed in
    iteration order. *)
Inductive val : Type :=
| VUndef | VB (b : bool) | VN (z : Z) | VS (s : list Z) | VL (l : list val) | VP (a b : val).

(** operator< and == of the types above, as a three-way comparison (lexicographic for
    strings, pairs and containers).  Only meaningful for two values of one type. *)
Fixpoint bytes_cmp (a b : list Z) : comparison :=
  match a, b with
  | [], [] => Eq | [], _ => Lt | _, [] => Gt
  | x :: a', y :: b' => match x ?= y with Eq => bytes_cmp a' b' | c => c end
  end.
Fixpoint vcmp (a b : val) : comparison :=
  match a, b with
  | VB x, VB y => if x then (if y then Eq else Gt) else if y then Lt else Eq
  | VN x, VN y => x ?= y
  | VS x, VS y => bytes_cmp x y
  | VL x, VL y =>
      (fix go (x y : list val) := match x, y with
        | [], [] => Eq | [], _ => Lt | _, [] => Gt
        | a :: x', b :: y' => match vcmp a b with Eq => go x' y' | c => c end
        end) x y
  | VP a1 b1, VP a2 b2 => match vcmp a1 a2 with Eq => vcmp b1 b2 | c => c end
  | _, _ => Eq
  end.

(** The stream: what is left to read, and good(). *)
Definition st : Type := list Z * bool.

(** Little-endian bytes of a number (base.h:190-195; to_little makes the written bytes
    independent of the host, see Endian). *)
Fixpoint le_bytes (n : nat) (z : Z) : list Z :=
  match n with O => [] | S m => z mod 256 :: le_bytes m (z / 256) end.
Fixpoint le_num (l : list Z) : Z := match l with [] => 0 | b :: r => b + 256 * le_num r end.

(** base.h:89-92: is.read(p, n).  A short read consumes what is there and sets the
    failure bits; on a failed stream nothing happens. *)
Definition sread (n : nat) (s : st) : option (list Z) * st :=
  let '(inp, good) := s in
  if good then
    if (n <=? length inp)%nat then (Some (firstn n inp), (skipn n inp, true)) else (None, ([], false))
  else (None, (inp, false)).

(** base.h:116-122; the destination keeps its value on failure.  A [bool] object whose
    byte is neither 0 nor 1 is undefined. *)
Definition read_bool (old : val) (s : st) : outcome (val * st) :=
  match sread 1 s with
  | (Some b, s') => if le_num b =? 0 then Ok (VB false, s') else if le_num b =? 1 then Ok (VB true, s') else UB
  | (None, s') => Ok (old, s')
  end.
Definition read_num (n : nat) (sg : bool) (old : val) (s : st) : outcome (val * st) :=
  match sread n s with
  | (Some b, s') =>
      let u := le_num b in
      Ok (VN (if sg && (2 ^ (8 * Z.of_nat n - 1) <=? u) then u - 2 ^ (8 * Z.of_nat n) else u), s')
  | (None, s') => Ok (old, s')
  end.
(** A uint32_t size variable holding [old]. *)
Definition read_size (old : Z) (s : st) : Z * st :=
  match sread 4 s with (Some b, s') => (le_num b, s') | (None, s') => (old, s') end.
Definition u32 (n : nat) : Z := Z.of_nat n mod 2 ^ 32.

(** One character of a string (string.h:53). *)
Definition read_char (old : Z) (s : st) : Z * st :=
  match sread 1 s with (Some b, s') => (le_num b, s') | (None, s') => (old, s') end.
Fixpoint read_chars (olds : list Z) (s : st) : list Z * st :=
  match olds with
  | [] => ([], s)
  | o :: r => let '(c, s1) := read_char o s in let '(cs, s2) := read_chars r s1 in (c :: cs, s2)
  end.

(** for each destination in turn: ar & v[i]; *)
Fixpoint read_each (rd : val -> st -> outcome (val * st)) (olds : list val) (s : st) : outcome (list val * st) :=
  match olds with
  | [] => Ok ([], s)
  | o :: r => let* (x, s1) := rd o s in let* (xs, s2) := read_each rd r s1 in Ok (x :: xs, s2)
  end.

(** std::set / std::map insertion in order, ignoring an equivalent element; [key] selects
    what is compared. *)
Fixpoint insert_ord (key : val -> val) (x : val) (l : list val) : list val :=
  match l with
  | [] => [x]
  | y :: r => match vcmp (key y) (key x) with Lt => y :: insert_ord key x r | Eq => l | Gt => x :: l end
  end.
(** unordered_set / unordered_map insertion; the iteration order of the hash table is not
    modelled, a new element is listed last. *)
Definition insert_hash (key : val -> val) (x : val) (l : list val) : list val :=
  if existsb (fun y => match vcmp (key y) (key x) with Eq => true | _ => false end) l then l else l ++ [x].

Definition self (v : val) : val := v.
Definition vfst (v : val) : val := match v with VP a _ => a | _ => v end.

(** while(size--){ T v; ar & v; s.insert(v); }  Inserting an uninitialised number is
    undefined. *)
Fixpoint read_insert (n : nat) (rd : val -> st -> outcome (val * st)) (start : val) (ins : val -> list val -> list val)
    (acc : list val) (s : st) : outcome (list val * st) :=
  match n with
  | O => Ok (acc, s)
  | S m => let* (x, s1) := rd start s in
           match x with VUndef => UB | _ => read_insert m rd start ins (ins x acc) s1 end
  end.

(** T(): value-initialisation. *)
Fixpoint dflt (t : ty) : val :=
  match t with
  | TBool => VB false | TNum _ _ => VN 0 | TStr => VS []
  | TSeq _ | TSet _ | TMap _ _ | TUSet _ | TUMap _ _ => VL []
  | TArr n t => VL (repeat (dflt t) n)
  | TPair a b => VP (dflt a) (dflt b)
  end.
(** T v; default-initialisation (std::pair and containers have constructors).  Arrays
    cannot be elements of a set. *)
Definition uninit (t : ty) : val := match t with TBool | TNum _ _ => VUndef | _ => dflt t end.

Definition elems (v : val) : list val := match v with VL l => l | _ => [] end.
Definition chars (v : val) : list Z := match v with VS l => l | _ => [] end.

(** pair.h:43-47: ar & m.first & m.second; *)
Definition read_pair (ra : val -> st -> outcome (val * st)) (da : val) (rb : val -> st -> outcome (val * st)) (db : val)
    (old : val) (s : st) : outcome (val * st) :=
  let '(oa, ob) := match old with VP x y => (x, y) | _ => (da, db) end in
  let* (x, s1) := ra oa s in let* (y, s2) := rb ob s1 in Ok (VP x y, s2).
Definition write_pair (wa wb : val -> list Z) (p : val) : list Z := match p with VP x y => wa x ++ wb y | _ => [] end.

(** ** Reading into a variable holding [old] *)
Fixpoint read (t : ty) (old : val) (s : st) : outcome (val * st) :=
  match t with
  | TBool => read_bool old s
  | TNum n sg => read_num n sg old s
  | TStr =>                                                   (* string.h:45-54 *)
      let o := chars old in
      let '(len, s1) := read_size (u32 (length o)) s in
      let n := Z.to_nat len in
      let '(cs, s2) := read_chars (firstn n o ++ repeat 0 (n - length o)) s1 in
      Ok (VS cs, s2)
  | TSeq t =>                                  (* vector.h:44-66, deque.h:44-65, list.h:44-66 *)
      let o := elems old in
      let '(sz, s1) := read_size (u32 (length o)) s in
      let n := Z.to_nat sz in
      let* (a, s2) := read_each (read t) (firstn n o) s1 in
      let* (b, s3) := read_each (read t) (repeat (dflt t) (n - length a)) s2 in
      Ok (VL (a ++ b), s3)
  | TArr n t =>                                               (* array.h:41-46 *)
      let* (a, s1) := read_each (read t) (firstn n (elems old ++ repeat (dflt t) n)) s in Ok (VL a, s1)
  | TPair a b =>                                              (* pair.h:43-47 *)
      read_pair (read a) (dflt a) (read b) (dflt b) old s
  | TSet t =>                                                 (* set.h:43-64 *)
      let '(sz, s1) := read_size (u32 (length (elems old))) s in
      let* (l, s2) := read_insert (Z.to_nat sz) (read t) (uninit t) (insert_ord self) [] s1 in Ok (VL l, s2)
  | TUSet t =>                                                (* unordered_set.h:44-65 *)
      let '(sz, s1) := read_size (u32 (length (elems old))) s in
      let* (l, s2) := read_insert (Z.to_nat sz) (read t) (uninit t) (insert_hash self) [] s1 in Ok (VL l, s2)
  | TMap a b =>                                               (* map.h:45-66 *)
      let '(sz, s1) := read_size (u32 (length (elems old))) s in
      let* (l, s2) := read_insert (Z.to_nat sz) (read_pair (read a) (dflt a) (read b) (dflt b))
        (VP (dflt a) (dflt b)) (insert_ord vfst) [] s1 in Ok (VL l, s2)
  | TUMap a b =>                                              (* unordered_map.h:44-65 *)
      let '(sz, s1) := read_size (u32 (length (elems old))) s in
      let* (l, s2) := read_insert (Z.to_nat sz) (read_pair (read a) (dflt a) (read b) (dflt b))
        (VP (dflt a) (dflt b)) (insert_hash vfst) [] s1 in Ok (VL l, s2)
  end.

(** ** Writing (same sources).  Nothing is written for a value that is not of the type. *)
Definition wsize (n : nat) : list Z := le_bytes 4 (u32 n).
Fixpoint write (t : ty) (v : val) : list Z :=
  match t, v with
  | TBool, VB b => [if b then 1 else 0]
  | TNum n _, VN z => le_bytes n (z mod 2 ^ (8 * Z.of_nat n))
  | TStr, VS s => wsize (length s) ++ s
  | TSeq t, VL l => wsize (length l) ++ flat_map (write t) l
  | TArr _ t, VL l => flat_map (write t) l
  | TPair a b, VP x y => write_pair (write a) (write b) (VP x y)
  | TSet t, VL l | TUSet t, VL l => wsize (length l) ++ flat_map (write t) l
  | TMap a b, VL l | TUMap a b, VL l =>
      wsize (length l) ++ flat_map (write_pair (write a) (write b)) l
  | _, _ => []
  end.

(** ** Embedded streams (iostream.h:93-131) *)
Fixpoint write_ios (content : list Z) : list Z :=
  match content with
  | [] => [255; 0]
  | c :: r => if c =? 255 then 255 :: 255 :: write_ios r else c :: write_ios r
  end.
(** [c0], [c1]: the array c; [acc] what was written to the destination so far. *)
Fixpoint read_ios_loop (fuel : nat) (c0 c1 : Z) (acc : list Z) (s : st) : outcome (list Z * st) :=
  match fuel with
  | O => Fuel
  | S f =>
      let '(c0, s1) := read_char c0 s in
      if c0 =? 255 then
        let '(c1, s2) := read_char c1 s1 in
        if c1 =? 0 then Ok (rev acc, s2) else read_ios_loop f c0 c1 (255 :: acc) s2
      else read_ios_loop f c0 c1 (c0 :: acc) s1
  end.
Definition read_ios (fuel : nat) (s : st) : outcome (list Z * st) := read_ios_loop fuel 0 0 [] s.
