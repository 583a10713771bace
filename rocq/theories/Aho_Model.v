(** Model of src/data/string/aho_corasick.{h,cpp}.  int is unbounded; vectors are functions with a size,
    and an access outside is undefined behaviour. *)
From Verif Require Import Common.
From Verif Require Archive_Model.
Local Open Scope Z_scope.

(** aho_corasick.h:52-59 *)
Record node : Type := { base : Z; check : Z; fail : Z; output : Z }.
Definition new_node : node := {| base := 0; check := -1; fail := -1; output := -1 |}.
(** std::vector<node> *)
Record arr : Type := { size : Z; cell : Z -> node }.
Definition get (a : arr) (i : Z) : outcome node := if (0 <=? i) && (i <? size a) then Ok (cell a i) else UB.
Definition put (a : arr) (i : Z) (n : node) : outcome arr :=
  if (0 <=? i) && (i <? size a) then Ok {| size := size a; cell := fun j => if j =? i then n else cell a j |} else UB.
Definition resize (a : arr) (n : Z) : arr := {| size := n; cell := fun j => if j <? Z.min n (size a) then cell a j else new_node |}.
Definition set_base (v : Z) (n : node) : node := {| base := v; check := check n; fail := fail n; output := output n |}.
Definition set_check (v : Z) (n : node) : node := {| base := base n; check := v; fail := fail n; output := output n |}.
Definition set_fail (v : Z) (n : node) : node := {| base := base n; check := check n; fail := v; output := output n |}.
Definition set_output (v : Z) (n : node) : node := {| base := base n; check := check n; fail := fail n; output := v |}.
(** nodes[i].field = v *)
Definition modify (a : arr) (i : Z) (f : node -> node) : outcome arr := let* n := get a i in put a i (f n).

(** std::sort of the pairs, aho_corasick.cpp:44-51.  All pairs are different, so any sorting gives this. *)
Definition pair_leb (a b : list Z * Z) : bool :=
  match Archive_Model.bytes_cmp (fst a) (fst b) with Lt => true | Eq => snd a <=? snd b | Gt => false end.
Fixpoint ins (x : list Z * Z) (l : list (list Z * Z)) : list (list Z * Z) :=
  match l with [] => [x] | y :: r => if pair_leb x y then x :: l else y :: ins x r end.
Definition sort_pairs (l : list (list Z * Z)) : list (list Z * Z) := fold_right ins [] l.
Fixpoint number (k : Z) (words : list (list Z)) : list (list Z * Z) :=
  match words with [] => [] | w :: r => (w, k) :: number (k + 1) r end.

Section construct.
Context (words : list (list Z * Z)).

(** :83: dep<length ? (unsigned char)word[dep] : 0 *)
Definition char_at (dep : nat) (w : list Z) : Z := match nth_error w dep with Some c => c | None => 0 end.
(** :82-86: tbl and children; tally runs over i = 0 … n-1.  At most 256 different values occur. *)
Definition tally (st : (Z -> Z) * list Z) (c : Z) : (Z -> Z) * list Z :=
  let '(tbl, children) := st in
  (fun i => if i =? c then tbl c + 1 else tbl i, if tbl c =? 0 then children ++ [c] else children).
Fixpoint scan (n : nat) (dep ix : nat) (st : (Z -> Z) * list Z) : outcome ((Z -> Z) * list Z) :=
  match n with
  | O => Ok st
  | S m => match nth_error words ix with
           | None => UB
           | Some (w, _) => scan m dep (S ix) (tally st (char_at dep w))
           end
  end.

(** :91-98: do all children fit? *)
Fixpoint fits (a : arr) (b : Z) (cs : list Z) : outcome bool :=
  match cs with
  | [] => Ok true
  | c :: r => let* n := get a (b + c) in if 0 <=? check n then Ok false else fits a b r
  end.
(** :88-100 *)
Definition skip0 (children : list Z) : list Z := match children with c :: r => if c =? 0 then r else children | [] => [] end.
Fixpoint find_base (fuel : nat) (a : arr) (b : Z) (cs : list Z) : outcome Z :=
  match fuel with
  | O => Fuel
  | S f => let* ok := fits a b cs in if ok then Ok b else find_base f a (b + 1) cs
  end.

(** A stack entry: pos, dep, ix, n. *)
Record item : Type := { i_pos : Z; i_dep : nat; i_ix : nat; i_n : nat }.
(** :103-112 *)
Fixpoint add_children (a : arr) (pos : Z) (dep ix : nat) (tbl : Z -> Z) (cur : Z) (cs : list Z) (st : list item) : outcome (arr * list item) :=
  match cs with
  | [] => Ok (a, st)
  | c :: r =>
      let* (a1, st1) :=
        if (0 <? c) && (0 <? tbl c) then
          let* n := get a pos in
          let nix := base n + c in
          let a := if size a <=? nix + 256 then resize a (nix + 256) else a in
          let* a1 := modify a nix (set_check pos) in
          Ok (a1, {| i_pos := nix; i_dep := S dep; i_ix := ix + Z.to_nat cur; i_n := Z.to_nat (tbl c) |} :: st)
        else Ok (a, st) in
      add_children a1 pos dep ix tbl (cur + tbl c) r st1
  end.
(** :70-115, one turn *)
Definition build1 (a : arr) (bef : Z) (it : item) (st : list item) : outcome (arr * Z * list item) :=
  let pos := i_pos it in let dep := i_dep it in let ix := i_ix it in
  let* a1 := match nth_error words ix with
             | None => UB
             | Some (w, k) => if Nat.eqb (length w) dep then modify a pos (set_output k) else Ok a
             end in
  let* (tbl, children) := scan (i_n it) dep ix (fun _ => 0, []) in
  let* b := find_base (S (Z.to_nat (size a1))) a1 (Z.max 1 (bef - 32)) (skip0 children) in
  let* a2 := modify a1 pos (set_base b) in
  let* (a3, st') := add_children a2 pos dep ix tbl 0 children st in
  Ok (a3, b, st').
Fixpoint build (fuel : nat) (a : arr) (bef : Z) (st : list item) : outcome arr :=
  match fuel with
  | O => Fuel
  | S f => match st with
           | [] => Ok a
           | it :: r => let* (x, st') := build1 a bef it r in let '(a', bef') := x in build f a' bef' st'
           end
  end.
Definition total_len : nat := fold_right (fun w n => (length (fst w) + n)%nat) 0%nat words.
End construct.

(** :130: while (m>=0 && nodes[nodes[m].base+i].check!=m) m=nodes[m].fail; *)
Fixpoint chase (fuel : nat) (a : arr) (i m : Z) : outcome Z :=
  match fuel with
  | O => Fuel
  | S f =>
      if m <? 0 then Ok m else
      let* n := get a m in
      let* k := get a (base n + i) in
      if check k =? m then Ok m else chase f a i (fail n)
  end.
(** :125-135, for i from [256 - length] up; q is the queue's new part, [room] how much q[] still holds. *)
Fixpoint link_children (k : nat) (a : arr) (pos : Z) (room : Z) (q : list Z) : outcome (arr * Z * list Z) :=
  match k with
  | O => Ok (a, room, q)
  | S m =>
      let i := 255 - Z.of_nat m in
      let* n := get a pos in
      let* ch := get a (base n + i) in
      if negb (check ch =? pos) then link_children m a pos room q else
      let* r := chase (S (Z.to_nat (size a))) a i (fail n) in
      let* target := (if 0 <=? r then let* mn := get a r in Ok (base mn + i) else Ok 0) in
      let* a1 := modify a (base n + i) (set_fail target) in
      if room <=? 0 then UB else link_children m a1 pos (room - 1) (q ++ [base n + i])
  end.
(** :116-136 *)
Fixpoint link (fuel : nat) (a : arr) (room : Z) (q : list Z) : outcome arr :=
  match fuel with
  | O => Fuel
  | S f =>
      match q with
      | [] => Ok a
      | pos :: q =>
          let* n := get a pos in
          let* a1 := (if 0 <? pos then
                        let* fn := get a (fail n) in
                        if negb (output fn =? -1) && (output n =? -1) then modify a pos (set_output (-2)) else Ok a
                      else Ok a) in
          let* (x, q') := link_children 256 a1 pos room q in
          let '(a2, room') := x in
          link f a2 room' q'
      end
  end.

(** :43-51, :53-138 *)
Definition construct (dict : list (list Z)) : outcome (option arr) :=
  let words := sort_pairs (number 0 dict) in
  match words with
  | [] => Ok None
  | _ =>
      let* a := build words (S (S (total_len words))) (resize {| size := 0; cell := fun _ => new_node |} 257) 1
                  [{| i_pos := 0; i_dep := 0; i_ix := 0; i_n := length words |}] in
      let* a := link (S (Z.to_nat (size a))) a (size a - 1) [0] in
      Ok (Some a)
  end.

(** :146: while(pos>0 && nodes[nodes[pos].base+c].check!=pos) pos=nodes[pos].fail; *)
Fixpoint fall (fuel : nat) (a : arr) (c pos : Z) : outcome Z :=
  match fuel with
  | O => Fuel
  | S f =>
      if pos <=? 0 then Ok pos else
      let* n := get a pos in
      let* k := get a (base n + c) in
      if check k =? pos then Ok pos else fall f a c (fail n)
  end.
(** :151-157 *)
Fixpoint report (fuel : nat) (a : arr) (cur e : Z) : outcome (list (Z * Z)) :=
  match fuel with
  | O => Fuel
  | S f =>
      if cur =? 0 then Ok [] else
      let* n := get a cur in
      let* r := report f a (fail n) e in
      Ok (if 0 <=? output n then (output n, e) :: r else r)
  end.
(** :139-160 *)
Fixpoint search_from (a : arr) (pos i : Z) (s : list Z) : outcome (list (Z * Z)) :=
  match s with
  | [] => Ok []
  | c :: r =>
      let fuel := S (Z.to_nat (size a)) in
      let* pos1 := fall fuel a c pos in
      let* n := get a pos1 in
      let* k := get a (base n + c) in
      if negb (check k =? pos1) then search_from a pos1 (i + 1) r else
      let pos2 := base n + c in
      let* n2 := get a pos2 in
      let* out := (if negb (output n2 =? -1) then report fuel a pos2 (i + 1) else Ok []) in
      let* rest := search_from a pos2 (i + 1) r in
      Ok (out ++ rest)
  end.
Definition search (dict : list (list Z)) (s : list Z) : outcome (list (Z * Z)) :=
  let* o := construct dict in
  match o with None => Ok [] | Some a => search_from a 0 0 s end.

(** :154: the place i+1 is a size_t and becomes an [int], of which the low 32 bits are kept. *)
Definition to_int (x : Z) : Z := (x + 2 ^ 31) mod 2 ^ 32 - 2 ^ 31.
(** :139-160 with the places that come out. *)
Definition search_int (dict : list (list Z)) (s : list Z) : outcome (list (Z * Z)) :=
  let* r := search dict s in Ok (map (fun p => (fst p, to_int (snd p))) r).
