(** Model of src/data/sparse_matrix/sparse_matrix.cpp on top of Code_Model.  A matrix on disk is the contents of its two files; opening them
    succeeds and all is written.  int is 32 bits little-endian.  Messages to stderr are left out.  &bytes[0] of an empty vector
    (code.cpp:68, with size 0) is taken as harmless. *)
From Verif Require Import Common Code_Model Sparse_Spec.
From Verif Require Random_Model.
Local Open Scope Z_scope.

Definition int_of (x : Z) : Z := (x + 2 ^ 31) mod 2 ^ 32 - 2 ^ 31.
(** int arithmetic: overflow is undefined *)
Definition i32 (z : Z) : outcome Z := if (- 2 ^ 31 <=? z) && (z <? 2 ^ 31) then Ok z else UB.
Definition le4 (z : Z) : list Z := let u := z mod 2 ^ 32 in [u mod 256; u / 256 mod 256; u / 65536 mod 256; u / 16777216].
Definition rd4 (l : list Z) : Z := int_of (le_val (firstn 4 l)).
Definition files : Type := list Z * list Z. (* fnMat, fnMat.offset *)

(** * sparse_matrix_writer *)
(** sparse_matrix.cpp:242-247, 258-263: both kinds of row in their order *)
Fixpoint put_row (prev : Z) (r : row) (e : enc) : outcome enc :=
  match r with
  | [] => Ok e
  | (c, v) :: r => let* d := i32 (c - prev) in let* e := enc_prefix (u32 d) e in put_row c r (enc_byte v e)
  end.
(** the data file, rowInfos as (num, size), the last of offsets *)
Record writer := mkW { data : list Z; infos : list (Z * Z); last_offset : option Z }.
Definition open_w : writer := mkW [] [] None.
(** sparse_matrix.cpp:233-266 and matrix_offsets::append_row (177-186), whose offsets are only computed *)
Definition append_row (r : row) (w : writer) : outcome writer :=
  let* e := put_row (-1) r enc_init in
  let b := get_bytes e in
  let size := int_of (Z.of_nat (length b)) in let num := int_of (Z.of_nat (length r)) in
  let* o := match last_offset w with None => Ok 0 | Some o => i32 (o + size) end in
  Ok (mkW (data w ++ b) (infos w ++ [(num, size)]) (Some o)).
(** sparse_matrix.cpp:223-231, 125-140 *)
Definition close_w (w : writer) : files :=
  (data w, le4 (Z.of_nat (length (infos w))) ++ concat (map (fun i => le4 (fst i) ++ le4 (snd i)) (infos w))).
Fixpoint append_rows (m : list row) (w : writer) : outcome writer :=
  match m with [] => Ok w | r :: m => let* w := append_row r w in append_rows m w end.
Definition write (m : list row) : outcome files := let* w := append_rows m open_w in Ok (close_w w).

(** * sparse_matrix_reader *)
Record reader := mkR { dc : dec; r_infos : list (Z * Z); r_offsets : list Z }.
(** sparse_matrix.cpp:104-109: what the file does not give stays 0 *)
Fixpoint read_infos (n : nat) (l : list Z) : list (Z * Z) :=
  match n with O => [] | S n => (rd4 l, rd4 (skipn 4 l)) :: read_infos n (skipn 8 l) end.
(** sparse_matrix.cpp:110-113 *)
Fixpoint sum_up (o : Z) (l : list (Z * Z)) : outcome (list Z) :=
  match l with
  | [] => Ok []
  | [_] => Ok [o]
  | (_, s) :: l => let* o' := i32 (o + s) in let* os := sum_up o' l in Ok (o :: os)
  end.
(** sparse_matrix.cpp:292-303, 93-116.  rowNum is not initialised if the file is too short; a vector cannot have a negative size *)
Definition open_r (f : files) : outcome reader :=
  if Nat.ltb (length (snd f)) 4 then UB else
  let n := rd4 (snd f) in
  if n <? 0 then Throw else
  let is := read_infos (Z.to_nat n) (skipn 4 (snd f)) in
  let* os := sum_up 0 is in Ok (mkR (attach_stream (fst f)) is os).
(** sparse_matrix.cpp:314-318 *)
Definition row_num (r : reader) : Z := Z.of_nat (length (r_infos r)).
(** sparse_matrix.cpp:147-175 *)
Definition num (r : reader) (i : Z) : outcome Z :=
  if row_num r <=? i then Ok (-1) else if i <? 0 then UB else match nth_error (r_infos r) (Z.to_nat i) with Some p => Ok (fst p) | None => UB end.
Definition offset (r : reader) (i : Z) : outcome Z :=
  if Z.of_nat (length (r_offsets r)) <=? i then Ok (-1) else if i <? 0 then UB else match nth_error (r_offsets r) (Z.to_nat i) with Some o => Ok o | None => UB end.
Definition get_row_size (r : reader) (i : Z) : outcome Z := num r i.
(** sparse_matrix.cpp:337-343 *)
Fixpoint read_row (n : nat) (col : Z) (d : dec) : outcome row :=
  match n with
  | O => Ok []
  | S n => let* (x, d) := dec_prefix d in let col := int_of (col + x) in let* (v, d) := dec_byte d in let* r := read_row n col d in Ok ((col, v) :: r)
  end.
(** sparse_matrix.cpp:326-344, code.cpp:178-181; None: the vector is left as it was *)
Definition get_row (r : reader) (i : Z) : outcome (option row) :=
  let* n := num r i in
  if n <? 0 then Ok None else
  let* o := offset r i in
  let* l := read_row (Z.to_nat n) (-1) (mkDec (dbuf (dc r)) o 0) in Ok (Some l).
(** sparse_matrix.cpp:346-380: entries go into a std::map *)
Definition into_map (l : row) (m : row) : row := fold_left (fun m e => Random_Model.insert m (fst e) (snd e)) l m.
Definition get_row_map (r : reader) (i : Z) (m : row) : outcome row := let* l := get_row r i in Ok match l with Some l => into_map l m | None => m end.

(** * matrix_transpose *)
(** all rows by get_row *)
Fixpoint get_rows (r : reader) (i : Z) (n : nat) : outcome (list row) :=
  match n with
  | O => Ok []
  | S n => let* l := get_row r i in let* ls := get_rows r (i + 1) n in Ok (match l with Some l => l | None => [] end :: ls)
  end.
(** sparse_matrix.cpp:419-423 *)
Fixpoint count_row (l : row) (t : list Z) : outcome (list Z) :=
  match l with
  | [] => Ok t
  | (c, _) :: l => let t := if Z.of_nat (length t) <=? c then t ++ repeat 0 (Z.to_nat (c + 1) - length t) else t in
                   if c <? 0 then UB else
                   let* n := i32 (nth (Z.to_nat c) t 0 + 1) in count_row l (firstn (Z.to_nat c) t ++ n :: skipn (S (Z.to_nat c)) t)
  end.
Fixpoint count_rows (ls : list row) (t : list Z) : outcome (list Z) :=
  match ls with [] => Ok t | l :: ls => let* t := count_row l t in count_rows ls t end.
(** sparse_matrix.cpp:440-451 *)
Fixpoint bounds (limit : Z) (t : list Z) (i sum : Z) : list Z :=
  match t with
  | [] => if 0 <? sum then [i] else []
  | n :: t => let sum := (sum + n) mod 2 ^ 64 in if limit <=? sum then (i + 1) :: bounds limit t (i + 1) 0 else bounds limit t (i + 1) sum
  end.
(** sparse_matrix.cpp:466-468 *)
Fixpoint scatter (st en j : Z) (l : row) (h : list row) : list row :=
  match l with
  | [] => h
  | (c, v) :: l => scatter st en j l
      (if (st <=? c) && (c <? en) then
         let k := Z.to_nat (c - st) in firstn k h ++ Random_Model.insert (nth k h []) j v :: skipn (S k) h
       else h)
  end.
Fixpoint scatter_rows (st en j : Z) (ls : list row) (h : list row) : list row :=
  match ls with [] => h | l :: ls => scatter_rows st en (j + 1) ls (scatter st en j l h) end.
(** sparse_matrix.cpp:456-472: every block reads all rows again *)
Fixpoint parts (r : reader) (st : Z) (bs : list Z) (w : writer) : outcome writer :=
  match bs with
  | [] => Ok w
  | en :: bs =>
      let* ls := get_rows r 0 (Z.to_nat (row_num r)) in
      let* w := append_rows (scatter_rows st en 0 ls (repeat [] (Z.to_nat (en - st)))) w in
      parts r en bs w
  end.
(** sparse_matrix.cpp:394-477; free: get_sysstat's free memory, None if that fails.  None: -1 is returned *)
Definition transpose (free : option Z) (f : files) : outcome (option files) :=
  let* r := open_r f in
  let* ls := get_rows r 0 (Z.to_nat (row_num r)) in
  let* t := count_rows ls [] in
  match free with
  | None => Ok None
  | Some m => let* w := parts r 0 (bounds (m / 20) t 0 0) open_w in Ok (Some (close_w w))
  end.
