(** Model of the objects sparse_matrix_writer and sparse_matrix_reader over a file system (src/data/sparse_matrix/sparse_matrix.cpp), on top
    of Sparse_Model.  Files that cannot be opened and bytes that do not reach the disk are the environment's choice, operation by operation.
    File names are without NUL.  The contents of a file that is being written are on the disk up to some point only. *)
From Verif Require Import Common Code_Model Sparse_Spec Sparse_Model.
Local Open Scope Z_scope.

Definition name : Type := list Z.
Definition offset_name (n : name) : name := n ++ str ".offset".
Definition fs : Type := name -> option (list Z).
Definition same_name (a b : name) : bool := if list_eq_dec Z.eq_dec a b then true else false.
Definition put (f : fs) (n : name) (c : list Z) : fs := fun k => if same_name k n then Some c else f k.

(** What the system does during one operation: whether the matrix file and the offset file can be opened; how many bytes reach the disk
    (None: all) of the one and the other; how many bytes of a file that is being written can be read *)
Record env := Env { can_open : bool; can_open_offset : bool; kept : option nat; kept_offset : option nat; flushed : nat }.
Definition cut (k : option nat) (s : list Z) : list Z := match k with Some k => firstn k s | None => s end.

(** The writer: nothing, or an open file with its matrix_offsets (sparse_matrix.h:75-76).  matrix_offsets::open for writing does not
    touch the disk and never fails (sparse_matrix.cpp:93-116), so the file is open if and only if offsets is not NULL. *)
Definition wobj : Type := option (name * writer).
(** The reader: the buffer of dc, if any, and rowInfos and offsets, if any (sparse_matrix.h:114-115) *)
Record robj := RObj { r_dc : option dec; r_offs : option (list (Z * Z) * list Z) }.
Definition rclosed : robj := RObj None None.

(** sparse_matrix.cpp:223-231, 125-140 *)
Definition close_writer (e : env) (f : fs) (w : wobj) : fs :=
  match w with
  | None => f
  | Some (n, w) =>
      let (d, o) := close_w w in
      let f := put f n (cut (kept e) d) in
      if can_open_offset e then put f (offset_name n) (cut (kept_offset e) o) else f
  end.
(** sparse_matrix.cpp:199-202: the offsets are not flushed; the destructor of ofs closes the file *)
Definition destroy_writer (e : env) (f : fs) (w : wobj) : fs :=
  match w with None => f | Some (n, w) => put f n (cut (kept e) (data w)) end.
(** sparse_matrix.cpp:204-221 *)
Definition open_writer (e : env) (f : fs) (w : wobj) (n : name) : fs * wobj * Z :=
  let f := close_writer e f w in
  if can_open e then (put f n [], Some (n, open_w), 0) else (f, None, -1).
(** sparse_matrix.cpp:233-266 *)
Definition append (w : wobj) (r : row) : outcome wobj :=
  match w with None => Ok None | Some (n, w) => let* w := append_row r w in Ok (Some (n, w)) end.
(** sparse_matrix.cpp:268-270 *)
Definition writer_row_num (w : wobj) : outcome Z := match w with None => UB | Some (_, w) => Ok (int_of (Z.of_nat (length (infos w)))) end.

(** What is on the disk *)
Definition on_disk (e : env) (f : fs) (w : wobj) (n : name) : option (list Z) :=
  match w with Some (n', w) => if same_name n n' then Some (firstn (flushed e) (data w)) else f n | None => f n end.
(** sparse_matrix.cpp:292-303 with code.cpp:147-160 and matrix_offsets::open (93-116); the result of dc.attach is not looked at *)
Definition open_reader (e : env) (f : fs) (w : wobj) (n : name) : outcome (robj * Z) :=
  let d := if can_open e then option_map attach_stream (on_disk e f w n) else None in
  match (if can_open_offset e then on_disk e f w (offset_name n) else None) with
  | None => Ok (RObj d (Some ([], [])), -1)
  | Some o => let* r := open_r ([], o) in Ok (RObj d (Some (r_infos r, r_offsets r)), 0)
  end.
(** sparse_matrix.cpp:314-324; the reader of Sparse_Model *)
Definition as_reader (d : dec) (o : list (Z * Z) * list Z) : reader := mkR d (fst o) (snd o).
Definition no_dec : dec := attach_stream [].
Definition reader_row_num (r : robj) : Z := match r_offs r with None => 0 | Some o => row_num (as_reader no_dec o) end.
Definition reader_row_size (r : robj) (i : Z) : outcome Z := match r_offs r with None => Ok 0 | Some o => get_row_size (as_reader no_dec o) i end.
(** sparse_matrix.cpp:326-344; None: the vector is left as it was *)
Definition reader_row (r : robj) (i : Z) : outcome (option row) :=
  match r_dc r, r_offs r with Some d, Some o => get_row (as_reader d o) i | _, _ => Ok None end.

(** * Programs with one writer and one reader.  [WNew]: the writer is destroyed and another made. *)
Inductive op := WOpen (n : name) | WAppend (r : row) | WClose | WNew | WNum | ROpen (n : name) | RClose | RNum | RSize (i : Z) | RRow (i : Z).
Inductive res := Done | Int (z : Z) | Row (r : option row).
Record state := State { disk : fs; wtr : wobj; rdr : robj }.
Definition step (e : env) (o : op) (s : state) : outcome (state * res) :=
  match o with
  | WOpen n => let '(f, w, z) := open_writer e (disk s) (wtr s) n in Ok (State f w (rdr s), Int z)
  | WAppend r => let* w := append (wtr s) r in Ok (State (disk s) w (rdr s), Done)
  | WClose => Ok (State (close_writer e (disk s) (wtr s)) None (rdr s), Done)
  | WNew => Ok (State (destroy_writer e (disk s) (wtr s)) None (rdr s), Done)
  | WNum => let* z := writer_row_num (wtr s) in Ok (s, Int z)
  | ROpen n => let* (r, z) := open_reader e (disk s) (wtr s) n in Ok (State (disk s) (wtr s) r, Int z)
  | RClose => Ok (State (disk s) (wtr s) rclosed, Done)
  | RNum => Ok (s, Int (reader_row_num (rdr s)))
  | RSize i => let* z := reader_row_size (rdr s) i in Ok (s, Int z)
  | RRow i => let* r := reader_row (rdr s) i in Ok (s, Row r)
  end.
Fixpoint run (l : list (env * op)) (s : state) : outcome (state * list res) :=
  match l with
  | [] => Ok (s, [])
  | (e, o) :: l => let* (s, x) := step e o s in let* (s, xs) := run l s in Ok (s, x :: xs)
  end.
Definition start (f : fs) : state := State f None rclosed.

(** * matrix_transpose with names (sparse_matrix.cpp:394-477): the source is read in full before anything is written.
    [ea], [eb]: the system while opening the source, and for the destination; no other object has these files open. *)
Definition all_rows (r : robj) : outcome (list row) :=
  match r_dc r, r_offs r with
  | Some d, Some o => get_rows (as_reader d o) 0 (Z.to_nat (reader_row_num r))
  | _, _ => Ok (repeat [] (Z.to_nat (reader_row_num r)))
  end.
Definition matrix_transpose (ea eb : env) (free : option Z) (f : fs) (a b : name) : outcome (fs * Z) :=
  let* (r, z) := open_reader ea f None a in
  if z <? 0 then Ok (f, -1) else
  let '(f, w, z) := open_writer eb f None b in
  if z <? 0 then Ok (f, -1) else
  let* ls := all_rows r in
  let* t := count_rows ls [] in
  match free with
  | None => Ok (destroy_writer eb f w, -1)
  | Some m =>
      match r_dc r, r_offs r with
      | Some d, Some o => let* w := parts (as_reader d o) 0 (bounds (m / 20) t 0 0) open_w in Ok (close_writer eb f (Some (b, w)), 0)
      | _, _ => Ok (close_writer eb f w, 0)
      end
  end.
