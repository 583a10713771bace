(** Model of src/text/csv.h and src/text/csv.cpp for iterators into a std::string. *)
From Verif Require Import Common.
Local Open Scope Z_scope.

(** [ *p]: reading at the end iterator is undefined behaviour. *)
Definition rd (s : list Z) : outcome Z := match s with [] => UB | c :: _ => Ok c end.

(** The state within a row: what is left of the input, the bytes of the current field,
    bufcnt and buf.size().  The fields themselves are kept instead of pointers into buf:
    csv.h:163-168 (extend) moves the pointers along with the buffer. *)
Record fst_t := mkF { rest : list Z; fld : list Z; cnt : Z; size : Z }.

(** csv.h:124-125, 131-132: [if (bufcnt>=buf.size()) extend(); buf[bufcnt++]=c] *)
Definition store (st : fst_t) (c : Z) (r : list Z) : outcome fst_t :=
  let sz := if size st <=? cnt st then size st * 2 else size st in
  if cnt st <? sz then Ok (mkF r (fld st ++ [c]) (cnt st + 1) sz) else UB.

(** csv.h:119-126: inside quotes *)
Fixpoint quoted (f : nat) (st : fst_t) : outcome fst_t :=
  match f with
  | O => Fuel
  | S f' =>
      let* c := rd (rest st) in
      if c =? 34 then
        let r := tl (rest st) in
        let* d := rd r in
        if negb (d =? 34) then Ok (mkF r (fld st) (cnt st) (size st))
        else let* st' := store st d (tl r) in quoted f' st'
      else let* st' := store st c (tl (rest st)) in quoted f' st'
  end.
(** csv.h:127: [while(p != q && *p!=',' && *p!='\n') p++] *)
Fixpoint skip (s : list Z) : list Z :=
  match s with
  | [] => []
  | c :: r => if (c =? 44) || (c =? 10) then s else skip r
  end.
(** csv.h:130-133 *)
Fixpoint plain (s : list Z) (st : fst_t) : outcome fst_t :=
  match s with
  | [] => Ok st
  | c :: r => if (c =? 44) || (c =? 13) || (c =? 10) then Ok st
              else let* st' := store st c r in plain r st'
  end.

(** csv.h:110-145 next(), after the test for the end of the input *)
Fixpoint row (f : nat) (s : list Z) (cnt0 size0 : Z) (cur : list (list Z)) : outcome (list (list Z) * list Z * Z) :=
  match f with
  | O => Fuel
  | S f' =>
      let* c := rd s in
      let* st := (if c =? 34
                  then let* st := quoted (length s) (mkF (tl s) [] cnt0 size0) in
                       Ok (mkF (skip (rest st)) (fld st) (cnt st) (size st))
                  else plain s (mkF s [] cnt0 size0)) in
      (* csv.h:136: no extend here *)
      if negb (cnt st <? size st) then UB else
      let cnt1 := cnt st + 1 in
      let cur' := cur ++ [fld st] in
      match rest st with
      | [] => Ok (cur', [], size st)
      | c :: r =>
          let p := if c =? 13 then r else rest st in
          let* d := rd p in
          if d =? 10 then Ok (cur', tl p, size st)
          else row f' (tl p) cnt1 (size st) cur'
      end
  end.

(** A field is handed out as a C string. *)
Fixpoint c_string (s : list Z) : list Z :=
  match s with [] => [] | c :: r => if c =? 0 then [] else c :: c_string r end.

(** csv.cpp:41-50 parse_csv, with csv_iterator's constructor and operator++ (csv.h:183-185, 218-222). *)
Fixpoint rows (f : nat) (s : list Z) (size0 : Z) : outcome (list (list (list Z))) :=
  match f with
  | O => Fuel
  | S f' =>
      match s with
      | [] => Ok []
      | _ => let* x := row (S (length s)) s 0 size0 [] in
             let '(cur, r, sz) := x in
             let* rs := rows f' r sz in Ok (map c_string cur :: rs)
      end
  end.
Definition parse_csv (s : list Z) : outcome (list (list (list Z))) := rows (S (length s)) s 1024.
