(** Model of src/lang/cast.h for double, over the number input and output of libstdc++ in the C locale. *)
From Verif Require Import Common NumText_Model Double_Model.
From Verif Require Cast_Model.
Local Open Scope Z_scope.

(** A double: finite, infinite or not a number *)
Inductive fl := Fin (d : double) | Inf (neg : bool) | NaN (neg : bool).

(** ** operator<<: printf("%g"), six digits *)
Definition sig6 (p q : Z) : Z * Z :=
  let x := flog10 p q in
  let '(a, b) := scale 10 p q (x - 5) in
  let n := rhe a b in
  if n =? 10 ^ 6 then (10 ^ 5, x + 1) else (n, x).
Definition fmt6_pos (p q : Z) : list Z :=
  let '(n, x) := sig6 p q in
  let ds := dec_text n in
  if (-4 <=? x) && (x <? 6) then
    if 0 <=? x then firstn (Z.to_nat (x + 1)) ds ++ frac_text (skipn (Z.to_nat (x + 1)) ds)
    else 48 :: frac_text (repeat 48 (Z.to_nat (- x - 1)) ++ ds)
  else firstn 1 ds ++ frac_text (skipn 1 ds) ++
       101 :: (if 0 <=? x then 43 else 45) :: pad2 (dec_text (Z.abs x)).
Definition fmt6 (d : double) : list Z :=
  (if dneg d then [45] else []) ++
  (if dman d =? 0 then [48]
   else if 0 <=? dexp d then fmt6_pos (dman d * 2 ^ dexp d) 1 else fmt6_pos (dman d) (2 ^ (- dexp d))).
Definition insert (v : fl) : list Z :=
  match v with
  | Fin d => fmt6 d
  | Inf neg => (if neg then [45] else []) ++ str "inf"
  | NaN neg => (if neg then [45] else []) ++ str "nan"
  end.

(** ** operator>>: num_get collects what looks like a number, strtod must accept all of it *)
(** Points, digits and one exponent with its sign: dec, sci and mant tell what was seen so far. *)
Fixpoint accum (dec sci mant : bool) (s : list Z) : list Z :=
  match s with
  | [] => []
  | c :: r =>
      if c =? 46 then (if negb dec && negb sci then c :: accum true sci mant r else [])
      else if isdigit c then c :: accum dec sci true r
      else if ((c =? 101) || (c =? 69)) && negb sci && mant then
        101 :: match r with
               | c' :: r' => if (c' =? 43) || (c' =? 45) then c' :: accum dec true mant r' else accum dec true mant r
               | [] => []
               end
      else []
  end.
Definition split_sign (s : list Z) : list Z * list Z :=
  match s with c :: r => if (c =? 43) || (c =? 45) then ([c], r) else ([], s) | [] => ([], []) end.
(** the sign, then the leading zeros as one, then the rest *)
Definition collect (s : list Z) : list Z :=
  let '(sg, s1) := split_sign s in
  let '(z, s2) := spanb (fun c => c =? 48) s1 in
  sg ++ match z with [] => accum false false false s2 | _ => 48 :: accum false false true s2 end.
Definition is_minus (sg : list Z) : bool := match sg with c :: _ => c =? 45 | [] => false end.
(** All of the text as sign, digits and exponent; None if there are no digits or strtod stops early *)
Definition parse_exp (s : list Z) : option Z :=
  match s with
  | [] => Some 0
  | c :: r => if c =? 101 then
                let '(sg, r1) := split_sign r in
                let '(ds, rest) := spanb isdigit r1 in
                match ds, rest with _ :: _, [] => Some (if is_minus sg then - dec_val ds else dec_val ds) | _, _ => None end
              else None
  end.
Definition parse_all (s : list Z) : option (bool * Z * Z) :=
  let '(sg, s1) := split_sign s in
  let '(ip, s2) := spanb isdigit s1 in
  let '(f, s3) := match s2 with c :: r => if c =? 46 then spanb isdigit r else ([], s2) | [] => ([], []) end in
  match ip ++ f with
  | [] => None
  | ds => match parse_exp s3 with Some x => Some (is_minus sg, dec_val ds, x - Z.of_nat (length f)) | None => None end
  end.
(** Rounding p/q to nearest; None is an overflow, which is infinity for strtod and failbit for num_get; underflow is accepted *)
Definition to_near (neg : bool) (p q : Z) : option double :=
  if p =? 0 then Some (mkD neg 0 (-1074)) else
  let e := Z.max (-1074) (flog2 p q - 52) in
  let '(a, b) := scale 2 p q e in
  let m := rhe a b in
  if m =? 2 ^ 53 then (if 971 <? e + 1 then None else Some (mkD neg (2 ^ 52) (e + 1)))
  else if 971 <? e then None
  else Some (mkD neg m e).
Definition dec_near (neg : bool) (D k : Z) : option double :=
  if 0 <=? k then to_near neg (D * 10 ^ k) 1 else to_near neg D (10 ^ (- k)).
Definition extract (s : list Z) : option fl :=
  match parse_all (collect (Cast_Model.skip_ws s)) with
  | Some (neg, D, k) => match dec_near neg D k with Some d => Some (Fin d) | None => None end
  | None => None
  end.

(** cast.h:66-74 with Source = double *)
Definition to_string (v : fl) : list Z := insert v.
(** cast.h:76-86 with Target = double; the same with a char* source by cast.h:45-56 (database/postgresql/value.cpp:103) *)
Definition from_string (s : list Z) : outcome fl := match extract s with Some v => Ok v | None => Throw end.
(** cast.h:45-56 from an integral type and to one *)
Definition from_integral (t : Cast_Model.ty) (n : Z) : outcome fl := match extract (Cast_Model.insert t n) with Some v => Ok v | None => Throw end.
Definition to_integral (t : Cast_Model.ty) (v : fl) : outcome Z := match Cast_Model.extract t (insert v) with Some n => Ok n | None => Throw end.
(** cast.h:58-64 *)
Definition to_double_same (v : fl) : outcome fl := Ok v.
