(** IEEE binary64 numbers as text: the C library functions strtod and printf("%.12g") that
    src/text/json uses (parser.cpp:284, base.h:264-265 through ostream with precision 12).
    These are library functions, not code of /repo; they are modelled by what the C standard
    and glibc document: correct rounding to nearest, ties to even, in both directions. *)
From Verif Require Import Common NumText_Model.
Local Open Scope Z_scope.

(** A finite double: (-1)^neg * man * 2^exp. *)
Record double := mkD { dneg : bool; dman : Z; dexp : Z }.

(** The representable ones, each in its canonical form. *)
Definition valid_double (d : double) : bool :=
  (0 <=? dman d) && (dman d <? 2 ^ 53) && (-1074 <=? dexp d) && (dexp d <=? 971) &&
  ((2 ^ 52 <=? dman d) || (dexp d =? -1074)).

(** [p/q] rounded to an integer, ties to even. *)
Definition rhe (p q : Z) : Z :=
  let d := p / q in let r := p mod q in
  if 2 * r <? q then d else if q <? 2 * r then d + 1 else if Z.even d then d else d + 1.

(** [(p/q) / b^e] as a fraction. *)
Definition scale (b p q e : Z) : Z * Z :=
  if 0 <=? e then (p, q * b ^ e) else (p * b ^ (- e), q).

(** floor (log2 (p/q)) *)
Definition flog2 (p q : Z) : Z :=
  let l := Z.log2 p - Z.log2 q in
  let '(a, b) := scale 2 p q l in if b <=? a then l else l - 1.

(** floor (log10 (p/q)) *)
Definition flog10 (p q : Z) : Z :=
  if q <=? p then Z.of_nat (length (digits 10 (p / q))) - 1
  else - Z.of_nat (length (digits 10 ((q + p - 1) / p - 1))).

Inductive dres := DOk (d : double) | DRange.

(** Below the normal range even after rounding to 53 bits: p/q < 2^-1022 - 2^-1076. *)
Definition tiny (p q : Z) : bool := p * 2 ^ 1076 <? q * (2 ^ 54 - 1).

(** Conversion of [p/q >= 0]; [DRange] is errno = ERANGE: overflow, or a result below the
    normal range that is not exact (glibc, where the processor detects tininess after rounding). *)
Definition to_double (neg : bool) (p q : Z) : dres :=
  if p =? 0 then DOk (mkD neg 0 (-1074)) else
  let e := Z.max (-1074) (flog2 p q - 52) in
  let '(a, b) := scale 2 p q e in
  let m := rhe a b in
  if m =? 2 ^ 53 then (if 971 <? e + 1 then DRange else DOk (mkD neg (2 ^ 52) (e + 1)))
  else if 971 <? e then DRange
  else if tiny p q && negb (m * b =? a) then DRange
  else DOk (mkD neg m e).

(** The optional exponent of a decimal number text: e, optional sign, at least one digit. *)
Definition exp_part (s : list Z) : Z :=
  match s with
  | c :: r =>
      if (c =? 101) || (c =? 69) then
        match r with
        | 45 :: r' => match fst (spanb isdigit r') with [] => 0 | ds => - dec_val ds end
        | 43 :: r' => dec_val (fst (spanb isdigit r'))
        | _ => dec_val (fst (spanb isdigit r))
        end
      else 0
  | [] => 0
  end.

(** D * 10^k *)
Definition dec_double (neg : bool) (D k : Z) : dres :=
  if 0 <=? k then to_double neg (D * 10 ^ k) 1 else to_double neg D (10 ^ (- k)).

(** strtod on the texts parse_number collects (optional '-', digits, '.', exponent).  Without
    any digit there is no conversion and the result is 0. *)
Definition strtod (s : list Z) : dres :=
  let '(neg, s1) := match s with 45 :: r => (true, r) | _ => (false, s) end in
  let '(ip, s2) := spanb isdigit s1 in
  let '(fp, s3) := match s2 with 46 :: r => spanb isdigit r | _ => ([], s2) end in
  match ip ++ fp with
  | [] => DOk (mkD false 0 (-1074))
  | ds => dec_double neg (dec_val ds) (exp_part s3 - Z.of_nat (length fp))
  end.

(** ** printf("%.12g") *)

(** Removing trailing zeros. *)
Definition strip0 (s : list Z) : list Z := rev (snd (spanb (fun c => c =? 48) (rev s))).

(** A fraction part, with its point, if anything is left of it. *)
Definition frac_text (s : list Z) : list Z := match strip0 s with [] => [] | f => 46 :: f end.

(** The 12 significant digits [n] and the exponent [x]: the number is rounded to n * 10^(x-11). *)
Definition sig12 (p q : Z) : Z * Z :=
  let x := flog10 p q in
  let '(a, b) := scale 10 p q (x - 11) in
  let n := rhe a b in
  if n =? 10 ^ 12 then (10 ^ 11, x + 1) else (n, x).

Definition pad2 (s : list Z) : list Z := match s with [c] => [48; c] | _ => s end.

Definition fmt12_pos (p q : Z) : list Z :=
  let '(n, x) := sig12 p q in
  let ds := dec_text n in
  if (-4 <=? x) && (x <? 12) then
    if 0 <=? x then firstn (Z.to_nat (x + 1)) ds ++ frac_text (skipn (Z.to_nat (x + 1)) ds)
    else 48 :: frac_text (repeat 48 (Z.to_nat (- x - 1)) ++ ds)
  else firstn 1 ds ++ frac_text (skipn 1 ds) ++
       101 :: (if 0 <=? x then 43 else 45) :: pad2 (dec_text (Z.abs x)).

Definition fmt12 (d : double) : list Z :=
  (if dneg d then [45] else []) ++
  (if dman d =? 0 then [48]
   else if 0 <=? dexp d then fmt12_pos (dman d * 2 ^ dexp d) 1 else fmt12_pos (dman d) (2 ^ (- dexp d))).

(** Conversion of an integer to double, and equality of doubles and of an integer with a
    double as the C++ operator == computes it (the integer is converted first). *)
Definition int_to_double (n : Z) : dres := to_double (n <? 0) (Z.abs n) 1.
Definition d_eq (a b : double) : bool :=
  ((dman a =? 0) && (dman b =? 0)) ||
  (Bool.eqb (dneg a) (dneg b) && (dman a =? dman b) && (dexp a =? dexp b)).
Definition int_d_eq (n : Z) (d : double) : bool :=
  match int_to_double n with DOk d' => d_eq d' d | DRange => false end.
