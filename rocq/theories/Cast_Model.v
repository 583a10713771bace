(** Model of src/lang/cast.h for integral types, over the number input and output of libstdc++ in the C locale. *)
From Verif Require Import Common NumText_Model.
Local Open Scope Z_scope.

(** char, signed char and unsigned char; bool; the other integral types with their bounds *)
Inductive ty := TChar | TBool | TNum (sgn : bool) (bits : Z).
Definition lo (t : ty) : Z := match t with TChar | TBool => 0 | TNum s b => if s then - 2 ^ (b - 1) else 0 end.
Definition hi (t : ty) : Z := match t with TChar => 255 | TBool => 1 | TNum s b => if s then 2 ^ (b - 1) - 1 else 2 ^ b - 1 end.

Definition isspace (c : Z) : bool := ((9 <=? c) && (c <=? 13)) || (c =? 32).
Fixpoint skip_ws (s : list Z) : list Z := match s with c :: r => if isspace c then skip_ws r else s | [] => [] end.
(** blanks, a sign, digits: the sign, the magnitude and the rest; None if there is no digit *)
Definition scan (s : list Z) : option (bool * Z * list Z) :=
  let s := skip_ws s in
  let '(neg, s) := match s with c :: r => if c =? 45 then (true, r) else if c =? 43 then (false, r) else (false, s) | [] => (false, s) end in
  let (ds, rest) := spanb isdigit s in
  match ds with [] => None | _ => Some (neg, dec_val ds, rest) end.

(** operator>>: None sets failbit.  A character is read after blanks; a bool is the number 0 or 1; a negative number is taken modulo
    2^bits by an unsigned type if its magnitude fits. *)
Definition extract (t : ty) (s : list Z) : option Z :=
  match t with
  | TChar => match skip_ws s with c :: _ => Some c | [] => None end
  | TBool => match scan s with Some (neg, m, _) => let v := if neg then - m else m in if (v =? 0) || (v =? 1) then Some v else None | None => None end
  | TNum true b => match scan s with
                   | Some (neg, m, _) => let v := if neg then - m else m in if (lo t <=? v) && (v <=? hi t) then Some v else None
                   | None => None
                   end
  | TNum false b => match scan s with
                    | Some (neg, m, _) => if m <=? hi t then Some (if neg then (- m) mod 2 ^ b else m) else None
                    | None => None
                    end
  end.
(** operator<< *)
Definition insert (t : ty) (v : Z) : list Z := match t with TChar => [v] | _ => show_int v end.
(** cast.h:66-74 *)
Definition to_string (t : ty) (v : Z) : list Z := insert t v.
(** cast.h:76-86 *)
Definition from_string (t : ty) (s : list Z) : outcome Z := match extract t s with Some v => Ok v | None => Throw end.
(** cast.h:45-64 *)
Definition ty_eq_dec (a b : ty) : {a = b} + {a <> b}.
Proof. decide equality; [apply Z.eq_dec|apply bool_dec]. Defined.
Definition cast (target source : ty) (v : Z) : outcome Z :=
  if ty_eq_dec target source then Ok v else match extract target (insert source v) with Some w => Ok w | None => Throw end.
