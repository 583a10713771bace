(** Model of src/lang/cast.h for float, over the number input and output of libstdc++ in the C locale.  The text is collected as for double
    (LexFloat_Model); strtof rounds the decimal number once, to the nearest float. *)
From Verif Require Import Common NumText_Model Double_Model Single_Model LexFloat_Model.
From Verif Require Cast_Model.
Local Open Scope Z_scope.

(** operator<<(float): the float is converted to double and printed with six digits *)
Definition insert_f (v : sfl) : list Z :=
  match v with
  | SFin f => insert (Fin (widen f))
  | SInf neg => insert (Inf neg)
  | SNaN neg => insert (NaN neg)
  end.
Definition dec_single (neg : bool) (D k : Z) : sfl := if 0 <=? k then narrow neg (D * 10 ^ k) 1 else narrow neg D (10 ^ (- k)).
(** operator>>(float&): an overflow is failbit, an underflow is accepted *)
Definition extract_f (s : list Z) : option sfl :=
  match parse_all (collect (Cast_Model.skip_ws s)) with
  | Some (neg, D, k) => match dec_single neg D k with SFin f => Some (SFin f) | _ => None end
  | None => None
  end.

(** cast.h:66-74 with Source = float *)
Definition fto_string (v : sfl) : list Z := insert_f v.
(** cast.h:76-86 with Target = float *)
Definition ffrom_string (s : list Z) : outcome sfl := match extract_f s with Some v => Ok v | None => Throw end.
(** cast.h:45-56 from float to double and from double to float: through the text *)
Definition float_to_double (v : sfl) : outcome fl := match extract (insert_f v) with Some x => Ok x | None => Throw end.
Definition double_to_float (v : fl) : outcome sfl := match extract_f (insert v) with Some x => Ok x | None => Throw end.
(** cast.h:58-64 *)
Definition to_float_same (v : sfl) : outcome sfl := Ok v.
