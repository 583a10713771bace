(** Model of the parts of src/text/json/cast.h for float and for the unsigned types. *)
From Verif Require Import Common NumText_Model Double_Model Json_Model.
Local Open Scope Z_scope.

(** A finite float: (-1)^neg * man * 2^exp, with 24 bits. *)
Record single := mkF { fneg : bool; fman : Z; fexp : Z }.
(** Any float *)
Inductive sfl := SFin (f : single) | SInf (neg : bool) | SNaN (neg : bool).

(** The conversion from float to double: exact *)
Definition widen (f : single) : double :=
  if fman f =? 0 then mkD (fneg f) 0 (-1074)
  else let s := 52 - Z.log2 (fman f) in mkD (fneg f) (fman f * 2 ^ s) (fexp f - s).

(** The conversions to float, of a double or of an integer p/q: to the nearest, ties to even, and to infinity
    if there is none.  (The C++ standard leaves too large numbers undefined; IEEE 754 defines them so.) *)
Definition narrow (neg : bool) (p q : Z) : sfl :=
  if p =? 0 then SFin (mkF neg 0 (-149)) else
  let e := Z.max (-149) (flog2 p q - 23) in
  let '(a, b) := scale 2 p q e in
  let m := rhe a b in
  if m =? 2 ^ 24 then (if 104 <? e + 1 then SInf neg else SFin (mkF neg (2 ^ 23) (e + 1)))
  else if 104 <? e then SInf neg
  else SFin (mkF neg m e).

(** cast.h:251-255 serialize(json&, float&): json_float keeps a double, and its constructor throws unless that
    is finite (base.h:247-279). *)
Definition to_json_float (f : sfl) : outcome json :=
  match f with SFin f => Ok (JFloat (widen f)) | _ => Throw end.
(** cast.h:119-128 json_cast<float> *)
Definition cast_float (j : json) : outcome sfl :=
  match j with
  | JFloat d => Ok (if 0 <=? dexp d then narrow (dneg d) (dman d * 2 ^ dexp d) 1 else narrow (dneg d) (dman d) (2 ^ (- dexp d)))
  | JInt n => Ok (narrow (n <? 0) (Z.abs n) 1)
  | _ => Throw
  end.
(** cast.h:130-138 json_cast_with_default<float> *)
Definition cast_float_default (j : json) (def : sfl) : sfl :=
  match j with
  | JFloat d => if 0 <=? dexp d then narrow (dneg d) (dman d * 2 ^ dexp d) 1 else narrow (dneg d) (dman d) (2 ^ (- dexp d))
  | JInt n => narrow (n <? 0) (Z.abs n) 1
  | _ => def
  end.

(** cast.h:221-225, 233-237, 245-249: the unsigned types; json_integer keeps an int64_t (base.h:225-245). *)
Definition to_json_unsigned (n : Z) : json := JInt ((n + 2 ^ 63) mod 2 ^ 64 - 2 ^ 63).
