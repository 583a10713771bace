(** JSON texts and what they denote, after RFC 8259, independently of the parser. *)
From Coq Require Import Permutation.
From Verif Require Import Common Utf8_Spec Double_Model Json_Model.
Local Open Scope Z_scope.
(* From Double_Model and Json_Model only the data types [double] and [json] are used. *)

(** ** White space and numbers (RFC 8259 sections 2 and 6) *)
Definition ws (s : list Z) : Prop := Forall (fun c => c = 32 \/ c = 9 \/ c = 10 \/ c = 13) s.
Definition digit (c : Z) : Prop := 48 <= c <= 57.

(** The value of a run of digits. *)
Definition num (ds : list Z) : Z := fold_left (fun a c => 10 * a + (c - 48)) ds 0.

(** int = zero / ( digit1-9 *DIGIT ) *)
Inductive int_part : list Z -> Prop :=
| ip_zero : int_part [48]
| ip_pos c r : 49 <= c <= 57 -> Forall digit r -> int_part (c :: r).
(** frac = decimal-point 1*DIGIT; the second argument is the digits *)
Inductive frac_part : list Z -> list Z -> Prop :=
| fp_none : frac_part [] []
| fp_some c r : digit c -> Forall digit r -> frac_part (46 :: c :: r) (c :: r).
(** exp = e [ minus / plus ] 1*DIGIT; the second argument is the value *)
Inductive exponent : list Z -> Z -> Prop :=
| ex_none : exponent [] 0
| ex_bare e c r : e = 101 \/ e = 69 -> digit c -> Forall digit r -> exponent (e :: c :: r) (num (c :: r))
| ex_plus e c r : e = 101 \/ e = 69 -> digit c -> Forall digit r -> exponent (e :: 43 :: c :: r) (num (c :: r))
| ex_minus e c r : e = 101 \/ e = 69 -> digit c -> Forall digit r -> exponent (e :: 45 :: c :: r) (- num (c :: r)).
Inductive sign_part : list Z -> bool -> Prop :=
| sg_none : sign_part [] false
| sg_minus : sign_part [45] true.

(** An integer token and its value. *)
Inductive int_token : list Z -> Z -> Prop :=
| it_intro sg neg ip : sign_part sg neg -> int_part ip -> int_token (sg ++ ip) (if neg then - num ip else num ip).

(** A token with a fraction or an exponent, denoting (-1)^neg * D * 10^k. *)
Inductive float_token : list Z -> bool -> Z -> Z -> Prop :=
| ft_intro sg neg ip ft fp et x : sign_part sg neg -> int_part ip -> frac_part ft fp -> exponent et x ->
    ft <> [] \/ et <> [] ->
    float_token (sg ++ ip ++ ft ++ et) neg (num (ip ++ fp)) (x - Z.of_nat (length fp)).

(** ** Strings (section 7): a text and the UTF-8 bytes it denotes *)
Definition hexdig (c v : Z) : Prop :=
  (48 <= c <= 57 /\ v = c - 48) \/ (65 <= c <= 70 /\ v = c - 55) \/ (97 <= c <= 102 /\ v = c - 87).
Inductive hex4 : list Z -> Z -> Prop :=
| hex4_intro a b c d va vb vc vd : hexdig a va -> hexdig b vb -> hexdig c vc -> hexdig d vd ->
    hex4 [a; b; c; d] (((va * 16 + vb) * 16 + vc) * 16 + vd).

(** Quotation mark, reverse solidus, solidus, backspace, form feed, line feed, carriage return, tab. *)
Definition short_escapes : list (Z * Z) := [(34, 34); (92, 92); (47, 47); (98, 8); (102, 12); (110, 10); (114, 13); (116, 9)].

Inductive jchar : list Z -> list Z -> Prop :=
| jc_plain c e : utf8_char c e -> 32 <= c -> c <> 34 -> c <> 92 -> jchar e e
| jc_short x b : In (x, b) short_escapes -> jchar [92; x] [b]
| jc_unicode h u e : hex4 h u -> utf8_char u e -> jchar (92 :: 117 :: h) e
| jc_pair h1 u1 h2 u2 e : hex4 h1 u1 -> 0xD800 <= u1 <= 0xDBFF -> hex4 h2 u2 -> 0xDC00 <= u2 <= 0xDFFF ->
    utf8_char (0x10000 + (u1 - 0xD800) * 0x400 + (u2 - 0xDC00)) e ->
    jchar (92 :: 117 :: h1 ++ 92 :: 117 :: h2) e.
Inductive jchars : list Z -> list Z -> Prop :=
| jcs_nil : jchars [] []
| jcs_cons t1 s1 t s : jchar t1 s1 -> jchars t s -> jchars (t1 ++ t) (s1 ++ s).
Inductive jstring : list Z -> list Z -> Prop :=
| js_intro t s : jchars t s -> jstring ([34] ++ t ++ [34]) s.

(** ** Values *)

(** An object is a map: later members with the same name replace earlier ones. *)
Fixpoint assign (m : list (list Z * json)) (k : list Z) (v : json) : list (list Z * json) :=
  match m with
  | [] => [(k, v)]
  | (k', v') :: r => if list_eq_dec Z.eq_dec k k' then (k, v) :: r else (k', v') :: assign r k v
  end.
Definition object_of (kvs : list (list Z * json)) : list (list Z * json) :=
  fold_left (fun m kv => assign m (fst kv) (snd kv)) kvs [].

Section Text.
  (** [Dec neg D k d]: the double that (-1)^neg * D * 10^k is read as. *)
  Context (Dec : bool -> Z -> Z -> double -> Prop).

  Inductive jval : list Z -> json -> Prop :=
  | jv_null : jval (str "null") JNull
  | jv_true : jval (str "true") (JBool true)
  | jv_false : jval (str "false") (JBool false)
  | jv_int t n : int_token t n -> - 2 ^ 63 <= n < 2 ^ 63 -> jval t (JInt n)
  | jv_float t neg D k d : float_token t neg D k -> Dec neg D k d -> jval t (JFloat d)
  | jv_str t s : jstring t s -> jval t (JStr s)
  | jv_arr0 w : ws w -> jval ([91] ++ w ++ [93]) (JArr [])
  | jv_arr t l : jelems t l -> jval ([91] ++ t ++ [93]) (JArr l)
  | jv_obj0 w : ws w -> jval ([123] ++ w ++ [125]) (JObj [])
  | jv_obj t kvs : jmembers t kvs -> jval ([123] ++ t ++ [125]) (JObj (object_of kvs))
  with jelems : list Z -> list json -> Prop :=
  | je_one w1 t v w2 : ws w1 -> jval t v -> ws w2 -> jelems (w1 ++ t ++ w2) [v]
  | je_cons w1 t v w2 r l : ws w1 -> jval t v -> ws w2 -> jelems r l -> jelems (w1 ++ t ++ w2 ++ [44] ++ r) (v :: l)
  with jmembers : list Z -> list (list Z * json) -> Prop :=
  | jm_one w1 kt k w2 w3 t v w4 : ws w1 -> jstring kt k -> ws w2 -> ws w3 -> jval t v -> ws w4 ->
      jmembers (w1 ++ kt ++ w2 ++ [58] ++ w3 ++ t ++ w4) [(k, v)]
  | jm_cons w1 kt k w2 w3 t v w4 r l : ws w1 -> jstring kt k -> ws w2 -> ws w3 -> jval t v -> ws w4 -> jmembers r l ->
      jmembers (w1 ++ kt ++ w2 ++ [58] ++ w3 ++ t ++ w4 ++ [44] ++ r) ((k, v) :: l).
End Text.

(** What may follow a value in a stream so that it is not taken for a part of it. *)
Definition ends_value (r : list Z) : Prop :=
  match r with
  | [] => True
  | c :: _ => 0 <= c < 128 /\ ~ digit c /\ c <> 46 /\ c <> 101 /\ c <> 69
  end.

(** A token whose last character is a single exponent digit without sign. *)
Definition bare_exponent (t : list Z) : Prop := exists p e c, t = p ++ [e; c] /\ (e = 101 \/ e = 69) /\ digit c.

(** ** Values and their strings *)

(** [holds P v]: [P] holds of every string value and every object key in [v]. *)
Fixpoint holds (P : list Z -> Prop) (v : json) : Prop :=
  match v with
  | JStr s => P s
  | JArr l => fold_right (fun x acc => holds P x /\ acc) True l
  | JObj m => fold_right (fun kv acc => P (fst kv) /\ holds P (snd kv) /\ acc) True m
  | _ => True
  end.

(** Well-formed UTF-8 without U+0000. *)
Definition text (s : list Z) : Prop := exists cs, utf8 cs s /\ ~ In 0 cs.

(** Values as built by the API: 64-bit integers, keys occurring once; [F] says which floats. *)
Fixpoint value (F : double -> Prop) (v : json) : Prop :=
  match v with
  | JInt n => - 2 ^ 63 <= n < 2 ^ 63
  | JFloat d => F d
  | JArr l => fold_right (fun x acc => value F x /\ acc) True l
  | JObj m => NoDup (map fst m) /\ fold_right (fun kv acc => value F (snd kv) /\ acc) True m
  | _ => True
  end.
Definition no_floats : double -> Prop := fun _ => False.

(** ** Equality and merging *)

(** Equal up to the order of object members (an object is an unordered collection, section 4). *)
Inductive same : json -> json -> Prop :=
| sm_null : same JNull JNull
| sm_bool b : same (JBool b) (JBool b)
| sm_int n : same (JInt n) (JInt n)
| sm_float d : same (JFloat d) (JFloat d)
| sm_str s : same (JStr s) (JStr s)
| sm_arr l m : same_list l m -> same (JArr l) (JArr m)
| sm_obj l m m' : same_members l m' -> Permutation m' m -> same (JObj l) (JObj m)
with same_list : list json -> list json -> Prop :=
| sl_nil : same_list [] []
| sl_cons x y l m : same x y -> same_list l m -> same_list (x :: l) (y :: m)
with same_members : list (list Z * json) -> list (list Z * json) -> Prop :=
| sp_nil : same_members [] []
| sp_cons k x y l m : same x y -> same_members l m -> same_members ((k, x) :: l) ((k, y) :: m).

(** The members of an object as a map. *)
Definition has (m : list (list Z * json)) (k : list Z) (v : json) : Prop := In (k, v) m.
Definition absent (m : list (list Z * json)) (k : list Z) : Prop := ~ In k (map fst m).
Definition is_map (m : list (list Z * json)) : Prop := NoDup (map fst m).
Definition same_map (m n : list (list Z * json)) : Prop := forall k v, has m k v <-> has n k v.

(** [combined f a b m]: the keys of [m] are those of [a] and [b], each once; where both have
    the key [f] combines the values. *)
Definition combined (f : json -> json -> json) (a b m : list (list Z * json)) : Prop :=
  is_map m /\
  (forall k, absent m k <-> absent a k /\ absent b k) /\
  (forall k x, has a k x -> absent b k -> has m k x) /\
  (forall k y, absent a k -> has b k y -> has m k y) /\
  (forall k x y, has a k x -> has b k y -> has m k (f x y)).

(** Deep merging: objects are merged key by key, anything else is replaced. *)
Definition is_obj (v : json) : Prop := exists m, v = JObj m.
Inductive deep_merged : json -> json -> json -> Prop :=
| dm_obj a b m :
    is_map m ->
    (forall k, absent m k <-> absent a k /\ absent b k) ->
    (forall k x, has a k x -> absent b k -> has m k x) ->
    (forall k y, absent a k -> has b k y -> has m k y) ->
    (forall k x y, has a k x -> has b k y -> exists z, has m k z /\ deep_merged x y z) ->
    deep_merged (JObj a) (JObj b) (JObj m)
| dm_other x y : ~ (is_obj x /\ is_obj y) -> deep_merged x y y.

(** ** A stream of values separated by white space *)
Section Stream.
  Context (Dec : bool -> Z -> Z -> double -> Prop).
  Inductive value_stream : list Z -> list json -> Prop :=
  | vs_end w : ws w -> value_stream w []
  | vs_last w t v : ws w -> jval Dec t v -> ~ bare_exponent t -> value_stream (w ++ t) [v]
  | vs_cons w t v c r vs : ws w -> jval Dec t v -> c = 32 \/ c = 9 \/ c = 10 \/ c = 13 ->
      value_stream (c :: r) vs -> value_stream (w ++ t ++ c :: r) (v :: vs).
End Stream.
