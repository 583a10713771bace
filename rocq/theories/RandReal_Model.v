(** Model of the real numbers of src/math/random.h: IEEE doubles, rounded to nearest. *)
From Verif Require Import Common NumText_Model Double_Model LexFloat_Model.
From Verif Require Random_Model.
Local Open Scope Z_scope.

(** The value of a finite double in units of 2^-1074 *)
Definition units (d : double) : Z := (if dneg d then -1 else 1) * (dman d * 2 ^ (dexp d + 1074)).
(** (-1)^neg * p/q as a double; an overflow is infinite *)
Definition round (neg : bool) (p q : Z) : fl := match to_near neg p q with Some d => Fin d | None => Inf neg end.
(** operators + and - *)
Definition add (x y : fl) : fl :=
  match x, y with
  | Fin a, Fin b => let s := units a + units b in
                    if s =? 0 then Fin (mkD (dneg a && dneg b) 0 (-1074)) else round (s <? 0) (Z.abs s) (2 ^ 1074)
  | NaN n, _ | _, NaN n => NaN n
  | Inf n, Inf m => if Bool.eqb n m then Inf n else NaN true
  | Inf n, Fin _ | Fin _, Inf n => Inf n
  end.
Definition opp (x : fl) : fl := match x with Fin a => Fin (mkD (negb (dneg a)) (dman a) (dexp a)) | Inf n => Inf (negb n) | NaN n => NaN (negb n) end.
Definition sub (x y : fl) : fl := add x (opp y).
(** x * (k / 2^53) for 0 <= k < 2^53 *)
Definition times (x : fl) (k : Z) : fl :=
  match x with
  | Fin a => round (dneg a) (dman a * 2 ^ (dexp a + 1074) * k) (2 ^ 1074 * 2 ^ 53)
  | Inf n => if k =? 0 then NaN true else Inf n
  | NaN n => NaN n
  end.
Definition one : fl := Fin (mkD false (2 ^ 52) (-52)).
(** k / 2^53 *)
Definition uniform (k : Z) : fl := times one k.

Section random.
Context {G : Type} (gen : G -> Z * G).
(** random.h:83-87: k / 2^53, exactly *)
Definition next_double (g : G) : fl * G := let (k, g) := Random_Model.next_double gen g in (uniform k, g).
(** random.h:90-92 *)
Definition next_double1 (a : fl) (g : G) : fl * G := let (k, g) := Random_Model.next_double gen g in (times a k, g).
(** random.h:95-97 *)
Definition next_double2 (a b : fl) (g : G) : fl * G := let (x, g) := next_double1 (sub b a) g in (add a x, g).

(** random.h:137-138: the generator; the stock, if it is stocked *)
Definition state : Type := G * option fl.
(** random.h:60-63 *)
Definition create (g : G) : state := (g, None).
(** random.h:107-108: the two values made of a and b, over the C library's sqrt, log, sin and cos *)
Context (r1 r2 : fl -> fl -> fl).
(** random.h:100-113 *)
Definition next_gaussian (s : state) : fl * state :=
  match s with
  | (g, Some v) => (v, (g, None))
  | (g, None) =>
      let (u, g) := next_double g in let a := sub one u in
      let (u, g) := next_double g in let b := sub one u in
      (r1 a b, (g, Some (r2 a b)))
  end.
(** Calls in any order: random.h:68-80, 83-97, 100-113; the results of next_gaussian() are listed *)
Inductive call := Int0 | Int1 (a : Z) | Int2 (a b : Z) | Dbl0 | Dbl1 (a : fl) | Dbl2 (a b : fl) | Gauss.
Fixpoint gaussians (cs : list call) (s : state) : list fl :=
  match cs with
  | [] => []
  | c :: cs =>
      let (g, st) := s in
      match c with
      | Int0 => gaussians cs (snd (Random_Model.next_int0 gen g), st)
      | Int1 a => gaussians cs (snd (Random_Model.next_int gen a g), st)
      | Int2 a b => gaussians cs (snd (Random_Model.next_int2 gen a b g), st)
      | Dbl0 => gaussians cs (snd (next_double g), st)
      | Dbl1 a => gaussians cs (snd (next_double1 a g), st)
      | Dbl2 a b => gaussians cs (snd (next_double2 a b g), st)
      | Gauss => let (v, s) := next_gaussian s in v :: gaussians cs s
      end
  end.
End random.
