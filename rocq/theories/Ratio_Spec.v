(** Fractions in lowest terms and the rationals they stand for. *)
From Coq Require Import QArith.
From Verif Require Import Common.
Local Open Scope Z_scope.

Definition lowest (r : Z * Z) : Prop := 0 < snd r /\ Z.gcd (fst r) (snd r) = 1.
Definition toQ (r : Z * Z) : Q := Qmake (fst r) (Z.to_pos (snd r)).
(** n/d for any d other than 0 *)
Definition frac (n d : Z) : Q := (inject_Z n / inject_Z d)%Q.
Definition size (r : Z * Z) : Z := Z.max (Z.abs (fst r)) (Z.abs (snd r)).
(** The outcome is the fraction q in lowest terms, unless T lacks a number of at most the given size. *)
Definition exact (fits : Z -> bool) (L : Z) (o : outcome (Z * Z)) (q : Q) : Prop :=
  exists r, lowest r /\ (toQ r == q)%Q /\ (o = Ok r \/ (o = UB /\ ~ forall z, Z.abs z <= L -> fits z = true)).
(** The usual decimal numeral of z: digits, the first not 0 unless it is the only one, a minus sign in front if z is negative. *)
Definition numeral (t : list Z) (z : Z) : Prop := exists ds, t = (if z <? 0 then 45 :: ds else ds) /\ ds <> [] /\
  Forall (fun c => 48 <= c <= 57) ds /\ (hd 0 ds = 48 -> ds = [48]) /\ fold_left (fun a c => 10 * a + (c - 48)) ds 0 = Z.abs z.
(** The text n/d *)
Definition ratio_text (t : list Z) (r : Z * Z) : Prop := exists n d, t = n ++ [47] ++ d /\ numeral n (fst r) /\ numeral d (snd r).
