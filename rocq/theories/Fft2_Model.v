(** Model of src/math/fft.h:92-163, 179-201: the Fourier transform of a rectangle, stored row by row or as a vector of vectors.
    root n is the root function of a transform of length n (see Fft_Model).  A result (b, a): a is what the array holds in the end,
    b = false means that length_error was thrown. *)
From Verif Require Import Common Fft_Model.
Local Open Scope nat_scope.

Section fft2.
Context {R : Type} (rO : R) (radd rmul rsub : R -> R -> R) (root : nat -> Z -> R) (fuel : nat).
Definition fft1 (a : list R) : outcome (list R) := fft_wrap radd rmul rsub (root (length a)) fuel a.
(** fft.h:125-126, 132-133: cnt pieces of length w from off on *)
Fixpoint pieces (w cnt off : nat) (a : list R) : outcome (bool * list R) :=
  match cnt with
  | O => Ok (true, a)
  | S cnt => match fft1 (firstn w (skipn off a)) with
             | Ok r => pieces w cnt (off + w) (firstn off a ++ r ++ skipn (off + w) a)
             | Throw => Ok (false, a)
             | UB => UB
             | Fuel => Fuel
             end
  end.
(** fft.h:92-102: one row, all rows *)
Fixpoint move_row (h w y x cnt : nat) (a c : list R) : outcome (list R) :=
  match cnt with
  | O => Ok c
  | S cnt => let* v := get a (y * w + x) in let* c := put c (x * h + y) v in move_row h w y (S x) cnt a c
  end.
Fixpoint move_rows (h w y cnt : nat) (a c : list R) : outcome (list R) :=
  match cnt with O => Ok c | S cnt => let* c := move_row h w y 0 w a c in move_rows h w (S y) cnt a c end.
Definition transpose (a c : list R) (pitch : nat) : outcome (list R) :=
  if pitch =? 0 then UB else let h := length a / pitch in move_rows h pitch 0 h a c.
(** fft.h:115-136 *)
Definition fft2d (a : list R) (pitch : nat) : outcome (bool * list R) :=
  if pitch =? 0 then UB else
  let h := length a / pitch in
  let w := pitch in
  if negb (h * w =? length a) then Ok (false, a) else
  let* (ok, a) := pieces w h 0 a in
  if negb ok then Ok (false, a) else
  let* t := transpose a (repeat rO (w * h)) w in
  let* (ok, t) := pieces h w 0 t in
  if negb ok then Ok (false, a) else
  let* a := transpose t a h in Ok (true, a).

(** fft.h:104-113 *)
Definition get2 (a : list (list R)) (y x : nat) : outcome R := let* r := get a y in get r x.
Definition put2 (a : list (list R)) (y x : nat) (v : R) : outcome (list (list R)) := let* r := get a y in let* r := put r x v in put a y r.
Fixpoint move_mrow (y x cnt : nat) (a c : list (list R)) : outcome (list (list R)) :=
  match cnt with
  | O => Ok c
  | S cnt => let* v := get2 a y x in let* c := put2 c x y v in move_mrow y (S x) cnt a c
  end.
Fixpoint move_mrows (w y cnt : nat) (a c : list (list R)) : outcome (list (list R)) :=
  match cnt with O => Ok c | S cnt => let* c := move_mrow y 0 w a c in move_mrows w (S y) cnt a c end.
Definition transpose_m (a c : list (list R)) : outcome (list (list R)) :=
  let* r := get a 0 in move_mrows (length r) 0 (length a) a c.
(** fft.h:152-153, 159-160 *)
Fixpoint each (before a : list (list R)) : outcome (bool * list (list R)) :=
  match a with
  | [] => Ok (true, before)
  | r :: a' => match fft1 r with
               | Ok r' => each (before ++ [r']) a'
               | Throw => Ok (false, before ++ a)
               | UB => UB
               | Fuel => Fuel
               end
  end.
(** fft.h:138-163 *)
Definition fft2d_m (a : list (list R)) : outcome (bool * list (list R)) :=
  let h := length a in
  if negb (is_pow2 (Z.of_nat h)) then Ok (false, a) else
  let* r := get a 0 in
  let w := length r in
  if negb (is_pow2 (Z.of_nat h)) then Ok (false, a) else
  if negb (forallb (fun r => length r =? w) a) then Ok (false, a) else
  let* (ok, a) := each [] a in
  if negb ok then Ok (false, a) else
  let* t := transpose_m a (repeat (repeat rO h) w) in
  let* (ok, t) := each [] t in
  if negb ok then Ok (false, a) else
  let* a := transpose_m t a in Ok (true, a).
End fft2.
