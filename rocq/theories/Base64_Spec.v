(** RFC 4648 section 4, written on bit strings, independently of the code. *)
From Verif Require Import Common.
Local Open Scope Z_scope.

Definition rfc4648_alphabet : list Z :=
  str "ABCDEFGHIJKLMNOPQRSTUVWXYZabcdefghijklmnopqrstuvwxyz0123456789+/".

(** The eight bits of a byte, most significant first. *)
Definition bits8 (b : Z) : list bool := map (Z.testbit b) [7;6;5;4;3;2;1;0].

(** Value of a bit group, most significant bit first. *)
Definition bits_val (l : list bool) : Z := fold_left (fun acc x => 2 * acc + Z.b2z x) l 0.

(** Cut a bit string into 6-bit groups, the last one zero-padded on the right. *)
Fixpoint groups6 (fuel : nat) (l : list bool) : list (list bool) :=
  match fuel, l with
  | O, _ => []
  | _, [] => []
  | S f, _ => firstn 6 (l ++ repeat false 6) :: groups6 f (skipn 6 l)
  end.

(** The encoding: alphabet characters of the groups, then '=' up to a multiple of 4. *)
Definition rfc4648_encode (s : list Z) : list Z :=
  let bs := flat_map bits8 s in
  let body := map (fun g => nth (Z.to_nat (bits_val g)) rfc4648_alphabet 0) (groups6 (length bs) bs) in
  body ++ repeat 61 (Nat.modulo (4 - Nat.modulo (length body) 4) 4).
