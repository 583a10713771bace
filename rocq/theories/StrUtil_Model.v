(** Model of src/data/string/utility.h for byte strings. *)
From Verif Require Import Common.
Local Open Scope Z_scope.

(** utility.h:44-56: the outer loop; [acc] is the reverse of [bef, cur). *)
Fixpoint split_loop (s : list Z) (sep : Z) (acc : list Z) : list (list Z) :=
  match s with
  | [] => [rev acc]
  | c :: r => if c =? sep then rev acc :: split_loop r sep [] else split_loop r sep (c :: acc)
  end.
Definition split (s : list Z) (sep : Z) : list (list Z) := split_loop s sep [].

(** Prefix test. *)
Fixpoint prefixb (p s : list Z) : bool :=
  match p, s with
  | [], _ => true
  | _ :: _, [] => false
  | a :: p', b :: s' => (a =? b) && prefixb p' s'
  end.

(** std::search: the part before the first occurrence, and what starts there;
    [None] when the result is the end iterator. *)
Fixpoint search (s pat : list Z) (acc : list Z) : option (list Z * list Z) :=
  if prefixb pat s then Some (rev acc, s) else
  match s with
  | [] => None
  | c :: r => search r pat (c :: acc)
  end.

(** utility.h:72-87 *)
Fixpoint split_str_loop (fuel : nat) (s sep : list Z) : outcome (list (list Z)) :=
  match fuel with
  | O => Fuel
  | S f => match search s sep [] with
           | None => Ok [s]
           | Some (a, r) => omap (cons a) (split_str_loop f (skipn (length sep) r) sep)
           end
  end.
Definition split_str (s sep : list Z) : outcome (list (list Z)) :=
  match sep with [] => Ok [] | _ => split_str_loop (S (length s)) s sep end.

(** ctype.h isspace in the C locale.  (For a negative [char] the call is formally
    undefined; bytes above 127 are classified here as not blank.) *)
Definition isspace (c : Z) : bool := ((9 <=? c) && (c <=? 13)) || (c =? 32).

(** utility.h:130-139 *)
Fixpoint lstrip (s : list Z) : list Z :=
  match s with [] => [] | c :: r => if isspace c then lstrip r else s end.

(** utility.h:149-164: [end] moves left while blank. *)
Definition rstrip (s : list Z) : list Z := rev (lstrip (rev s)).

(** utility.h:103-120: both loops in sequence. *)
Definition strip (s : list Z) : list Z := rstrip (lstrip s).

(** utility.h:174-187 *)
Fixpoint join_loop (first : bool) (xs : list (list Z)) (sep ret : list Z) : list Z :=
  match xs with
  | [] => ret
  | x :: r => join_loop false r sep ((if first then ret else ret ++ sep) ++ x)
  end.
Definition join (xs : list (list Z)) (sep : list Z) : list Z := join_loop true xs sep [].

(** utility.h:209-214 *)
Definition starts_with (s p : list Z) : bool :=
  if (length s <? length p)%nat then false else prefixb p s.
(** utility.h:216-221 *)
Definition ends_with (s p : list Z) : bool :=
  if (length s <? length p)%nat then false else prefixb (rev p) (rev s).

(** utility.h:223-244 *)
Fixpoint replace_loop (fuel : nat) (s from to : list Z) (ret : list Z) : outcome (list Z) :=
  match fuel with
  | O => Fuel
  | S f => match search s from [] with
           | None => Ok (ret ++ s)
           | Some (a, r) => replace_loop f (skipn (length from) r) from to ((ret ++ a) ++ to)
           end
  end.
Definition replace (s from to : list Z) : outcome (list Z) :=
  match from with [] => Ok s | _ => replace_loop (S (length s)) s from to [] end.
