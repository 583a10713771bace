(** Model of src/data/string/kmp.h: first with positions of any size, then with those of [int]. *)
From Verif Require Import Common.

Section Kmp.
  Variable A : Type.
  Variable aeq : forall a b : A, {a = b} + {a <> b}.

  (** Reading an element; outside the container it is undefined. *)
  Definition at_ {B} (l : list B) (i : nat) : outcome B :=
    match nth_error l i with Some x => Ok x | None => UB end.

  (** kmp.h:51 and 61: while(t>0&&c!=query[t]) t=next[t-1]; *)
  Fixpoint fall (fuel : nat) (q : list A) (next : list nat) (c : A) (t : nat) : outcome nat :=
    match t with
    | O => Ok O
    | S t' =>
        let* x := at_ q t in
        if aeq c x then Ok t
        else match fuel with
             | O => Fuel
             | S f => let* t2 := at_ next t' in fall f q next c t2
             end
    end.

  (** kmp.h:50-54, the elements of the query after the first.  [next] holds the entries
      written so far (the real vector is full-length, entries not yet written are 0;
      the model makes reading one of those undefined). *)
  Fixpoint build (q rest : list A) (next : list nat) (t : nat) : outcome (list nat) :=
    match rest with
    | [] => Ok next
    | c :: r =>
        let* t1 := fall t q next c t in
        let* x := at_ q t1 in
        if aeq c x then build q r (next ++ [S t1]) (S t1)
        else build q r (next ++ [O]) t1
    end.

  (** kmp.h:46-55; next[0] of an empty vector is undefined. *)
  Record kmp := mkKmp { query : list A; next : list nat }.
  Definition kmp_new (q : list A) : outcome kmp :=
    match q with
    | [] => UB
    | _ :: r => let* n := build q r [O] O in Ok (mkKmp q n)
    end.

  (** kmp.h:57-66, from position [i] with the remaining text; npos is [None]. *)
  Fixpoint find_loop (k : kmp) (rest : list A) (i t : nat) : outcome (option nat) :=
    match rest with
    | [] => Ok None
    | c :: r =>
        let* t1 := fall t (query k) (next k) c t in
        let* x := at_ (query k) t1 in
        let t2 := if aeq c x then S t1 else t1 in
        if (t2 =? length (query k))%nat then Ok (Some (i + 1 - length (query k)))
        else find_loop k r (S i) t2
    end.
  Definition find (k : kmp) (text : list A) (offset : nat) : outcome (option nat) :=
    find_loop k (skipn offset text) offset 0.

  Local Open Scope Z_scope.
  (** (int)x.size() of kmp.h:50, 60 and 63: the conversion keeps the low 32 bits. *)
  Definition isize {B} (l : list B) : Z := (Z.of_nat (length l) + 2 ^ 31) mod 2 ^ 32 - 2 ^ 31.
  (** std::string::npos, kmp.h:65. *)
  Definition npos : Z := 2 ^ 64 - 1.

  (** kmp.h:46-55: the vector has an entry for each element of the query, those the loop does not reach stay 0. *)
  Definition kmp_new_int (q : list A) : outcome kmp :=
    match q with
    | [] => UB
    | _ :: r => let* n := build q (firstn (Z.to_nat (isize q - 1)) r) [O] O in Ok (mkKmp q (n ++ repeat O (length q - length n)))
    end.

  (** kmp.h:60-65.  The value returned is i+1-query.size() of the unsigned 64-bit type. *)
  Fixpoint find_loop_int (k : kmp) (rest : list A) (i : Z) (t : nat) : outcome Z :=
    match rest with
    | [] => Ok npos
    | c :: r =>
        let* t1 := fall t (query k) (next k) c t in
        let* x := at_ (query k) t1 in
        let t2 := if aeq c x then S t1 else t1 in
        if Z.of_nat t2 =? isize (query k) then Ok ((i + 1 - Z.of_nat (length (query k))) mod 2 ^ 64)
        else find_loop_int k r (i + 1) t2
    end.
  (** kmp.h:57-66 with any [int] as offset; text[i] with a negative i is undefined. *)
  Definition find_int (k : kmp) (text : list A) (offset : Z) : outcome Z :=
    if isize text <=? offset then Ok npos
    else if offset <? 0 then UB
    else find_loop_int k (firstn (Z.to_nat (isize text - offset)) (skipn (Z.to_nat offset) text)) offset 0.
End Kmp.
