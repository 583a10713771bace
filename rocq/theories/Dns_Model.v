(** Model of cached_dns_resolver (src/network/dns.cpp:99-229): calls by any number of threads, the locked sections being atomic.
    std::map is a list without repeated keys (nothing in the code depends on its order), std::multiset a sorted list.
    The clock and the wrapped resolver are oracles; locks are always acquired; addresses are numbers. *)
From Verif Require Import Common Dns_Spec.
Local Open Scope Z_scope.

(** std::pair's and std::string's == and < (chars compare as unsigned) *)
Fixpoint str_lt (a b : list Z) : bool :=
  match a, b with
  | _, [] => false
  | [], _ :: _ => true
  | x :: a, y :: b => if x <? y then true else if y <? x then false else str_lt a b
  end.
Definition str_eqb (a b : list Z) : bool := if list_eq_dec Z.eq_dec a b then true else false.
Definition key_eqb (a b : key) : bool := str_eqb (fst a) (fst b) && (snd a =? snd b).
Definition key_lt (a b : key) : bool := if str_lt (fst a) (fst b) then true else if str_lt (fst b) (fst a) then false else snd a <? snd b.
Definition stamp : Type := Z * key.
Definition stamp_eqb (a b : stamp) : bool := (fst a =? fst b) && key_eqb (snd a) (snd b).
Definition stamp_lt (a b : stamp) : bool := if fst a <? fst b then true else if fst b <? fst a then false else key_lt (snd a) (snd b).
(** dns.cpp:113-116 *)
Record dns := mkDns { cache : list (key * (list Z * Z)); access : list stamp }.
Definition empty : dns := mkDns [] [].
Definition lookup (k : key) (m : list (key * (list Z * Z))) : option (list Z * Z) :=
  match find (fun e => key_eqb (fst e) k) m with Some e => Some (snd e) | None => None end.
Definition remove (k : key) (m : list (key * (list Z * Z))) := filter (fun e => negb (key_eqb (fst e) k)) m.
Definition store (k : key) (v : list Z * Z) (m : list (key * (list Z * Z))) := (k, v) :: remove k m.
(** multiset::insert, and multiset::erase of a value: all equal ones go *)
Fixpoint insert (x : stamp) (l : list stamp) : list stamp := match l with [] => [x] | y :: l => if stamp_lt x y then x :: y :: l else y :: insert x l end.
Definition erase (x : stamp) (l : list stamp) : list stamp := filter (fun y => negb (stamp_eqb y x)) l.

Section dns.
Context (max_size expire : Z) (debug : bool).
(** dns.cpp:155-162 *)
Definition clear_cache (s : dns) : dns := empty.
(** dns.cpp:164-173: cache[key] makes an entry at time 0 if there is none *)
Definition delete_cache (k : key) (s : dns) : dns :=
  let t := match lookup k (cache s) with Some (_, t) => t | None => 0 end in mkDns (remove k (cache s)) (erase (t, k) (access s)).
(** dns.cpp:184-204: the answer of a hit *)
Definition first (k : key) (cur : Z) (s : dns) : option (list Z) * dns :=
  match lookup k (cache s) with
  | Some (a, t) =>
      let acc := insert (cur, k) (erase (t, k) (access s)) in
      let m := store k (a, cur) (cache s) in
      let second := match lookup k m with Some (_, t) => t | None => 0 end in
      if cur - second <? expire then (Some a, mkDns m acc) else (None, mkDns (remove k m) (erase (cur, k) acc))
  | None => (None, s)
  end.
(** dns.cpp:214-220; the assertion if compiled with it: Throw is that the process aborts.  begin() of an empty set is undefined. *)
Fixpoint evict (fuel : nat) (s : dns) : outcome dns :=
  match fuel with
  | O => Fuel
  | S fuel => if max_size <=? Z.of_nat (length (cache s)) then
                if debug && negb (Nat.eqb (length (access s)) (length (cache s))) then Throw
                else match access s with [] => UB | (_, k) :: acc => evict fuel (mkDns (remove k (cache s)) acc) end
              else Ok s
  end.
(** dns.cpp:210-226 *)
Definition second (k : key) (cur : Z) (a : list Z) (s : dns) : outcome dns :=
  let* s := evict (S (length (access s))) s in Ok (mkDns (store k (a, cur) (cache s)) (insert (cur, k) (access s))).

(** A thread in resolve (dns.cpp:175-229): not in it, having read the clock, having missed, having an answer *)
Inductive pc := Free | Begun (k : key) (cur : Z) | Missed (k : key) (cur : Z) | Have (k : key) (cur : Z) (a : list Z).
Record config := mkC { st : dns; threads : nat -> pc; log : list event }.
Definition start : config := mkC empty (fun _ => Free) [].
(** What happens next: thread i calls resolve and reads the clock, passes the first section, gets the resolver's answer, passes the second section; or somebody clears the cache or deletes a key. *)
Inductive move := Call (i : nat) (k : key) (cur : Z) | First (i : nat) | Answer (i : nat) (a : list Z) | Second (i : nat) | Clear | Delete (k : key).
Definition set_pc (i : nat) (p : pc) (f : nat -> pc) : nat -> pc := fun j => if Nat.eqb i j then p else f j.
(** Moves that are not possible do nothing. *)
Definition step (c : config) (m : move) : outcome config :=
  match m with
  | Call i k cur => match threads c i with Free => Ok (mkC (st c) (set_pc i (Begun k cur) (threads c)) (log c)) | _ => Ok c end
  | First i => match threads c i with
               | Begun k cur => match first k cur (st c) with
                                | (Some a, s) => Ok (mkC s (set_pc i Free (threads c)) (Returned k cur a :: log c))
                                | (None, s) => Ok (mkC s (set_pc i (Missed k cur) (threads c)) (log c))
                                end
               | _ => Ok c
               end
  | Answer i a => match threads c i with Missed k cur => Ok (mkC (st c) (set_pc i (Have k cur a) (threads c)) (Answered k cur a :: log c)) | _ => Ok c end
  | Second i => match threads c i with
                | Have k cur a => let* s := second k cur a (st c) in Ok (mkC s (set_pc i Free (threads c)) (Returned k cur a :: log c))
                | _ => Ok c
                end
  | Clear => Ok (mkC (clear_cache (st c)) (threads c) (log c))
  | Delete k => Ok (mkC (delete_cache k (st c)) (threads c) (log c))
  end.
Fixpoint run (c : config) (ms : list move) : outcome config := match ms with [] => Ok c | m :: ms => let* c := step c m in run c ms end.
(** A whole call by a thread with nobody else at work *)
Definition whole (k : key) (cur : Z) (a : list Z) : list move := [Call 0 k cur; First 0; Answer 0 a; Second 0].
(** Histories without overlapping calls *)
Inductive op := Resolve (k : key) (cur : Z) (a : list Z) | Drop (k : key) | DropAll.
Definition moves (o : op) : list move := match o with Resolve k cur a => whole k cur a | Drop k => [Delete k] | DropAll => [Clear] end.
End dns.
