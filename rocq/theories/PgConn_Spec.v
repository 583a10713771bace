(** What users of a PostgreSQL connection may expect of its statements, over histories with the latest event first; and how libpq reads a connection string (manual, section
    "Connection Strings", keyword/value form). *)
From Verif Require Import Common.
Local Open Scope Z_scope.

Definition text := list Z.
(** What the server answers to an execution: columns (type numbers) and rows, done, refused, or the connection broke and nobody knows *)
Inductive answer := Rows (types : list Z) (rows : list (list (option text))) | Complete | Refused | Cut.
Inductive event (V : Type) :=
| Parsed (h : nat) (q : text)                                (* the query q was accepted for the new statement object h *)
| Unparsed                                                   (* a query was not accepted *)
| Ran (h : nat) (t : text) (ps : list (option text)) (a : answer) (* on an execute of h the server ran the command t *)
| Threw (h : nat)                                            (* an execute of h threw and nothing was run *)
| Got (h : nat) (row : list V) | End_ (h : nat) | Bad (h : nat)   (* fetch_row of h: a row; false; an exception *)
| Lost.                                                      (* the connection broke *)
Arguments Parsed {V}. Arguments Unparsed {V}. Arguments Ran {V}. Arguments Threw {V}. Arguments Got {V}. Arguments End_ {V}. Arguments Bad {V}. Arguments Lost {V}.

Section history.
Context {V : Type} (sent : text -> text) (conv : option text -> Z -> outcome V).
(** The rows that h still has to give: those of its latest execution that succeeded, less those given *)
Fixpoint pending (h : nat) (l : list (event V)) : list Z * list (list (option text)) :=
  match l with
  | [] => ([], [])
  | Ran k _ _ (Rows ts rs) :: r => if Nat.eqb k h then (ts, rs) else pending h r
  | Ran k _ _ Complete :: r => if Nat.eqb k h then ([], []) else pending h r
  | Got k _ :: r => let '(ts, rs) := pending h r in if Nat.eqb k h then (ts, tl rs) else (ts, rs)
  | _ :: r => pending h r
  end.
(** a row as read *)
Definition reads (ts : list Z) (cells : list (option text)) (vs : list V) : Prop :=
  length vs = length ts /\ forall i t, nth_error ts i = Some t -> exists v, nth_error vs i = Some v /\ conv (nth i cells None) t = Ok v.
Fixpoint fetched (l : list (event V)) : Prop :=
  match l with
  | [] => True
  | Got h vs :: r => (exists cells, hd_error (snd (pending h r)) = Some cells /\ reads (fst (pending h r)) cells vs) /\ fetched r
  | End_ h :: r => snd (pending h r) = [] /\ fetched r
  | _ :: r => fetched r
  end.
(** Every statement runs its own query. *)
Fixpoint own (l : list (event V)) : Prop :=
  match l with
  | [] => True
  | Ran h t _ _ :: r => (exists q, In (Parsed h q) r /\ t = sent q) /\ own r
  | _ :: r => own r
  end.
(** The statement prepared latest on this connection *)
Fixpoint current (l : list (event V)) : option (nat * text) :=
  match l with
  | [] => None
  | Parsed h q :: _ => Some (h, q)
  | Unparsed :: _ | Lost :: _ | Ran _ _ _ Cut :: _ => None
  | _ :: r => current r
  end.
End history.

(** ** Connection strings: name = value ..., blanks around =; values with blanks in quotes; \ before ' and \ *)
Definition blank (c : Z) : bool := (c =? 32) || (9 <=? c) && (c <=? 13).
Inductive lexer := Between | Name (n : text) | Named (n : text) | Before (n : text) | Bare (n v : text) | Bare_esc (n v : text) | Quoted (n v : text) | Quoted_esc (n v : text).
Definition also (p : text * text) (r : option (list (text * text))) : option (list (text * text)) := match r with Some l => Some (p :: l) | None => None end.
Fixpoint lex (st : lexer) (s : text) : option (list (text * text)) :=
  match s with
  | [] => match st with
          | Between => Some []
          | Name _ | Named _ | Quoted _ _ | Quoted_esc _ _ => None
          | Before n => Some [(n, [])]
          | Bare n v | Bare_esc n v => Some [(n, v)]
          end
  | c :: r =>
      match st with
      | Between => if blank c then lex Between r else if c =? 61 then lex (Before []) r else lex (Name [c]) r
      | Name n => if c =? 61 then lex (Before n) r else if blank c then lex (Named n) r else lex (Name (n ++ [c])) r
      | Named n => if c =? 61 then lex (Before n) r else if blank c then lex (Named n) r else None
      | Before n => if blank c then lex (Before n) r else if c =? 39 then lex (Quoted n []) r else if c =? 92 then lex (Bare_esc n []) r else lex (Bare n [c]) r
      | Bare n v => if blank c then also (n, v) (lex Between r) else if c =? 92 then lex (Bare_esc n v) r else lex (Bare n (v ++ [c])) r
      | Bare_esc n v => lex (Bare n (v ++ [c])) r
      | Quoted n v => if c =? 92 then lex (Quoted_esc n v) r else if c =? 39 then also (n, v) (lex Between r) else lex (Quoted n (v ++ [c])) r
      | Quoted_esc n v => lex (Quoted n (v ++ [c])) r
      end
  end.
(** The settings in their order; a later one replaces an earlier one of the same name.  A string ends at its first NUL. *)
Fixpoint upto_nul (s : text) : text := match s with [] => [] | c :: r => if c =? 0 then [] else c :: upto_nul r end.
Definition settings (info : text) : option (list (text * text)) := lex Between (upto_nul info).
(** texts that mean themselves *)
Definition simple (v : text) : Prop := Forall (fun c => c <> 0 /\ blank c = false /\ c <> 92) v /\ hd 0 v <> 39.
