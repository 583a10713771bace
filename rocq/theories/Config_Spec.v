(** Configuration files: lines, what they say, and what a file says. *)
From Verif Require Import Common.
Local Open Scope Z_scope.

Definition blank (c : Z) : Prop := In c [32; 9; 10; 11; 12; 13].
Inductive item := Nothing | Section_ (name : list Z) | Setting (key value : list Z).
(** no blank at either end *)
Definition trimmed (s : list Z) : Prop := match s with [] => True | c :: _ => ~ blank c /\ ~ blank (last s 0) end.
(** in double quotes *)
Definition quoted (s : list Z) : Prop := exists v, s = 34 :: v ++ [34].
(** [says line it]: the ways to write an item *)
Inductive says : list Z -> item -> Prop :=
| says_blank w : Forall blank w -> says w Nothing
| says_comment w t : Forall blank w -> says (w ++ 59 :: t) Nothing
| says_section w name w' : Forall blank w -> Forall blank w' -> ~ In 93 name -> says (w ++ 91 :: name ++ 93 :: w') (Section_ name)
| says_setting w key w1 w2 text w3 v :
    Forall blank w -> Forall blank w1 -> Forall blank w2 -> Forall blank w3 ->
    trimmed key -> ~ In 61 key -> hd 0 key <> 59 -> hd 0 key <> 91 ->
    trimmed text -> (~ quoted text /\ v = text \/ text = 34 :: v ++ [34]) ->
    says (w ++ key ++ w1 ++ 61 :: w2 ++ text ++ w3) (Setting key v).
(** A line that says nothing meaningful: an opened section with no end or with something behind it, or no '='. *)
Inductive malformed : list Z -> Prop :=
| mal_open w t : Forall blank w -> ~ In 93 t -> malformed (w ++ 91 :: t)
| mal_behind w name w' c t : Forall blank w -> ~ In 93 name -> Forall blank w' -> ~ blank c -> malformed (w ++ 91 :: name ++ 93 :: w' ++ c :: t)
| mal_nothing w c t : Forall blank w -> ~ blank c -> c <> 59 -> c <> 91 -> ~ In 61 (c :: t) -> malformed (w ++ c :: t).

(** the settings of a file, each with its section, in order; settings before any section are in section "" *)
Fixpoint settings (cur : list Z) (its : list item) : list ((list Z * list Z) * list Z) :=
  match its with
  | [] => []
  | Nothing :: its => settings cur its
  | Section_ n :: its => settings n its
  | Setting k v :: its => ((cur, k), v) :: settings cur its
  end.
(** [last_value l sk v]: the last setting for sk gives v *)
Definition last_value (l : list ((list Z * list Z) * list Z)) (sk : list Z * list Z) (v : option (list Z)) : Prop :=
  match v with
  | Some v => exists l1 l2, l = l1 ++ (sk, v) :: l2 /\ forall v', ~ In (sk, v') l2
  | None => forall v', ~ In (sk, v') l
  end.
(** the sections that a file opens or has settings in *)
Fixpoint sections (cur : list Z) (its : list item) : list (list Z) :=
  match its with
  | [] => []
  | Nothing :: its => sections cur its
  | Section_ n :: its => n :: sections n its
  | Setting _ _ :: its => cur :: sections cur its
  end.
(** [text_of lines t]: t is the lines, each ended by a newline, which the last may lack if it is not empty. *)
Inductive text_of : list (list Z) -> list Z -> Prop :=
| text_none : text_of [] []
| text_last l : l <> [] -> ~ In 10 l -> text_of [l] l
| text_more l ls t : ~ In 10 l -> text_of ls t -> text_of (l :: ls) (l ++ 10 :: t).
