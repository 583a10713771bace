(** What a program written with the tag macros means: a forest of elements. *)
From Verif Require Import Common Xhtml_Model Xhtml_Spec.
From Coq Require Import Sorted.
Local Open Scope Z_scope.

(** Statements: attr__(k) changes the attribute's value with f (an assignment, an append), tag__(n) { ... }, text__, prim__, throw, try { ... } catch (...) {},
    and assignments to the members xmltag and dtd. *)
Inductive stmt :=
| SAttr (k : list Z) (f : list Z -> list Z) | STag (n : list Z) (body : list stmt) | SText (s : list Z) | SPrim (s : list Z)
| SThrow | STry (body : list stmt) | SXmltag (s : list Z) | SDtd (s : list Z).
(** Strings in the order of their bytes *)
Inductive before : list Z -> list Z -> Prop :=
| before_nil c s : before [] (c :: s)
| before_lt c d s t : c < d -> before (c :: s) (d :: t)
| before_eq c s t : before s t -> before (c :: s) (c :: t).
(** The changes of one attribute in their order *)
Definition changes (l : list (list Z * (list Z -> list Z))) (k : list Z) : list (list Z -> list Z) :=
  flat_map (fun c => if list_eq_dec Z.eq_dec (fst c) k then [snd c] else []) l.
(** The attributes of a tag: those that were changed, each once, in order, with the value all changes make of the empty string *)
Definition attributes (l : list (list Z * (list Z -> list Z))) (a : list (list Z * list Z)) : Prop :=
  StronglySorted before (map fst a) /\ forall k v, In (k, v) a <-> changes l k <> [] /\ v = fold_left (fun v f => f v) (changes l k) [].
(** What a block makes: changes of the attributes of the tag around, elements, settings of xmltag (true) or dtd, and whether an exception leaves it *)
Inductive makes : list stmt -> list (list Z * (list Z -> list Z)) -> list elem -> list (bool * list Z) -> bool -> Prop :=
| m_nil : makes [] [] [] [] false
| m_attr k f p l g x b : makes p l g x b -> makes (SAttr k f :: p) ((k, f) :: l) g x b
| m_text s p l g x b : makes p l g x b -> makes (SText s :: p) l (Text s :: g) x b
| m_prim s p l g x b : makes p l g x b -> makes (SPrim s :: p) l (Prim s :: g) x b
| m_tag n q lq gq xq a p l g x b : makes q lq gq xq false -> attributes lq a -> makes p l g x b -> makes (STag n q :: p) l (Tag n a gq :: g) (xq ++ x) b
| m_tag_throw n q lq gq xq a p : makes q lq gq xq true -> attributes lq a -> makes (STag n q :: p) [] [Tag n a gq] xq true
| m_throw p : makes (SThrow :: p) [] [] [] true
| m_try q lq gq xq bq p l g x b : makes q lq gq xq bq -> makes p l g x b -> makes (STry q :: p) (lq ++ l) (gq ++ g) (xq ++ x) b
| m_xml s p l g x b : makes p l g x b -> makes (SXmltag s :: p) l g ((true, s) :: x) b
| m_dtd s p l g x b : makes p l g x b -> makes (SDtd s :: p) l g ((false, s) :: x) b.
(** the last setting *)
Definition setting (which : bool) (x : list (bool * list Z)) (default : list Z) : list Z :=
  last (flat_map (fun e => if Bool.eqb (fst e) which then [snd e] else []) x) default.
(** A program assigns attributes only within tags (otherwise it does not compile). *)
Fixpoint closed1 (s : stmt) : Prop :=
  match s with SAttr _ _ => False | STry q => (fix go (l : list stmt) := match l with [] => True | s :: l => closed1 s /\ go l end) q | _ => True end.
Definition closed (p : list stmt) : Prop := Forall closed1 p.
(** Programs that use names for tags and attributes and no raw text *)
Inductive nice1 : stmt -> Prop :=
| n_attr k f : is_name k -> nice1 (SAttr k f)
| n_tag n q : is_name n -> Forall nice1 q -> nice1 (STag n q)
| n_text s : nice1 (SText s)
| n_throw : nice1 SThrow
| n_try q : Forall nice1 q -> nice1 (STry q)
| n_xml s : nice1 (SXmltag s)
| n_dtd s : nice1 (SDtd s).
