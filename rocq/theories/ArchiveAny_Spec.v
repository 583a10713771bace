(** Which types can be read from any bytes whatever. *)
From Verif Require Import Common Archive_Model.

(** Arithmetic types have at least one byte. *)
Fixpoint proper (t : ty) : Prop :=
  match t with
  | TNum n _ => n <> 0
  | TBool | TStr => True
  | TSeq t | TArr _ t | TSet t | TUSet t => proper t
  | TPair a b | TMap a b | TUMap a b => proper a /\ proper b
  end.
(** No [bool] anywhere inside. *)
Fixpoint no_bool (t : ty) : Prop :=
  match t with
  | TBool => False
  | TNum _ _ | TStr => True
  | TSeq t | TArr _ t | TSet t | TUSet t => no_bool t
  | TPair a b | TMap a b | TUMap a b => no_bool a /\ no_bool b
  end.
(** [p] is the first of the entries with its key. *)
Definition first_entry (l : list (val * val)) (p : val * val) : Prop :=
  exists pre post, l = pre ++ p :: post /\ Forall (fun q => fst q <> fst p) pre.
(** An entry of a map is the pair of its key and its value. *)
Definition entry (p : val * val) : val := VP (fst p) (snd p).
(** operator< of C++: false is less than true, and strings, vectors, lists, sets, maps and pairs are compared lexicographically,
    strings by their bytes. *)
Inductive less : val -> val -> Prop :=
| less_bool : less (VB false) (VB true)
| less_num x y : (x < y)%Z -> less (VN x) (VN y)
| less_str p x s y t : (x < y)%Z -> less (VS (p ++ x :: s)) (VS (p ++ y :: t))
| less_str_end s y t : less (VS s) (VS (s ++ y :: t))
| less_list p a x b y : less a b -> less (VL (p ++ a :: x)) (VL (p ++ b :: y))
| less_list_end x b y : less (VL x) (VL (x ++ b :: y))
| less_first a b c d : less a c -> less (VP a b) (VP c d)
| less_second a b d : less b d -> less (VP a b) (VP a d).
