(** Types of C++ and the trees that describe them. *)
From Verif Require Import Common NumText_Model.
Local Open Scope Z_scope.

(** The types that can be reflected.  A float has a size in bytes; a class is what its function serialize does: name itself, visit a member under a name or
    without one. *)
Inductive cty := CBool | CChar | CInt (sgn : bool) (size : Z) | CFloat (size : Z) | CString | CStream | CVector (t : cty) | CMap (k v : cty) | CClass (ops : list cop)
with cop := OName (n : list Z) | ONamed (n : list Z) (t : cty) | OPlain (t : cty).
Inductive tree := TBool | TInt (sgn : bool) (size : Z) | TFloat | TChar | TString | TStream | TArray (t : tree) | TMap (k v : tree) | TClass (name : list Z) (members : list (list Z * tree)).
(** The tree of a type *)
Fixpoint shape (c : cty) : tree :=
  match c with
  | CBool => TBool | CChar => TChar | CInt s n => TInt s n | CFloat _ => TFloat | CString => TString | CStream => TStream
  | CVector t => TArray (shape t)
  | CMap k v => TMap (shape k) (shape v)
  | CClass ops => TClass (last (flat_map (fun o => match o with OName n => [n] | _ => [] end) ops) [])
                         (flat_map (fun o => match o with OName _ => [] | ONamed n t => [(n, shape t)] | OPlain t => [([], shape t)] end) ops)
  end.
(** The parts of a tree, each before its own parts *)
Fixpoint parts (t : tree) : list tree :=
  t :: match t with TArray t => parts t | TMap k v => parts k ++ parts v | TClass _ ms => flat_map (fun m => parts (snd m)) ms | _ => [] end.
(** Names without punctuation; sizes are positive *)
Definition plain (n : list Z) : Prop := Forall (fun c => ~ In c (str ",:(){}<>")) n.
Inductive named : tree -> Prop :=
| nm_leaf t : In t [TBool; TFloat; TChar; TString; TStream] -> named t
| nm_int s n : 0 < n -> named (TInt s n)
| nm_array t : named t -> named (TArray t)
| nm_map k v : named k -> named v -> named (TMap k v)
| nm_class n ms : plain n -> Forall (fun m => plain (fst m) /\ named (snd m)) ms -> named (TClass n ms).
(** The text of a tree; a member with a name is followed by a colon and the name *)
Fixpoint commas (l : list (list Z)) : list Z := match l with [] => [] | [x] => x | x :: r => x ++ str "," ++ commas r end.
Inductive denotes : list Z -> tree -> Prop :=
| de_bool : denotes (str "bool") TBool
| de_int n : denotes (str "int(" ++ show_int n ++ str ")") (TInt true n)
| de_uint n : denotes (str "uint(" ++ show_int n ++ str ")") (TInt false n)
| de_float : denotes (str "float") TFloat
| de_char : denotes (str "char") TChar
| de_string : denotes (str "string") TString
| de_stream : denotes (str "stream") TStream
| de_array x t : denotes x t -> denotes (str "array<" ++ x ++ str ">") (TArray t)
| de_map x k y v : denotes x k -> denotes y v -> denotes (str "map<" ++ x ++ str "," ++ y ++ str ">") (TMap k v)
| de_class n xs ms : Forall2 (fun x m => exists y, denotes y (snd m) /\ x = y ++ match fst m with [] => [] | n => str ":" ++ n end) xs ms ->
    denotes (str "class(" ++ n ++ str "){" ++ commas xs ++ str "}") (TClass n ms).
