(** What the conversions between C++ values and JSON should do. *)
From Coq Require Import Permutation.
From Verif Require Import Common Double_Model Double_Spec Json_Model Json_Spec JsonCast_Model.
Local Open Scope Z_scope.
(* Of the models only the types [double], [json], [ty] and [val] are used. *)

(** [typed t v]: v is a value of the C++ type t. *)
Inductive typed : ty -> val -> Prop :=
| ty_bool b : typed TBool (VBool b)
| ty_int n : - 2 ^ 31 <= n < 2 ^ 31 -> typed TInt (VInt n)
| ty_long n : - 2 ^ 63 <= n < 2 ^ 63 -> typed TLong (VInt n)
| ty_dbl d : typed TDouble (VDbl d)
| ty_str s : typed TStr (VStr s)
| ty_json j : typed TJson (VJson j)
| ty_vec t l : Forall (typed t) l -> typed (TVec t) (VVec l)
| ty_map t m : NoDup (map fst m) -> Forall (fun kv => typed t (snd kv)) m -> typed (TMap t) (VMap m)
| ty_none t : typed (TOpt t) (VOpt None)
| ty_some t x : typed t x -> typed (TOpt t) (VOpt (Some x))
| ty_rec fs vs : Forall2 (fun kt kv => fst kt = fst kv /\ typed (snd kt) (snd kv)) fs vs -> typed (TRec fs) (VRec vs).

(** Types that never become null, so that an optional of them can be told apart. *)
Definition never_null (t : ty) : Prop := match t with TOpt _ | TJson => False | _ => True end.
(** Supported types: optionals of types that are never null, members with different names. *)
Fixpoint plain (t : ty) : Prop :=
  match t with
  | TVec u | TMap u => plain u
  | TOpt u => never_null u /\ plain u
  | TRec fs => NoDup (map fst fs) /\ fold_right (fun kt acc => plain (snd kt) /\ acc) True fs
  | _ => True
  end.

(** Equality of values; the order of the entries of a map does not count. *)
Inductive veq : val -> val -> Prop :=
| ve_bool b : veq (VBool b) (VBool b)
| ve_int n : veq (VInt n) (VInt n)
| ve_dbl d : veq (VDbl d) (VDbl d)
| ve_str s : veq (VStr s) (VStr s)
| ve_json j k : same j k -> veq (VJson j) (VJson k)
| ve_vec l m : veq_list l m -> veq (VVec l) (VVec m)
| ve_map l m m' : veq_mem l m' -> Permutation m' m -> veq (VMap l) (VMap m)
| ve_none : veq (VOpt None) (VOpt None)
| ve_some x y : veq x y -> veq (VOpt (Some x)) (VOpt (Some y))
| ve_rec l m : veq_mem l m -> veq (VRec l) (VRec m)
with veq_list : list val -> list val -> Prop :=
| vl_nil : veq_list [] []
| vl_cons x y l m : veq x y -> veq_list l m -> veq_list (x :: l) (y :: m)
with veq_mem : list (list Z * val) -> list (list Z * val) -> Prop :=
| vm_nil : veq_mem [] []
| vm_cons k x y l m : veq x y -> veq_mem l m -> veq_mem ((k, x) :: l) ((k, y) :: m).

(** [fits t j]: the kinds of JSON value that make up a value of type t. *)
Inductive fits : ty -> json -> Prop :=
| ft_bool b : fits TBool (JBool b)
| ft_int n : fits TInt (JInt n)
| ft_long n : fits TLong (JInt n)
| ft_dbl d : fits TDouble (JFloat d)
| ft_dbl_int n : fits TDouble (JInt n)
| ft_str s : fits TStr (JStr s)
| ft_json j : fits TJson j
| ft_vec t l : Forall (fits t) l -> fits (TVec t) (JArr l)
| ft_map t m : Forall (fun kv => fits t (snd kv)) m -> fits (TMap t) (JObj m)
| ft_null t : fits (TOpt t) JNull
| ft_opt t j : fits t j -> fits (TOpt t) j
| ft_rec0 j : fits (TRec []) j
| ft_rec fs m :
    (forall k t, In (k, t) fs -> (exists j, In (k, j) m /\ fits t j) \/ (~ In k (map fst m) /\ exists u, t = TOpt u)) ->
    fits (TRec fs) (JObj m).

(** Types without scalars whose default initialisation leaves them indeterminate. *)
Fixpoint initialised (t : ty) : Prop :=
  match t with
  | TBool | TInt | TLong | TDouble => False
  | TRec fs => fold_right (fun kt acc => initialised (snd kt) /\ acc) True fs
  | _ => True
  end.
Fixpoint safe_optionals (t : ty) : Prop :=
  match t with
  | TVec u | TMap u => safe_optionals u
  | TOpt u => initialised u /\ safe_optionals u
  | TRec fs => fold_right (fun kt acc => safe_optionals (snd kt) /\ acc) True fs
  | _ => True
  end.

(** The kind of JSON value a type is read from at top level. *)
Definition top_kind (t : ty) (j : json) : Prop :=
  match t, j with
  | TBool, JBool _ | TInt, JInt _ | TLong, JInt _ | TDouble, JFloat _ | TDouble, JInt _ | TStr, JStr _
  | TVec _, JArr _ | TMap _, JObj _ | TRec _, JObj _ | TJson, _ | TOpt _, _ => True
  | _, _ => False
  end.

(** An empty value of a type: containers empty, optionals not set; scalars may hold anything. *)
Inductive blank : ty -> val -> Prop :=
| bl_bool v : blank TBool v
| bl_int v : blank TInt v
| bl_long v : blank TLong v
| bl_dbl v : blank TDouble v
| bl_str v : blank TStr v
| bl_json v : blank TJson v
| bl_vec t : blank (TVec t) (VVec [])
| bl_map t : blank (TMap t) (VMap [])
| bl_opt t : blank (TOpt t) (VOpt None)
| bl_rec fs vs : Forall2 (fun kt kv => fst kt = fst kv /\ blank (snd kt) (snd kv)) fs vs -> blank (TRec fs) (VRec vs).
