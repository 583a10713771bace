(** Haskell values and the C++ values they stand for; what a Haskell client of an RPC server should see. *)
From Verif Require Import Common NumText_Model Reflect_Spec Archive_Model Archive_Spec Rpc_Spec Php_Spec.
From Coq Require Import Permutation.
Local Open Scope Z_scope.

(** Values of Haskell: Int, Double (its bit pattern), Char (its code), lists (a String is one of Chars), Map, and records with the values of their fields in order *)
Inductive hv := HInt (z : Z) | HDouble (bits : Z) | HChar (c : Z) | HList (l : list hv) | HMap (l : list (hv * hv)) | HObj (cls : list Z) (vs : list hv).

(** Names of types begin with a capital letter. *)
Definition capital (n : list Z) : list Z := match n with c :: r => (if (97 <=? c) && (c <=? 122) then c - 32 else c) :: r | [] => [] end.
Definition uncapital (n : list Z) : list Z := match n with c :: r => (if (65 <=? c) && (c <=? 90) then c + 32 else c) :: r | [] => [] end.
(** The function that gives member [m] of the class [n], and the function that calls procedure [m] *)
Definition field (n m : list Z) : list Z := uncapital n ++ str "_" ++ m.
Definition call_ (m : list Z) : list Z := str "call_" ++ m.

(** [hrep c v p]: the Haskell value [p] stands for the value [v] of the C++ type [c].  Maps may be listed in any order. *)
Fixpoint hrep (c : cty) (v : val) (p : hv) : Prop :=
  match c with
  | CInt _ _ => exists z, v = VN z /\ p = HInt z
  | CFloat _ => exists z, v = VN z /\ p = HDouble z
  | CChar => exists z, v = VN z /\ p = HChar (z mod 256)
  | CString => exists s, v = VS s /\ p = HList (map HChar s)
  | CVector t => exists l q, v = VL l /\ p = HList q /\ Forall2 (hrep t) l q
  | CMap k t => exists (l : list (val * val)) q q', v = VL (map (fun x => VP (fst x) (snd x)) l) /\ p = HMap q' /\ Permutation q q' /\
      Forall2 (fun x y => hrep k (fst x) (fst y) /\ hrep t (snd x) (snd y)) l q
  | CClass ops => exists vs, p = HObj (capital (cname (shape (CClass ops)))) vs /\
      (fix members (ops : list cop) (v : val) (vs : list hv) : Prop :=
         match ops with
         | [] => v = VL [] /\ vs = []
         | OName _ :: r => members r v vs
         | ONamed _ t :: r | OPlain t :: r => exists x y q qs, v = VP x y /\ vs = q :: qs /\ hrep t x q /\ members r y qs
         end) ops v vs
  | CBool | CStream => False
  end.
(** [P] holds of all numbers in a value, with their types. *)
Fixpoint numbers (P : cty -> Z -> Prop) (c : cty) (v : val) : Prop :=
  match c with
  | CInt _ _ | CFloat _ | CChar => forall z, v = VN z -> P c z
  | CVector t => forall l, v = VL l -> Forall (numbers P t) l
  | CMap k t => forall l : list (val * val), v = VL (map (fun x => VP (fst x) (snd x)) l) -> Forall (fun x => numbers P k (fst x) /\ numbers P t (snd x)) l
  | CClass ops =>
      (fix members (ops : list cop) (v : val) : Prop :=
         match ops with
         | [] => True
         | OName _ :: r => members r v
         | ONamed _ t :: r | OPlain t :: r => forall x y, v = VP x y -> numbers P t x /\ members r y
         end) ops v
  | _ => True
  end.
(** A double that is neither NaN nor -0 *)
Definition ordinary (bits : Z) : Prop := bits <> 2 ^ 63 /\ ~ (bits / 2 ^ 52 mod 2 ^ 11 = 2047 /\ bits mod 2 ^ 52 <> 0).
(** What can be an argument: ordinary doubles.  What can be a result: ordinary doubles and no negative integers. *)
Definition sendable : cty -> val -> Prop := numbers (fun c z => match c with CFloat _ => ordinary z | _ => True end).
Definition receivable : cty -> val -> Prop := numbers (fun c z => match c with CFloat _ => ordinary z | CInt _ _ => 0 <= z | _ => True end).
(** realToFrac :: Double -> CDouble and back.  Depending on the optimisation it is the identity or goes by rational numbers. *)
Definition conversion (f : Z -> Z) : Prop := forall b, 0 <= b < 2 ^ 64 -> ordinary b -> f b = b.

(** The types that Haskell clients can handle: numbers of four bytes, double, char, strings, vectors, maps from integers, chars or strings, and classes that have
    members and give their own name and distinct names of their members (one may have none). *)
Inductive hkey : cty -> Prop :=
| hk_int s : hkey (CInt s 4)
| hk_char : hkey CChar
| hk_string : hkey CString.
Definition rest_of_name (n : list Z) : Prop := Forall (fun c => letter c \/ 48 <= c <= 57) n.
Inductive hcarried : cty -> Prop :=
| hc_int s : hcarried (CInt s 4)
| hc_double : hcarried (CFloat 8)
| hc_char : hcarried CChar
| hc_string : hcarried CString
| hc_vector t : hcarried t -> hcarried (CVector t)
| hc_map k t : hkey k -> hcarried t -> hcarried (CMap k t)
| hc_class ops : Forall hcarried_op ops -> (exists n, In (OName n) ops) -> NoDup (names_of ops) -> names_of ops <> [] -> hcarried (CClass ops)
with hcarried_op : cop -> Prop :=
| ho_name n : ident n -> hd 0 n <> 95 -> hcarried_op (OName n)
| ho_member n t : rest_of_name n -> hcarried t -> hcarried_op (ONamed n t)
| ho_plain t : hcarried t -> hcarried_op (OPlain t).

(** The names of types and constructors that the generated module gets from PFIRPC, Data.Map and, among others, the Prelude *)
Definition hlibrary : list (list Z) := map str ["RPCClient"; "RPCType"; "RPCValue"; "BinaryRPCClient"; "Map"; "Int"; "Double"; "Char"; "String"; "Bool"; "IO"; "Eq"; "Show"]%string.
Definition members_of (t : tree) : list (list Z) := match t with TClass _ ms => map fst ms | _ => [] end.
(** A service for which a Haskell client can be made.  [taken]: the other names of types and constructors in scope; [file]: the name of the output *)
Record hsuitable (taken : list (list Z)) (file : list Z) (s : ssig) : Prop := {
  hs_file : ident file /\ hd 0 file <> 95;
  hs_types : Forall hcarried (types_of [s]);
  hs_classes : forall x y, mentioned [s] x -> mentioned [s] y -> capital (cname x) = capital (cname y) -> x = y;
  hs_names : forall x, mentioned [s] x -> ~ In (capital (cname x)) (taken ++ hlibrary);
  hs_fields : forall x y m n, mentioned [s] x -> mentioned [s] y -> In m (members_of x) -> In n (members_of y) -> field (cname x) m = field (cname y) n -> x = y;
  hs_calls : forall x m p, mentioned [s] x -> In m (members_of x) -> In p (s_procs s) -> field (cname x) m <> call_ (fst p);
  hs_procs : Forall (fun p => ident (fst p) /\ small (fst p)) (s_procs s) /\ NoDup (map fst (s_procs s)) }.

(** The server has the procedures of the service, with these types; they return values that Haskell can receive. *)
Definition hoffers {A} (svc : service A) (s : ssig) : Prop :=
  forall m ret args, In (m, (ret, args)) (s_procs s) -> exists f, registered svc m f /\ f_args f = map wire args /\ f_ret f = wire ret /\
    forall a vs, Forall2 has_type (f_args f) vs -> exists a' v, f_body f a vs = (a', Ret v) /\ has_type (f_ret f) v /\ receivable ret v.
(** A call: the name of a procedure and arguments, which stand for C++ values of its types *)
Definition hstand (args : list cty) (vs : list val) (ps : list hv) : Prop :=
  Forall2 has_type (map wire args) vs /\ Forall2 (fun x p => sendable (fst x) (snd x) /\ hrep (fst x) (snd x) p) (combine args vs) ps.
Definition hproper (s : ssig) (c : list Z * list hv) : Prop :=
  exists ret args vs, In (fst c, (ret, args)) (s_procs s) /\ hstand args vs (snd c).
(** Calls, one after the other, give what the C++ functions give. *)
Inductive hanswered {A} (svc : service A) (s : ssig) : A -> list (list Z * list hv) -> A -> list hv -> Prop :=
| ha_nil a : hanswered svc s a [] a []
| ha_cons a m ps ret args f vs a1 v p cs a2 rs : In (m, (ret, args)) (s_procs s) -> registered svc m f -> hstand args vs ps ->
    f_body f a vs = (a1, Ret v) -> hrep ret v p -> hanswered svc s a1 cs a2 rs -> hanswered svc s a ((m, ps) :: cs) a2 (p :: rs).
