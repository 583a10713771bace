(** PHP values and the C++ values they stand for; what a PHP client of an RPC server should see. *)
From Verif Require Import Common NumText_Model Reflect_Spec Archive_Model Archive_Spec Rpc_Spec.
From Coq Require Import Permutation.
Local Open Scope Z_scope.

(** Values of PHP on a 64-bit machine.  Keys of arrays are integers or strings; a float is its bit pattern; arrays and objects list their entries in order. *)
Inductive pkey := KInt (z : Z) | KStr (s : list Z).
Inductive pv := PNull | PBool (b : bool) | PInt (z : Z) | PFloat (bits : Z) | PStr (s : list Z) | PArr (l : list (pkey * pv)) | PObj (cls : list Z) (fs : list (list Z * pv)).

(** A service, as RPC_GEN and RPC_PROC declare it: result and arguments of every procedure *)
Record ssig := { s_name : list Z; s_procs : list (list Z * (cty * list cty)) }.

(** What a C++ type is in an archive: a class is its members, one after the other *)
Fixpoint wire (c : cty) : ty :=
  match c with
  | CBool => TBool
  | CChar => TNum 1 true
  | CInt s n => TNum (Z.to_nat n) s
  | CFloat n => TNum (Z.to_nat n) false
  | CString | CStream => TStr
  | CVector t => TSeq (wire t)
  | CMap k t => TMap (wire k) (wire t)
  | CClass ops => (fix members (ops : list cop) : ty :=
                     match ops with [] => TArr 0 TBool | OName _ :: r => members r | ONamed _ t :: r | OPlain t :: r => TPair (wire t) (members r) end) ops
  end.

(** PHP takes a key that is the decimal text of an integer for that integer. *)
Definition int64 (z : Z) : Prop := - 2 ^ 63 <= z < 2 ^ 63.
Definition key_for (v : val) (k : pkey) : Prop :=
  match v with
  | VN z => k = KInt z
  | VS s => (exists z, int64 z /\ s = show_int z /\ k = KInt z) \/ ((forall z, int64 z -> s <> show_int z) /\ k = KStr s)
  | _ => False
  end.
(** The first attribute of that name *)
Inductive attribute (n : list Z) (q : pv) : list (list Z * pv) -> Prop :=
| at_here r : attribute n q ((n, q) :: r)
| at_next m x r : m <> n -> attribute n q r -> attribute n q ((m, x) :: r).
(** [represents c v p]: the PHP value [p] stands for the value [v] of the C++ type [c].  Maps may be listed in any order. *)
Fixpoint represents (c : cty) (v : val) (p : pv) : Prop :=
  match c with
  | CInt _ _ => exists z, v = VN z /\ p = PInt z
  | CFloat _ => exists z, v = VN z /\ p = PFloat z
  | CString => exists s, v = VS s /\ p = PStr s
  | CVector t => exists l q, v = VL l /\ p = PArr (combine (map (fun i => KInt (Z.of_nat i)) (seq 0 (length q))) q) /\ Forall2 (represents t) l q
  | CMap k t => exists (l : list (val * val)) q q', v = VL (map (fun x => VP (fst x) (snd x)) l) /\ p = PArr q' /\ Permutation q q' /\
      Forall2 (fun x y => key_for (fst x) (fst y) /\ represents t (snd x) (snd y)) l q
  | CClass ops => exists n fs, p = PObj n fs /\
      (fix members (ops : list cop) (v : val) : Prop :=
         match ops with
         | [] => v = VL []
         | OName _ :: r => members r v
         | ONamed n t :: r => exists x y q, v = VP x y /\ attribute n q fs /\ represents t x q /\ members r y
         | OPlain _ :: _ => False
         end) ops v
  | _ => False
  end.
(** No string in the value is empty. *)
Inductive filled : val -> Prop :=
| fi_bool b : filled (VB b)
| fi_num z : filled (VN z)
| fi_str s : s <> [] -> filled (VS s)
| fi_list l : Forall filled l -> filled (VL l)
| fi_pair x y : filled x -> filled y -> filled (VP x y).

(** Objects of the classes by those names, with all their attributes *)
Inductive made : tree -> pv -> Prop :=
| ma_plain t p : (match t with TArray _ | Reflect_Spec.TMap _ _ | TClass _ _ => False | _ => True end) -> made t p
| ma_array t q : Forall (fun e => made t (snd e)) q -> made (TArray t) (PArr q)
| ma_map k t q : Forall (fun e => made t (snd e)) q -> made (Reflect_Spec.TMap k t) (PArr q)
| ma_class n ms fs : Forall2 (fun m f => fst f = fst m /\ made (snd m) (snd f)) ms fs -> made (TClass n ms) (PObj n fs).

(** Identifiers; letters of either case are the same to PHP in the names of classes and functions *)
Definition letter (c : Z) : Prop := 65 <= c <= 90 \/ 97 <= c <= 122 \/ c = 95.
Definition ident (n : list Z) : Prop := exists c r, n = c :: r /\ letter c /\ Forall (fun c => letter c \/ 48 <= c <= 57) r.
Definition lower (n : list Z) : list Z := map (fun c => if (65 <=? c) && (c <=? 90) then c + 32 else c) n.

(** The types that PHP clients can handle: numbers of up to four bytes, double, strings, vectors, maps from strings or such integers, and classes that give their own
    name and distinct names of all their members. *)
Inductive key_type : cty -> Prop :=
| kt_int s n : In n [1; 2; 4] -> key_type (CInt s n)
| kt_string : key_type CString.
Definition names_of (ops : list cop) : list (list Z) := flat_map (fun o => match o with OName _ => [] | ONamed n _ => [n] | OPlain _ => [[]] end) ops.
Inductive carried : cty -> Prop :=
| ca_int s n : In n [1; 2; 4] -> carried (CInt s n)
| ca_double : carried (CFloat 8)
| ca_string : carried CString
| ca_vector t : carried t -> carried (CVector t)
| ca_map k t : key_type k -> carried t -> carried (CMap k t)
| ca_class ops : Forall carried_op ops -> (exists n, In (OName n) ops) -> NoDup (names_of ops) -> carried (CClass ops)
with carried_op : cop -> Prop :=
| co_name n : ident n -> carried_op (OName n)
| co_member n t : ident n -> carried t -> carried_op (ONamed n t).

Definition types_of (sigs : list ssig) : list cty := flat_map (fun s => flat_map (fun p => fst (snd p) :: snd (snd p)) (s_procs s)) sigs.
Definition is_class (t : tree) : Prop := match t with TClass _ _ => True | _ => False end.
Definition cname (t : tree) : list Z := match t with TClass n _ => n | _ => [] end.
(** A class among the types of the services *)
Definition mentioned (sigs : list ssig) (t : tree) : Prop := is_class t /\ exists c, In c (types_of sigs) /\ In t (parts (shape c)).
(** The names that pfi_rpc.php gives to classes *)
Definition library : list (list Z) := map str ["buffer"; "int_type"; "string_type"; "float_type"; "array_type"; "map_type"; "class_type"]%string.
(** Services for which a PHP client can be made.  [taken]: the words that PHP does not allow as names of classes, in small letters. *)
Record suitable (taken : list (list Z)) (sigs : list ssig) : Prop := {
  su_types : Forall carried (types_of sigs);
  su_classes : forall x y, mentioned sigs x -> mentioned sigs y -> lower (cname x) = lower (cname y) -> x = y;
  su_class_names : forall x, mentioned sigs x -> ~ In (lower (cname x)) (taken ++ library ++ map (fun s => lower (s_name s ++ str "_client")) sigs);
  su_services : Forall (fun s => ident (s_name s) /\ ~ In (lower (s_name s ++ str "_client")) (taken ++ library)) sigs;
  su_services_distinct : NoDup (map (fun s => lower (s_name s)) sigs);
  su_procs : Forall (fun s => Forall (fun p => ident (fst p) /\ small (fst p)) (s_procs s) /\ NoDup (map (fun p => lower (fst p)) (s_procs s))) sigs }.

(** The server has the procedures of the service, with these types; they return values without empty strings. *)
Definition offers {A} (svc : service A) (s : ssig) : Prop :=
  forall m ret args, In (m, (ret, args)) (s_procs s) -> exists f, registered svc m f /\ f_args f = map wire args /\ f_ret f = wire ret /\
    forall a vs, Forall2 has_type (f_args f) vs -> exists a' v, f_body f a vs = (a', Ret v) /\ has_type (f_ret f) v /\ filled v.
(** A call by PHP: the name of a procedure and arguments, which stand for C++ values of its types *)
Definition stand_for (args : list cty) (vs : list val) (ps : list pv) : Prop :=
  Forall2 has_type (map wire args) vs /\ Forall2 (fun x p => represents (fst x) (snd x) p) (combine args vs) ps.
Definition proper_call (s : ssig) (c : list Z * list pv) : Prop :=
  exists ret args vs, In (fst c, (ret, args)) (s_procs s) /\ stand_for args vs (snd c).
(** Calls, one after the other, give what the C++ functions give. *)
Inductive answered {A} (svc : service A) (s : ssig) : A -> list (list Z * list pv) -> A -> list pv -> Prop :=
| ad_nil a : answered svc s a [] a []
| ad_cons a m ps ret args f vs a1 v p cs a2 rs : In (m, (ret, args)) (s_procs s) -> registered svc m f -> stand_for args vs ps ->
    f_body f a vs = (a1, Ret v) -> represents ret v p -> made (shape ret) p -> answered svc s a1 cs a2 rs -> answered svc s a ((m, ps) :: cs) a2 (p :: rs).
