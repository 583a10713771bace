(** Model of src/data/serialization/reflect.h and of the reflection in vector.h, map.h, string.h and iostream.h.  Overloads are resolved by the type. *)
From Verif Require Import Common NumText_Model Reflect_Spec.
Local Open Scope Z_scope.

(** reflect.h:189-191: the stacks, top first; top() and pop() of an empty stack are undefined *)
Record reflection := { stk : list (list (list Z * tree)); names : list (list Z) }.
(** reflect.h:153-156 *)
Definition enter_class (r : reflection) : reflection := {| stk := [] :: stk r; names := [] :: names r |}.
(** reflect.h:179-181 *)
Definition add (n : list Z) (t : tree) (r : reflection) : outcome reflection :=
  match stk r with top :: s => Ok {| stk := (top ++ [(n, t)]) :: s; names := names r |} | [] => UB end.
(** reflect.h:158-172 *)
Definition leave_class (r : reflection) : outcome reflection :=
  match stk r, names r with
  | ms :: s, cname :: ns => add [] (TClass cname ms) {| stk := s; names := ns |}
  | _, _ => UB
  end.
(** reflect.h:174-177 *)
Definition set_name (n : list Z) (r : reflection) : outcome reflection :=
  match names r with _ :: ns => Ok {| stk := stk r; names := n :: ns |} | [] => UB end.
(** reflect.h:183-185 *)
Definition get (r : reflection) : outcome tree := match stk r with ((_, t) :: _) :: _ => Ok t | _ => UB end.
(** reflect.h:149-151 *)
Definition new_reflection : reflection := enter_class {| stk := []; names := [] |}.
(** serialize(ref, v) for a v of type c: reflect.h:194-200 (classes), 204-228 (the others), 271-275 (members), 289-292 (names), vector.h:89-93,
    map.h:103-108, string.h:65-69, iostream.h:158-162; get_type, reflect.h:243-250 *)
Fixpoint serialize (c : cty) (r : reflection) : outcome reflection :=
  let get_type c := let* r := serialize c new_reflection in get r in
  match c with
  | CBool => add [] TBool r
  | CChar => add [] TChar r
  | CInt s n => add [] (TInt s n) r
  | CFloat _ => add [] TFloat r
  | CString => add [] TString r
  | CStream => add [] TStream r
  | CVector t => let* t := get_type t in add [] (TArray t) r
  | CMap k v => let* k := get_type k in let* v := get_type v in add [] (TMap k v) r
  | CClass ops =>
      let* r := (fix run (ops : list cop) (r : reflection) : outcome reflection :=
        match ops with
        | [] => Ok r
        | o :: ops => let* r := match o with
                                | OName n => set_name n r
                                | ONamed n t => let* t := (let* r := serialize t new_reflection in get r) in add n t r
                                | OPlain t => serialize t r
                                end in run ops r
        end) ops (enter_class r) in
      leave_class r
  end.
Definition get_type (c : cty) : outcome tree := let* r := serialize c new_reflection in get r.
(** reflect.h:60-62, 72-74, 85-87, 94-96, 130-140; vector.h:77-81, map.h:82-88, string.h:60-62, iostream.h:153-155 *)
Fixpoint print (t : tree) : list Z :=
  match t with
  | TBool => str "bool"
  | TInt s n => (if s then str "int" else str "uint") ++ str "(" ++ show_int n ++ str ")"
  | TFloat => str "float"
  | TChar => str "char"
  | TString => str "string"
  | TStream => str "stream"
  | TArray t => str "array<" ++ print t ++ str ">"
  | TMap k v => str "map<" ++ print k ++ str "," ++ print v ++ str ">"
  | TClass n ms =>
      str "class(" ++ n ++ str "){" ++
      (fix members (first : bool) (ms : list (list Z * tree)) : list Z :=
         match ms with
         | [] => []
         | (n, t) :: ms => (if first then [] else str ",") ++ print t ++ (match n with [] => [] | _ => str ":" ++ n end) ++ members false ms
         end) true ms ++ str "}"
  end.
(** reflect.h:52, 124-128, vector.h:72-75, map.h:76-80, iostream.h:149-151: the calls of f in their order *)
Fixpoint traverse (t : tree) : list tree :=
  match t with
  | TArray u => t :: traverse u
  | TMap k v => t :: traverse k ++ traverse v
  | TClass _ ms => t :: (fix each (ms : list (list Z * tree)) : list tree := match ms with [] => [] | m :: ms => traverse (snd m) ++ each ms end) ms
  | _ => [t]
  end.
