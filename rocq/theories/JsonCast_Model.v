(** Model of src/text/json/cast.h: to_json, from_json, from_json_with_default. *)
From Verif Require Import Common NumText_Model Double_Model Json_Model.
Local Open Scope Z_scope.

(** The types with both directions: bool, int, long / long long, double, std::string, json,
    std::vector<T>, std::map / unordered_map<std::string, T>, optional<T> and classes whose
    serialize function lists named members (MEMBER / NAMED_MEMBER).  float is in
    Single_Model (only the narrowing differs); unsigned types have no from_json. *)
Inductive ty :=
| TBool | TInt | TLong | TDouble | TStr | TJson
| TVec (t : ty) | TMap (t : ty) | TOpt (t : ty) | TRec (fs : list (list Z * ty)).

(** Values.  A map is an association list in iteration order, a record the list of its members
    in the order of its serialize function.  [VIndet] is the indeterminate value of an
    uninitialised scalar. *)
Inductive val :=
| VBool (b : bool) | VInt (n : Z) | VDbl (d : double) | VStr (s : list Z) | VJson (j : json)
| VVec (l : list val) | VMap (m : list (list Z * val)) | VOpt (o : option val) | VRec (fs : list (list Z * val))
| VIndet.

(** cast.h:196-321 to_json; a value is converted by its own type, so no type argument is needed.
    cast.h:269-289: [tmp[it->first] = ...]; cast.h:300-304: [js.add(v.name, ...)]. *)
Fixpoint to_json (v : val) : json :=
  match v with
  | VBool b => JBool b
  | VInt n => JInt n
  | VDbl d => JFloat d
  | VStr s => JStr s
  | VJson j => j
  | VVec l => JArr (map to_json l)
  | VMap m => JObj (fold_left (fun acc kv => obj_add acc (fst kv) (snd kv)) (map (fun kv => (fst kv, to_json (snd kv))) m) [])
  | VOpt o => match o with Some x => to_json x | None => JNull end
  | VRec fs => JObj (fold_left (fun acc kv => obj_add acc (fst kv) (snd kv)) (map (fun kv => (fst kv, to_json (snd kv))) fs) [])
  | VIndet => JNull
  end.

Definition wrap32 (n : Z) : Z := (n + 2 ^ 31) mod 2 ^ 32 - 2 ^ 31.

(** [std::map<std::string,T> tmp; tmp[k] = v] *)
Definition madd (m : list (list Z * val)) (k : list Z) (v : val) : list (list Z * val) := obj_add m k v.

(** cast.h:75-201, 341-569: json_cast and from_json.  [Throw] is json_bad_cast. *)
Fixpoint from_json (t : ty) (j : json) {struct t} : outcome val :=
  match t with
  | TBool => match j with JBool b => Ok (VBool b) | _ => Throw end
  | TInt => match j with JInt n => Ok (VInt (wrap32 n)) | _ => Throw end
  | TLong => match j with JInt n => Ok (VInt n) | _ => Throw end
  | TDouble => match j with
               | JFloat d => Ok (VDbl d)
               | JInt n => match int_to_double n with DOk d => Ok (VDbl d) | DRange => UB end
               | _ => Throw
               end
  | TStr => match j with JStr s => Ok (VStr s) | _ => Throw end
  | TJson => Ok (VJson j)
  | TVec u =>
      match j with
      | JArr l => omap VVec ((fix go l := match l with
                                          | [] => Ok []
                                          | x :: r => let* v := from_json u x in let* vs := go r in Ok (v :: vs)
                                          end) l)
      | _ => Throw
      end
  | TMap u =>
      match j with
      | JObj m => omap VMap ((fix go m acc := match m with
                                              | [] => Ok acc
                                              | (k, x) :: r => let* v := from_json u x in go r (madd acc k v)
                                              end) m [])
      | _ => Throw
      end
  | TOpt u => match j with JNull => Ok (VOpt None) | _ => let* v := from_json u j in Ok (VOpt (Some v)) end
  | TRec fs =>
      (* cast.h:531-547: each named_value looks its name up in turn; a missing optional member is reset *)
      omap VRec ((fix go fs :=
        match fs with
        | [] => Ok []
        | (k, u) :: r =>
            match j with
            | JObj m =>
                let* v := match obj_get m k with
                          | Some x => from_json u x
                          | None => match u with TOpt _ => Ok (VOpt None) | _ => Throw end
                          end in
                let* vs := go r in Ok ((k, v) :: vs)
            | _ => Throw      (* js.get().count throws *)
            end
        end) fs)
  end.

(** [T t;]: default initialisation (scalars stay indeterminate; members of a class likewise). *)
Fixpoint default_init (t : ty) : val :=
  match t with
  | TBool | TInt | TLong | TDouble => VIndet
  | TStr => VStr []
  | TJson => VJson JNull
  | TVec _ => VVec []
  | TMap _ => VMap []
  | TOpt _ => VOpt None
  | TRec fs => VRec (map (fun kt => (fst kt, default_init (snd kt))) fs)
  end.
(** [T()]: value initialisation, as vector::resize and map::operator[] do (a class without its own
    constructor is zeroed). *)
Fixpoint value_init (t : ty) : val :=
  match t with
  | TBool => VBool false
  | TInt | TLong => VInt 0
  | TDouble => VDbl (mkD false 0 (-1074))
  | TStr => VStr []
  | TJson => VJson JNull
  | TVec _ => VVec []
  | TMap _ => VMap []
  | TOpt _ => VOpt None
  | TRec fs => VRec (map (fun kt => (fst kt, value_init (snd kt))) fs)
  end.

(** Copying a value reads all of it. *)
Fixpoint readable (v : val) : bool :=
  match v with
  | VIndet => false
  | VVec l => forallb readable l
  | VMap m => forallb (fun kv => readable (snd kv)) m
  | VOpt o => match o with Some x => readable x | None => true end
  | VRec fs => forallb (fun kv => readable (snd kv)) fs
  | _ => true
  end.

(** cast.h:84-191, 347-581: json_cast_with_default / from_json_with_default; [v] is the value to
    be overwritten. *)
Fixpoint from_def (t : ty) (j : json) (v : val) {struct t} : outcome val :=
  match t with
  | TBool => match j with JBool b => Ok (VBool b) | _ => Ok v end
  | TInt => match j with JInt n => Ok (VInt (wrap32 n)) | _ => Ok v end
  | TLong => match j with JInt n => Ok (VInt n) | _ => Ok v end
  | TDouble => match j with
               | JFloat d => Ok (VDbl d)
               | JInt n => match int_to_double n with DOk d => Ok (VDbl d) | DRange => UB end
               | _ => Ok v
               end
  | TStr => match j with JStr s => Ok (VStr s) | _ => Ok v end
  | TJson => Ok (VJson j)
  | TVec u =>
      (* cast.h:520-529: resized if too short; the extra elements of v stay *)
      match j, v with
      | JArr l, VVec old =>
          omap VVec ((fix go l old := match l with
                                      | [] => Ok old
                                      | x :: r => match old with
                                                  | [] => let* y := from_def u x (value_init u) in let* ys := go r [] in Ok (y :: ys)
                                                  | o :: old' => let* y := from_def u x o in let* ys := go r old' in Ok (y :: ys)
                                                  end
                                      end) l old)
      | _, _ => Ok v
      end
  | TMap u =>
      match j, v with
      | JObj m, VMap old =>
          omap VMap ((fix go m acc := match m with
                                      | [] => Ok acc
                                      | (k, x) :: r =>
                                          let* y := from_def u x (match obj_get acc k with Some o => o | None => value_init u end) in
                                          go r (madd acc k y)
                                      end) m old)
      | _, _ => Ok v
      end
  | TOpt u =>
      (* cast.h:571-581: a fresh [T t], not the old value *)
      match j with
      | JNull => Ok (VOpt None)
      | _ => let* x := from_def u j (default_init u) in if readable x then Ok (VOpt (Some x)) else UB
      end
  | TRec fs =>
      match v with
      | VRec olds =>
          omap VRec ((fix go fs olds :=
            match fs, olds with
            | (k, u) :: r, (k', o) :: olds' =>
                let* y := match j with
                          | JObj m => match obj_get m k with Some x => from_def u x o | None => Ok o end
                          | _ => Ok o
                          end in
                let* ys := go r olds' in Ok ((k', y) :: ys)
            | _, _ => Ok []
            end) fs olds)
      | _ => Ok v
      end
  end.
