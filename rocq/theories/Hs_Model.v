(** Model of tools/genrpc/gen_hs.h (what the generated Haskell module is, not the layout of its text), of tools/genrpc/PFIRPC.hs and of the generated functions, on a
    64-bit little-endian machine against the server of Rpc_Model.  The buffer of the handle is sent by hFlush; hGet waits for all it asks for.  Values are finite and
    evaluated: one that fails when it is looked at counts as a failure at once ([Fatal]; [Exn m] is a call of error).  Bytes from 128 on in names, and different classes
    with one name, are [Unsure]. *)
From Verif Require Import Common NumText_Model Reflect_Spec Reflect_Model Archive_Model Rpc_Spec Rpc_Model Php_Spec Php_Model Hs_Spec.
Local Open Scope Z_scope.

(** ** gen_hs.h *)
(** The module: classes with their members, functions with the types of result and arguments *)
Record hmodule := { hclasses : list (list Z * list (list Z * tree)); hprocs : list (list Z * (tree * list tree)) }.
(** gen_hs.h:26-29 (the first service only; without one, ref[0] is not there), :43-51 and :155-166 (add_type, as in gen_php.h), :81-152 *)
Definition hgenerate (sigs : list ssig) : outcome hmodule :=
  match sigs with
  | [] => UB
  | s :: _ =>
      let* ms := reflect_members (s_procs s) [] in
      let '(ms, _) := name_all name_method ms O in
      Ok {| hclasses := collect (flat_map (fun p => fst (snd p) :: snd (snd p)) ms); hprocs := ms |}
  end.

(** ** The compiler *)
Definition idcharb (c : Z) : bool := letterb c || isdigit c || (c =? 39).
Definition conid (n : list Z) : bool := match n with c :: r => (65 <=? c) && (c <=? 90) && forallb idcharb r | [] => false end.
(** Is there an instance of RPCType (PFIRPC.hs:89-127)?  Maps need Ord of their keys, which the generated classes do not derive (gen_hs.h:101).  The type bool is
    printed, but has no instance; a stream has no text (gen_hs.h:168-205). *)
Fixpoint ordered (t : tree) : bool :=
  match t with TArray t => ordered t | Reflect_Spec.TMap k v => ordered k && ordered v | TClass _ _ | TStream => false | _ => true end.
Fixpoint instance (t : tree) : bool :=
  match t with
  | Reflect_Spec.TBool | TStream => false
  | TArray t => instance t
  | Reflect_Spec.TMap k v => ordered k && instance k && instance v
  | _ => true
  end.
Fixpoint tree_eqb (a b : tree) : bool :=
  match a, b with
  | Reflect_Spec.TBool, Reflect_Spec.TBool | TFloat, TFloat | TChar, TChar | TString, TString | TStream, TStream => true
  | TInt s n, TInt s' n' => Bool.eqb s s' && (n =? n')
  | TArray t, TArray t' => tree_eqb t t'
  | Reflect_Spec.TMap k v, Reflect_Spec.TMap k' v' => tree_eqb k k' && tree_eqb v v'
  | TClass n ms, TClass n' ms' => str_eqb n n' &&
      (fix go (ms ms' : list (list Z * tree)) : bool :=
         match ms, ms' with
         | [], [] => true
         | (m, t) :: r, (m', t') :: r' => str_eqb m m' && tree_eqb t t' && go r r'
         | _, _ => false
         end) ms ms'
  | _, _ => false
  end.
Fixpoint find_class (n : list Z) (l : list (list Z * list (list Z * tree))) : option (list (list Z * tree)) :=
  match l with [] => None | (m, ms) :: r => if str_eqb m n then Some ms else find_class n r end.
(** Does a class in a type look like the one that is defined under its name? *)
Definition as_defined (cls : list (list Z * list (list Z * tree))) (t : tree) : bool :=
  match t with TClass n _ => match find_class n cls with Some ms => tree_eqb t (TClass n ms) | None => false end | _ => true end.
Definition ascii (n : list Z) : bool := forallb (fun c => c <? 128) n.
(** gen_hs.h:53-74 (exports), :87-99 (fields: the name of the class with a small first letter, and the member), :94-101 (a class without members has an open brace
    missing), :104-152 *)
Definition fields (c : list Z * list (list Z * tree)) : list (list Z) := map (fun m => uncapital (capital (fst c)) ++ str "_" ++ fst m) (snd c).
Definition fits_in (taken : list (list Z)) (file : list Z) (m : hmodule) : bool :=
  conid (capital file) &&
  forallb (fun c => conid (capital (fst c)) && negb (existsb (str_eqb (capital (fst c))) (taken ++ hlibrary)) &&
                    negb (match snd c with [] => true | _ => false end) && forallb (fun m => forallb idcharb (fst m) && instance (snd m)) (snd c)) (hclasses m) &&
  nodupb (map (fun c => capital (fst c)) (hclasses m)) &&
  nodupb (flat_map fields (hclasses m) ++ map (fun p => str "call_" ++ fst p) (hprocs m)) &&
  forallb (fun p => forallb idcharb (fst p) && instance (fst (snd p)) && forallb instance (snd (snd p))) (hprocs m).
Inductive verdict := Accepted | Rejected | Unsure.
Definition compile (taken : list (list Z)) (file : list Z) (m : hmodule) : verdict :=
  if negb (forallb ascii (file :: map fst (hclasses m) ++ flat_map fields (hclasses m) ++ map fst (hprocs m)) && negb (existsb (Z.eqb 46) file)) then Unsure
  else if negb (fits_in taken file m) then Rejected
  else if forallb (as_defined (hclasses m)) (flat_map (fun p => flat_map traverse (fst (snd p) :: snd (snd p))) (hprocs m)) then Accepted else Unsure.
(** Has a value the type that is printed for a tree (gen_hs.h:168-205)? *)
Fixpoint typed (t : tree) (p : hv) {struct t} : bool :=
  match t, p with
  | TInt _ _, HInt _ | TFloat, HDouble _ | TChar, HChar _ => true
  | TString, HList l => forallb (fun x => match x with HChar _ => true | _ => false end) l
  | TArray t, HList l => forallb (typed t) l
  | Reflect_Spec.TMap k v, HMap l => forallb (fun x => typed k (fst x) && typed v (snd x)) l
  | TClass n ms, HObj c vs => str_eqb c (capital n) &&
      (fix go (ms : list (list Z * tree)) (vs : list hv) : bool :=
         match ms, vs with
         | [], [] => true
         | (_, t) :: r, v :: vr => typed t v && go r vr
         | _, _ => false
         end) ms vs
  | _, _ => false
  end.
Fixpoint hproc (m : list Z) (l : list (list Z * (tree * list tree))) : option (tree * list tree) :=
  match l with [] => None | (n, x) :: r => if str_eqb n m then Some x else hproc m r end.
Fixpoint all_typed (ts : list tree) (ps : list hv) : bool :=
  match ts, ps with [], [] => true | t :: tr, p :: pr => typed t p && all_typed tr pr | _, _ => false end.
Definition call_typed (m : hmodule) (c : list Z * list hv) : bool :=
  match hproc (fst c) (hprocs m) with Some (_, ts) => all_typed ts (snd c) | None => false end.

(** ** PFIRPC.hs *)
Section Library.
(** realToFrac between Double and CDouble, on the bits *)
Context (conv : Z -> Z).
(** PFIRPC.hs:57-127: an Int is four bytes, a Char one, a Double eight; gen_hs.h:105-109 *)
Fixpoint hsend (t : tree) (p : hv) {struct t} : pres (list Z) :=
  match t, p with
  | TInt _ _, HInt z => Val (pack 4 z)
  | TFloat, HDouble b => Val (pack 8 (conv b))
  | TChar, HChar c => Val (pack 1 c)
  | TString, HList l => let^ bs := each (fun x => match x with HChar c => Val (pack 1 c) | _ => Unknown end) l in Val (pack 4 (Z.of_nat (length l)) ++ concat bs)
  | TArray t, HList l => let^ bs := each (hsend t) l in Val (pack 4 (Z.of_nat (length l)) ++ concat bs)
  | Reflect_Spec.TMap k v, HMap l =>
      let^ bs := each (fun e => let^ a := hsend k (fst e) in let^ b := hsend v (snd e) in Val (a ++ b)) l in Val (pack 4 (Z.of_nat (length l)) ++ concat bs)
  | TClass _ ms, HObj _ vs =>
      (fix go (ms : list (list Z * tree)) (vs : list hv) : pres (list Z) :=
         match ms, vs with
         | [], [] => Val []
         | (_, t) :: r, v :: vr => let^ a := hsend t v in let^ b := go r vr in Val (a ++ b)
         | _, _ => Unknown
         end) ms vs
  | _, _ => Unknown
  end.
(** compare, where it is needed; Data.Map.fromList: a later value replaces an earlier one *)
Fixpoint hcmp (a b : hv) : option comparison :=
  match a, b with
  | HInt x, HInt y => Some (x ?= y)
  | HChar x, HChar y => Some (x ?= y)
  | HList l, HList m =>
      (fix go (l m : list hv) : option comparison :=
         match l, m with
         | [], [] => Some Eq
         | [], _ => Some Lt
         | _, [] => Some Gt
         | x :: l, y :: m => match hcmp x y with Some Eq => go l m | r => r end
         end) l m
  | _, _ => None
  end.
Fixpoint hinsert (k v : hv) (l : list (hv * hv)) : pres (list (hv * hv)) :=
  match l with
  | [] => Val [(k, v)]
  | (j, w) :: r =>
      match hcmp k j with
      | Some Lt => Val ((k, v) :: l)
      | Some Eq => Val ((k, v) :: r)
      | Some Gt => let^ r := hinsert k v r in Val ((j, w) :: r)
      | None => Unknown
      end
  end.
Fixpoint from_list (xs acc : list (hv * hv)) : pres hv :=
  match xs with [] => Val (HMap acc) | (k, v) :: r => let^ acc := hinsert k v acc in from_list r acc end.

Section Client.
Context {A : Type} (ver : Z) (svc : service A).
Notation P := (@P A).
Notation "'let!' x ':=' a 'in' b" := (bind a (fun x => b)) (at level 200, x pattern, a at level 100, b at level 200, right associativity).
(** PFIRPC.hs:158, hGet; the irrefutable patterns of PFIRPC.hs:63, 71 fail on fewer bytes. *)
Definition hget (n : nat) : P (list Z) := fun s =>
  match ss (wld s) O with
  | None => (Fatal, s)
  | Some k =>
      if (n <=? length (inbox k))%nat then
        (Val (firstn n (inbox k)),
         {| pbuf := pbuf s; cuts := cuts s;
            wld := {| astate := astate (wld s); live := live (wld s); free := free (wld s);
                      ss := upd (ss (wld s)) O (Some {| inbox := skipn n (inbox k); good := good k; pending := pending k |}) |} |})
      else match pending k with Some _ => (Hang, s) | None => (Fatal, s) end
  end.
(** PFIRPC.hs:63, 70-72, 91, 95: without a sign *)
Definition get_num (n : nat) : P Z := let! b := hget n in ret (le_num b).
(** PFIRPC.hs:89-127, gen_hs.h:110-120 *)
Fixpoint hrecv (t : tree) : P hv :=
  match t with
  | TInt _ _ => let! z := get_num 4 in ret (HInt z)
  | TFloat => let! z := get_num 8 in ret (HDouble (conv z))
  | TChar => let! z := get_num 1 in ret (HChar z)
  | TString => let! n := get_num 4 in let! l := times (Z.to_nat n) (let! z := get_num 1 in ret (HChar z)) in ret (HList l)
  | TArray t => let! n := get_num 4 in let! l := times (Z.to_nat n) (hrecv t) in ret (HList l)
  | Reflect_Spec.TMap k v =>
      let! n := get_num 4 in
      let! l := times (Z.to_nat n) (let! x := hrecv k in let! y := hrecv v in ret (x, y)) in
      lift (from_list l [])
  | TClass n ms =>
      let! vs := (fix go (ms : list (list Z * tree)) : P (list hv) :=
                    match ms with [] => ret [] | (_, t) :: r => let! v := hrecv t in let! vs := go r in ret (v :: vs) end) ms in
      ret (HObj (capital n) vs)
  | Reflect_Spec.TBool | TStream => stop Unknown
  end.
(** Strings of the protocol *)
Definition send_text (s : list Z) : P unit := let! b := lift (hsend TString (HList (map HChar s))) in put b.
Definition recv_text : P (list Z) := let! n := get_num 4 in times (Z.to_nat n) (get_num 1).
(** PFIRPC.hs:129-133 *)
Definition hping : P unit :=
  let! _ := send_text PING in let! _ := flush ver svc in let! pong := recv_text in
  if str_eqb pong PONG then ret tt else stop (Exn (str "connection establish failed")).
(** PFIRPC.hs:135-137 *)
Definition hcheck : P unit :=
  let! code := recv_text in
  if str_eqb code (str "OK") then ret tt else stop (Exn (str "wrong result code: " ++ code)).
(** PFIRPC.hs:144: mapM_ over the arguments *)
Fixpoint hargs (ts : list tree) (ps : list hv) : P unit :=
  match ts, ps with
  | t :: tr, p :: pr => let! b := lift (hsend t p) in let! _ := put b in hargs tr pr
  | _, _ => ret tt
  end.
(** PFIRPC.hs:139-147; gen_hs.h:145: the version is always 1 *)
Definition hcall (m : list Z) (r : tree) (ts : list tree) (ps : list hv) : P hv :=
  let! _ := hping in
  let! _ := send_text m in
  let! b := lift (hsend (TInt true 4) (HInt 1)) in let! _ := put b in
  let! _ := hargs ts ps in
  let! _ := flush ver svc in let! _ := hcheck in
  hrecv r.
Fixpoint hcalls (md : hmodule) (l : list (list Z * list hv)) : P (list hv) :=
  match l with
  | [] => ret []
  | (m, ps) :: rest =>
      match hproc m (hprocs md) with
      | Some (r, ts) => let! x := hcall m r ts ps in let! xs := hcalls md rest in ret (x :: xs)
      | None => stop Unknown
      end
  end.
(** PFIRPC.hs:152-159 *)
Definition hconnect : P unit := fun s =>
  match connect O (wld s) with
  | None => (Hang, s)
  | Some w => match ss w O with
              | None => (Fatal, {| pbuf := []; wld := w; cuts := cuts s |})
              | Some _ => (Val tt, {| pbuf := []; wld := w; cuts := cuts s |})
              end
  end.
(** A Haskell program that imports the generated module, connects, and makes these calls *)
Inductive hresult := Ran (r : pres (list hv)) | Not_compiled | Not_known.
Definition hprogram (taken : list (list Z)) (file : list Z) (sigs : list ssig) (l : list (list Z * list hv)) (s : pst) : hresult * A :=
  match hgenerate sigs with
  | Ok md =>
      match compile taken file md with
      | Accepted => if forallb (call_typed md) l then let '(r, s) := (let! _ := hconnect in hcalls md l) s in (Ran r, astate (wld s)) else (Not_compiled, astate (wld s))
      | Rejected => (Not_compiled, astate (wld s))
      | Unsure => (Not_known, astate (wld s))
      end
  | _ => (Not_known, astate (wld s))
  end.
End Client.
End Library.
(** The program against a server that has started with [n] workers *)
Definition hrun {A} (conv : Z -> Z) (ver : Z) (svc : service A) (a : A) (n : nat) (taken : list (list Z)) (file : list Z) (sigs : list ssig) (l : list (list Z * list hv)) : hresult * A :=
  hprogram conv ver svc taken file sigs l {| pbuf := []; wld := start a n; cuts := [] |}.
