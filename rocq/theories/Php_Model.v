(** Model of tools/genrpc/gen_php.h (what the generated PHP program is, not the layout of its text), of tools/genrpc/pfi_rpc.php and of the generated clients, run by
    PHP 5 on a 64-bit little-endian machine against the server of Rpc_Model.  fwrite sends all it is given; fread gets at least one byte, and as many as it asked for
    unless they have not arrived or the oracle cuts it short.  Conversions between PHP types that no argument of the right type needs are [Unknown]. *)
From Verif Require Import Common NumText_Model Reflect_Spec Reflect_Model Archive_Model Rpc_Spec Rpc_Model Php_Spec.
Local Open Scope Z_scope.

(** ** gen_php.h *)
(** The PHP expression that makes a type object; [ENothing]: no text at all *)
Inductive texpr := ENothing | ENew0 (cls : list Z) | EInt (sg : bool) (size : Z) | EArray (e : texpr) | EMap (k v : texpr) | EStatic (cls : list Z).
(** gen_php.h:195-228 *)
Fixpoint print_typeinfo (t : tree) : texpr :=
  match t with
  | Reflect_Spec.TBool => ENew0 (str "bool_type")
  | TInt s n => EInt s n
  | TFloat => ENew0 (str "float_type")
  | TChar => ENew0 (str "char_type")
  | TString => ENew0 (str "string_type")
  | TStream => ENothing
  | TArray t => EArray (print_typeinfo t)
  | Reflect_Spec.TMap k v => EMap (print_typeinfo k) (print_typeinfo v)
  | TClass n _ => EStatic n
  end.
(** std::map<string, T>: operator[] and assignment *)
Fixpoint mset {T} (n : list Z) (x : T) (m : list (list Z * T)) : list (list Z * T) :=
  match m with
  | [] => [(n, x)]
  | (k, y) :: r => match bytes_cmp n k with Lt => (n, x) :: m | Eq => (n, x) :: r | Gt => (k, y) :: mset n x r end
  end.
(** gen_php.h:182-193 on every class of the tree, in the order of traverse (Reflect_Model): a class without a name gets the next number *)
Fixpoint name_types (t : tree) (anon : nat) : tree * nat :=
  match t with
  | TArray t => let '(t, a) := name_types t anon in (TArray t, a)
  | Reflect_Spec.TMap k v => let '(k, a) := name_types k anon in let '(v, a) := name_types v a in (Reflect_Spec.TMap k v, a)
  | TClass n ms =>
      let '(n, a) := match n with [] => (str "anonymous" ++ show_int (Z.of_nat anon), S anon) | _ => (n, anon) end in
      let '(ms, a) := (fix each (ms : list (list Z * tree)) (a : nat) : list (list Z * tree) * nat :=
                         match ms with
                         | [] => ([], a)
                         | (m, t) :: r => let '(t, a) := name_types t a in let '(r, a) := each r a in ((m, t) :: r, a)
                         end) ms a in
      (TClass n ms, a)
  | _ => (t, anon)
  end.
Definition class_entry (t : tree) (m : list (list Z * list (list Z * tree))) : list (list Z * list (list Z * tree)) :=
  match t with TClass n ms => mset n ms m | _ => m end.
(** rpc/reflect.h:45-166 extract, :195-215 and the REFLECT_ macros: the procedures by name *)
Fixpoint types_of_args (l : list cty) : outcome (list tree) :=
  match l with [] => Ok [] | c :: r => let* t := get_type c in let* ts := types_of_args r in Ok (t :: ts) end.
Fixpoint reflect_members (l : list (list Z * (cty * list cty))) (m : list (list Z * (tree * list tree))) : outcome (list (list Z * (tree * list tree))) :=
  match l with
  | [] => Ok m
  | (n, (c, cs)) :: r => let* t := get_type c in let* ts := types_of_args cs in reflect_members r (mset n (t, ts) m)
  end.
Fixpoint reflect_all (l : list ssig) : outcome (list (list Z * list (list Z * (tree * list tree)))) :=
  match l with
  | [] => Ok []
  | s :: r => let* m := reflect_members (s_procs s) [] in let* ms := reflect_all r in Ok ((s_name s, m) :: ms)
  end.
(** gen_php.h:44-53: result first, then the arguments; the classes by name *)
Fixpoint name_all {T} (f : T -> nat -> T * nat) (l : list T) (a : nat) : list T * nat :=
  match l with [] => ([], a) | x :: r => let '(x, a) := f x a in let '(r, a) := name_all f r a in (x :: r, a) end.
Definition name_method (p : list Z * (tree * list tree)) (a : nat) : (list Z * (tree * list tree)) * nat :=
  let '(n, (t, ts)) := p in let '(t, a) := name_types t a in let '(ts, a) := name_all name_types ts a in ((n, (t, ts)), a).
Definition name_service (s : list Z * list (list Z * (tree * list tree))) (a : nat) : (list Z * list (list Z * (tree * list tree))) * nat :=
  let '(n, ms) := s in let '(ms, a) := name_all name_method ms a in ((n, ms), a).
Definition trees_of (l : list (list Z * list (list Z * (tree * list tree)))) : list tree :=
  flat_map (fun s => flat_map (fun p => fst (snd p) :: snd (snd p)) (snd s)) l.
Definition collect (ts : list tree) : list (list Z * list (list Z * tree)) := fold_left (fun m t => class_entry t m) (flat_map traverse ts) [].
(** gen_php.h:59-90: members without a name get the next number *)
Fixpoint name_members (ms : list (list Z * tree)) (c : nat) : list (list Z * texpr) * nat :=
  match ms with
  | [] => ([], c)
  | (n, t) :: r => let '(n, c) := match n with [] => (str "anon" ++ show_int (Z.of_nat c), S c) | _ => (n, c) end in
                   let '(r, c) := name_members r c in ((n, print_typeinfo t) :: r, c)
  end.
Fixpoint define_classes (l : list (list Z * list (list Z * tree))) (c : nat) : list (list Z * list (list Z * texpr)) :=
  match l with [] => [] | (n, ms) :: r => let '(ms, c) := name_members ms c in (n, ms) :: define_classes r c end.
(** The PHP program: classes with their members, clients with the types of their procedures (gen_php.h:92-176) *)
Record program := { classes : list (list Z * list (list Z * texpr)); clients : list (list Z * list (list Z * (texpr * list texpr))) }.
Definition generate (sigs : list ssig) : outcome program :=
  let* refs := reflect_all sigs in
  let '(refs, _) := name_all name_service refs O in
  Ok {| classes := define_classes (collect (trees_of refs)) O;
        clients := map (fun s => (fst s, map (fun p => (fst p, (print_typeinfo (fst (snd p)), map print_typeinfo (snd (snd p))))) (snd s))) refs |}.

(** ** PHP *)
(** How a piece of PHP ends: with a value, an exception, a fatal error, never, or in a way that is not modelled *)
Inductive pres (X : Type) := Val (x : X) | Exn (msg : list Z) | Fatal | Hang | Unknown.
Arguments Val {X}. Arguments Exn {X}. Arguments Fatal {X}. Arguments Hang {X}. Arguments Unknown {X}.
Definition pbind {X Y} (x : pres X) (f : X -> pres Y) : pres Y :=
  match x with Val x => f x | Exn m => Exn m | Fatal => Fatal | Hang => Hang | Unknown => Unknown end.
Notation "'let^' x ':=' a 'in' b" := (pbind a (fun x => b)) (at level 200, x pattern, a at level 100, b at level 200, right associativity).

(** Loading the file: it must parse, and no name may be declared twice. *)
Fixpoint whole (e : texpr) : bool := match e with ENothing => false | EArray e => whole e | EMap k v => whole k && whole v | _ => true end.
Definition letterb (c : Z) : bool := ((65 <=? c) && (c <=? 90)) || ((97 <=? c) && (c <=? 122)) || (c =? 95).
Definition identb (n : list Z) : bool := match n with [] => false | c :: r => letterb c && forallb (fun c => letterb c || isdigit c) r end.
Fixpoint nodupb (l : list (list Z)) : bool := match l with [] => true | x :: r => negb (existsb (str_eqb x) r) && nodupb r end.
Definition declared (p : program) : list (list Z) := map fst (classes p) ++ map (fun c => fst c ++ str "_client") (clients p).
Definition loads (taken : list (list Z)) (p : program) : bool :=
  forallb identb (declared p) && nodupb (map lower (declared p)) &&
  forallb (fun n => negb (existsb (str_eqb (lower n)) (taken ++ library))) (declared p) &&
  forallb (fun c => forallb (fun m => identb (fst m) && whole (snd m)) (snd c) && nodupb (map fst (snd c))) (classes p) &&
  forallb (fun c => forallb (fun m => identb (fst m) && whole (fst (snd m)) && forallb whole (snd (snd m))) (snd c) && nodupb (map (fun m => lower (fst m)) (snd c))) (clients p).

(** The objects of the classes int_type, float_type, … of pfi_rpc.php *)
Inductive rtype := RInt (sg : bool) (size : Z) | RFloat | RString | RArray (t : rtype) | RMap (k v : rtype) | RClass (cls : list Z) (ms : list (list Z * rtype)).
Fixpoint class_named (n : list Z) (l : list (list Z * list (list Z * texpr))) : option (list Z * list (list Z * texpr)) :=
  match l with [] => None | c :: r => if str_eqb (lower (fst c)) (lower n) then Some c else class_named n r end.
(** Evaluating the expressions; the generated static function typeinfo() (gen_php.h:78-88) calls those of the classes of the members, [depth] calls deep at most.
    pfi_rpc.php has no class bool_type and no char_type. *)
Section Each.
  Context {X Y : Type} (f : X -> pres Y).
  Fixpoint each (l : list X) : pres (list Y) := match l with [] => Val [] | x :: r => let^ y := f x in let^ ys := each r in Val (y :: ys) end.
End Each.
Fixpoint eval_with (static : list Z -> pres rtype) (e : texpr) : pres rtype :=
  match e with
  | ENothing => Fatal
  | ENew0 n => if str_eqb n (str "float_type") then Val RFloat else if str_eqb n (str "string_type") then Val RString else Fatal
  | EInt s n => Val (RInt s n)
  | EArray e => let^ t := eval_with static e in Val (RArray t)
  | EMap k v => let^ k := eval_with static k in let^ v := eval_with static v in Val (RMap k v)
  | EStatic n => static n
  end.
Fixpoint typeinfo (depth : nat) (cls : list (list Z * list (list Z * texpr))) (n : list Z) : pres rtype :=
  match depth with
  | O => Fatal
  | S d => match class_named n cls with
           | None => Fatal
           | Some (n, ms) => let^ ts := each (fun m => let^ t := eval_with (typeinfo d cls) (snd m) in Val (fst m, t)) ms in Val (RClass n ts)
           end
  end.
Definition eval (depth : nat) (cls : list (list Z * list (list Z * texpr))) (e : texpr) : pres rtype := eval_with (typeinfo depth cls) e.

(** The key under which PHP stores: the decimal text of an integer is that integer. *)
Definition num_of (s : list Z) : Z := match s with c :: r => if c =? 45 then - dec_val r else dec_val s | [] => 0 end.
Definition key_of (s : list Z) : pkey :=
  let z := num_of s in if str_eqb (show_int z) s && (- 2 ^ 63 <=? z) && (z <? 2 ^ 63) then KInt z else KStr s.
Definition key_eqb (a b : pkey) : bool := match a, b with KInt x, KInt y => x =? y | KStr x, KStr y => str_eqb x y | _, _ => false end.
Definition key_val (k : pkey) : pv := match k with KInt z => PInt z | KStr s => PStr s end.
Fixpoint aget (k : pkey) (l : list (pkey * pv)) : pv := match l with [] => PNull | (j, v) :: r => if key_eqb j k then v else aget k r end.
Fixpoint aset (k : pkey) (v : pv) (l : list (pkey * pv)) : list (pkey * pv) :=
  match l with [] => [(k, v)] | (j, w) :: r => if key_eqb j k then (j, v) :: r else (j, w) :: aset k v r end.
Fixpoint oget (n : list Z) (l : list (list Z * pv)) : pv := match l with [] => PNull | (m, v) :: r => if str_eqb m n then v else oget n r end.
(** Conversions to integer and to string *)
Definition to_int (p : pv) : pres Z := match p with PInt z => Val z | PNull => Val 0 | _ => Unknown end.
Definition to_str (p : pv) : pres (list Z) := match p with PStr s => Val s | PInt z => Val (show_int z) | PNull => Val [] | _ => Unknown end.

(** ** Writing: what is appended to $this->buf *)
(** pfi_rpc.php:57-87: pack takes the low bytes *)
Definition pack (n : nat) (z : Z) : list Z := le_bytes n (z mod 2 ^ (8 * Z.of_nat n)).
(** pfi_rpc.php:126-137: a number of another size is not written at all *)
Definition write_int (size : Z) (p : pv) : pres (list Z) :=
  if size =? 1 then let^ z := to_int p in Val (pack 1 z)
  else if size =? 2 then let^ z := to_int p in Val (pack 2 z)
  else if size =? 4 then let^ z := to_int p in Val (pack 4 z)
  else Val [].
(** pfi_rpc.php:146-150 *)
Definition write_str (p : pv) : pres (list Z) := let^ s := to_str p in Val (pack 4 (Z.of_nat (length s)) ++ s).
(** pfi_rpc.php:126-137, 146-150, 157-159, 177-182, 205-212, 232-236 *)
Fixpoint pwrite (t : rtype) (p : pv) : pres (list Z) :=
  match t with
  | RInt _ n => write_int n p
  | RFloat => match p with PFloat b => Val (pack 8 b) | _ => Unknown end
  | RString => write_str p
  | RArray t =>
      match p with
      | PArr l => let^ bs := each (fun i => pwrite t (aget (KInt (Z.of_nat i)) l)) (seq 0 (length l)) in Val (pack 4 (Z.of_nat (length l)) ++ concat bs)
      | PNull => Val (pack 4 0)
      | _ => Unknown
      end
  | RMap k t =>
      match p with
      | PArr l => let^ bs := each (fun e => let^ a := pwrite k (key_val (fst e)) in let^ b := pwrite t (snd e) in Val (a ++ b)) l in Val (pack 4 (Z.of_nat (length l)) ++ concat bs)
      | PNull => Val (pack 4 0)
      | _ => Unknown
      end
  | RClass _ ms =>
      match p with
      | PObj _ fs => (fix go (ms : list (list Z * rtype)) : pres (list Z) :=
                        match ms with [] => Val [] | (m, t) :: r => let^ a := pwrite t (oget m fs) in let^ b := go r in Val (a ++ b) end) ms
      | PNull => (fix go (ms : list (list Z * rtype)) : pres (list Z) :=
                        match ms with [] => Val [] | (m, t) :: r => let^ a := pwrite t PNull in let^ b := go r in Val (a ++ b) end) ms
      | _ => Unknown
      end
  end.

(** ** The connection and reading *)
Section Client.
Context {A : Type} (ver : Z) (svc : service A).
(** $this->buf->buf, the server with the connection (it is client 0), and for every coming fread how many bytes it may get *)
Record pst := { pbuf : list Z; wld : world A; cuts : list nat }.
Definition P (X : Type) : Type := pst -> pres X * pst.
Definition ret {X} (x : X) : P X := fun s => (Val x, s).
Definition stop {X} (r : pres X) : P X := fun s => (r, s).
Definition bind {X Y} (m : P X) (f : X -> P Y) : P Y :=
  fun s => match m s with
           | (Val x, s1) => f x s1
           | (Exn e, s1) => (Exn e, s1) | (Fatal, s1) => (Fatal, s1) | (Hang, s1) => (Hang, s1) | (Unknown, s1) => (Unknown, s1)
           end.
Notation "'let!' x ':=' a 'in' b" := (bind a (fun x => b)) (at level 200, x pattern, a at level 100, b at level 200, right associativity).
Definition lift {X} (r : pres X) : P X := fun s => (r, s).
Definition put (b : list Z) : P unit := fun s => (Val tt, {| pbuf := pbuf s ++ b; wld := wld s; cuts := cuts s |}).
(** pfi_rpc.php:89-92: all of it is sent, and the server runs on it. *)
Definition flush : P unit := fun s =>
  match send ver svc 0 (pbuf s) (wld s) with
  | Ok w => (Val tt, {| pbuf := []; wld := w; cuts := cuts s |})
  | _ => (Unknown, s)
  end.
(** pfi_rpc.php:94-96, fread: a length of 0 is refused; it waits while the server is there and has sent nothing. *)
Definition fread (n : Z) : P pv := fun s =>
  if n <=? 0 then (Val (PBool false), s) else
  match ss (wld s) O with
  | None => (Unknown, s)
  | Some k =>
      match inbox k, pending k with
      | [], Some _ => (Hang, s)
      | i, p =>
          let m := Nat.min (Z.to_nat n) (match cuts s with [] => length i | c :: _ => S c end) in
          (Val (PStr (firstn m i)),
           {| pbuf := pbuf s; cuts := tl (cuts s);
              wld := {| astate := astate (wld s); live := live (wld s); free := free (wld s);
                        ss := upd (ss (wld s)) O (Some {| inbox := skipn m i; good := good k; pending := p |}) |} |})
      end
  end.
(** unpack of too few bytes is false, and false[1] is null. *)
Definition unpack (n : nat) (d : pv) : pv := match d with PStr b => if (length b <? n)%nat then PNull else PInt (le_num (firstn n b)) | _ => PNull end.
(** pfi_rpc.php:12-16, 27-31, 39-43 *)
Definition read_u (n : nat) : P pv := let! d := fread (Z.of_nat n) in ret (unpack n d).
(** pfi_rpc.php:18-25, 33-37 (0x8000 and 0x10000), 45-49 ('c' is signed) *)
Definition read_s (n : nat) : P pv :=
  let! v := read_u n in
  match v with
  | PInt v => ret (PInt (if Z.land v (2 ^ (8 * Z.of_nat n - 1)) =? 0 then v else v - (2 ^ (8 * Z.of_nat n) - 1) - 1))
  | v => ret v
  end.
(** pfi_rpc.php:113-124: a number of another size is not read, the result is null. *)
Definition read_int (sg : bool) (size : Z) : P pv :=
  let rd n := if sg then read_s n else read_u n in
  if size =? 1 then rd 1%nat else if size =? 2 then rd 2%nat else if size =? 4 then rd 4%nat else ret PNull.
(** pfi_rpc.php:51-55 *)
Definition read_double : P pv :=
  let! d := fread 8 in
  ret (match d with PStr b => if (length b <? 8)%nat then PNull else PFloat (le_num (firstn 8 b)) | _ => PNull end).
(** A null length is 0. *)
Definition size_of (p : pv) : Z := match p with PInt z => z | _ => 0 end.
(** pfi_rpc.php:141-144 *)
Definition read_str : P pv := let! n := read_u 4 in fread (size_of n).
Fixpoint times {X} (n : nat) (m : P X) : P (list X) := match n with O => ret [] | S n => let! x := m in let! xs := times n m in ret (x :: xs) end.
(** $ret[$k]=$v: false is 0, null is the empty string, arrays and objects are no keys. *)
Fixpoint store_all (l : list (pv * pv)) (acc : list (pkey * pv)) : pres pv :=
  match l with
  | [] => Val (PArr acc)
  | (k, v) :: r =>
      match k with
      | PInt z => store_all r (aset (KInt z) v acc)
      | PStr s => store_all r (aset (key_of s) v acc)
      | PBool b => store_all r (aset (KInt (if b then 1 else 0)) v acc)
      | PNull => store_all r (aset (KStr []) v acc)
      | PArr _ | PObj _ _ => store_all r acc
      | PFloat _ => Unknown
      end
  end.
Definition number (l : list pv) : list (pkey * pv) := combine (map (fun i => KInt (Z.of_nat i)) (seq 0 (length l))) l.
(** pfi_rpc.php:113-124, 141-144, 154-156, 169-175, 194-203, 224-230 *)
Fixpoint pread (t : rtype) : P pv :=
  match t with
  | RInt s n => read_int s n
  | RFloat => read_double
  | RString => read_str
  | RArray t => let! n := read_u 4 in let! l := times (Z.to_nat (size_of n)) (pread t) in ret (PArr (number l))
  | RMap k t =>
      let! n := read_u 4 in
      let! l := times (Z.to_nat (size_of n)) (let! x := pread k in let! y := pread t in ret (x, y)) in
      lift (store_all l [])
  | RClass n ms =>
      let! fs := (fix go (ms : list (list Z * rtype)) : P (list (list Z * pv)) :=
                    match ms with [] => ret [] | (m, t) :: r => let! v := pread t in let! fs := go r in ret ((m, v) :: fs) end) ms in
      ret (PObj n fs)
  end.

(** ** The generated client *)
(** Comparing what was read with a text that is not a number: false is different, too. *)
Definition differs (p : pv) (t : list Z) : bool := match p with PStr s => negb (str_eqb s t) | _ => true end.
(** gen_php.h:137-143 *)
Definition ping_pong : P unit :=
  let! b := lift (write_str (PStr PING)) in let! _ := put b in let! _ := flush in let! pong := read_str in
  if differs pong PONG then stop (Exn (str "connection establish failed")) else ret tt.
(** gen_php.h:145-149 *)
Definition check_code : P unit :=
  let! code := read_str in
  if differs code (str "OK") then stop (Exn (str "result code is not OK: " ++ match code with PStr s => s | _ => [] end)) else ret tt.
(** A client object: the types of every procedure.  PHP finds functions whatever the case of the letters. *)
Definition client : Type := list (list Z * (rtype * list rtype)).
Fixpoint procedure (m : list Z) (c : client) : option (list Z * (rtype * list rtype)) :=
  match c with [] => None | x :: r => if str_eqb (lower (fst x)) (lower m) then Some x else procedure m r end.
Fixpoint client_named (n : list Z) (l : list (list Z * list (list Z * (texpr * list texpr)))) : option (list (list Z * (texpr * list texpr))) :=
  match l with [] => None | c :: r => if str_eqb (lower (fst c ++ str "_client")) (lower n) then Some (snd c) else client_named n r end.
(** gen_php.h:112-135: the type objects, then the connection *)
Definition members (depth : nat) (p : program) (n : list Z) : pres client :=
  match client_named n (clients p) with
  | None => Fatal
  | Some ms => each (fun m => let^ r := eval depth (classes p) (fst (snd m)) in let^ ts := each (eval depth (classes p)) (snd (snd m)) in Val (fst m, (r, ts))) ms
  end.
Definition fsockopen : P unit := fun s =>
  match connect O (wld s) with
  | None => (Hang, s)
  | Some w => match ss w O with
              | None => (Exn (str "cannot connect to host"), {| pbuf := []; wld := w; cuts := cuts s |})
              | Some _ => (Val tt, {| pbuf := []; wld := w; cuts := cuts s |})
              end
  end.
Definition construct (depth : nat) (p : program) (n : list Z) : P client := let! c := lift (members depth p n) in let! _ := fsockopen in ret c.
(** gen_php.h:151-174; an argument that is not given is null.  The version is always 1. *)
Fixpoint put_args (ts : list rtype) (ps : list pv) : P unit :=
  match ts with
  | [] => ret tt
  | t :: r => let! b := lift (pwrite t (hd PNull ps)) in let! _ := put b in put_args r (tl ps)
  end.
Definition call_proc (c : client) (m : list Z) (ps : list pv) : P pv :=
  match procedure m c with
  | None => stop Fatal
  | Some (n, (r, ts)) =>
      let! _ := ping_pong in
      let! b := lift (write_str (PStr n)) in let! _ := put b in
      let! b := lift (write_int 4 (PInt 1)) in let! _ := put b in
      let! _ := put_args ts ps in
      let! _ := flush in let! _ := check_code in
      pread r
  end.
Fixpoint call_all (c : client) (l : list (list Z * list pv)) : P (list pv) :=
  match l with [] => ret [] | (m, ps) :: r => let! x := call_proc c m ps in let! xs := call_all c r in ret (x :: xs) end.
(** A PHP script that includes the generated file, makes the client of service [n] and makes these calls *)
Definition script (depth : nat) (taken : list (list Z)) (sigs : list ssig) (n : list Z) (l : list (list Z * list pv)) : P (list pv) :=
  match generate sigs with
  | Ok p => if loads taken p then let! c := construct depth p (n ++ str "_client") in call_all c l else stop Fatal
  | _ => stop Unknown
  end.
End Client.
(** The script against a server that has started with [n] workers; fread is cut by [cuts]. *)
Definition run {A} (ver : Z) (svc : service A) (a : A) (n : nat) (cuts : list nat) (depth : nat) (taken : list (list Z)) (sigs : list ssig) (s : list Z) (l : list (list Z * list pv)) : pres (list pv) * A :=
  let '(r, st) := script ver svc depth taken sigs s l {| pbuf := []; wld := start a n; cuts := cuts |} in (r, astate (wld st)).
