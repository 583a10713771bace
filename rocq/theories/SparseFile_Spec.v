(** Stored matrices by name; what a program with a writer and a reader should find. *)
From Verif Require Import Common Sparse_Spec SparseFile_Model.
Local Open Scope Z_scope.
(* From SparseFile_Model only the data types name, op, res and env are used. *)

(** The matrices on the disk (None: nothing known), the one being written, the one being read *)
Record shop := Shop { mats : name -> option (list row); cur : option (name * list row); rd : option (list row) }.
Definition eqn (a b : name) : bool := if list_eq_dec Z.eq_dec a b then true else false.
Definition set (m : name -> option (list row)) (n : name) (x : option (list row)) : name -> option (list row) := fun k => if eqn k n then x else m k.
Definition save (s : shop) : name -> option (list row) := match cur s with None => mats s | Some (n, m) => set (mats s) n (Some m) end.
Definition find_row (m : list row) (i : Z) : option row := nth_error m (Z.to_nat i).
(** None: outside of the claim *)
Definition expect (o : op) (s : shop) : option (shop * res) :=
  match o with
  | WOpen n => Some (Shop (set (save s) n None) (Some (n, [])) (rd s), Int 0)
  | WAppend r => Some (Shop (mats s) (match cur s with None => None | Some (n, m) => Some (n, m ++ [r]) end) (rd s), Done)
  | WClose => Some (Shop (save s) None (rd s), Done)
  | WNew => match cur s with None => Some (s, Done) | Some _ => None end
  | WNum => match cur s with None => None | Some (_, m) => Some (s, Int (Z.of_nat (length m))) end
  | ROpen n => match mats s n with Some m => Some (Shop (mats s) (cur s) (Some m), Int 0) | None => None end
  | RClose => Some (Shop (mats s) (cur s) None, Done)
  | RNum => Some (s, Int match rd s with Some m => Z.of_nat (length m) | None => 0 end)
  | RSize i => if i <? 0 then None else
      Some (s, Int match rd s with Some m => match find_row m i with Some r => Z.of_nat (length r) | None => -1 end | None => 0 end)
  | RRow i => if i <? 0 then None else Some (s, Row match rd s with Some m => find_row m i | None => None end)
  end.
Fixpoint expected (l : list op) (s : shop) : option (shop * list res) :=
  match l with
  | [] => Some (s, [])
  | o :: l => match expect o s with
              | None => None
              | Some (s, x) => match expected l s with None => None | Some (s, xs) => Some (s, x :: xs) end
              end
  end.
Definition empty_shop : shop := Shop (fun _ => None) None None.
(** Names that do not end in .offset *)
Definition simple (n : name) : Prop := forall x, n <> x ++ str ".offset".
Definition op_ok (o : op) : Prop :=
  match o with WOpen n | ROpen n => simple n | WAppend r => row_ok r | _ => True end.
(** The matrices written fit (C41) at each point. *)
Fixpoint all_fit (l : list op) (s : shop) : Prop :=
  match l with
  | [] => True
  | o :: l => match expect o s with
              | None => True
              | Some (s, _) => match cur s with Some (_, m) => fits m | None => True end /\ all_fit l s
              end
  end.
(** Nothing fails. *)
Definition good (e : env) : Prop := can_open e = true /\ can_open_offset e = true /\ kept e = None /\ kept_offset e = None.
