(** What a printed document is read back as, floating numbers included. *)
From Verif Require Import Common Double_Model Double_Spec Json_Model Json_Spec JsonFloat_Spec JsonCast_Model.
Local Open Scope Z_scope.
(* From Double_Model and Json_Model only the data types [double] and [json] are used. *)

(** The same document, but each floating number is the one rounded to 12 digits, and an integer if it has no fraction then. *)
Inductive reread : json -> json -> Prop :=
| rr_null : reread JNull JNull
| rr_bool b : reread (JBool b) (JBool b)
| rr_int n : reread (JInt n) (JInt n)
| rr_str s : reread (JStr s) (JStr s)
| rr_zero d : dman d = 0 -> reread (JFloat d) (JInt 0)
| rr_float d n k w : dman d <> 0 -> rounds12 d n k -> number_is w (dneg d) n k -> reread (JFloat d) w
| rr_arr l m : Forall2 reread l m -> reread (JArr l) (JArr m)
| rr_obj l m : Forall2 (fun a b => fst a = fst b /\ reread (snd a) (snd b)) l m -> reread (JObj l) (JObj m).
(** Numbers that the parser accepts: zero and the normal ones.  Those that can be written with 12 digits. *)
Definition readable (d : double) : Prop := (is_double d /\ dman d = 0) \/ normal d.
Definition short (d : double) : Prop := (is_double d /\ dman d = 0) \/ (normal d /\ exists D j, 0 < D < 10 ^ 12 /\ dec_value (dneg d) D j d).
(** Those that come back exactly: the same, without -0 *)
Definition exact12 (d : double) : Prop := d = mkD false 0 (-1074) \/ (normal d /\ exists D j, 0 < D < 10 ^ 12 /\ dec_value (dneg d) D j d).
(** Types without json in them *)
Fixpoint solid (t : ty) : Prop :=
  match t with
  | TJson => False
  | TVec u | TMap u | TOpt u => solid u
  | TRec fs => fold_right (fun kt acc => solid (snd kt) /\ acc) True fs
  | _ => True
  end.
