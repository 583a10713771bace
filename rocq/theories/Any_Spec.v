(** A variable of type any as a value: empty, or a value with its type. *)
From Verif Require Import Common.

Section any_spec.
Context {V : Type}.
(** What a program does with its any objects, called by numbers.  [fail]: the allocation or the copy of the value throws. *)
Inductive op :=
| Default (x : nat) | From (fail : bool) (x ty : nat) (v : V) | Copy (fail : bool) (x y : nat) | Destroy (x : nat) | Swap (x y : nat)
| Assign (fail : bool) (x ty : nat) (v : V) | AssignAny (fail : bool) (x y : nat) | Cast (ty x : nat) | Type_of (x : nat).
Inductive obs := Done | Failed | Value (v : V) | Bad_cast | Is_type (ty : option nat).
Definition value := option (nat * V).
(** None: no such object *)
Definition env := nat -> option value.
Definition set (m : env) (x : nat) (v : option value) : env := fun y => if Nat.eqb y x then v else m y.
(** None: the program uses an object that does not exist, or makes one that does. *)
Definition spec_step (m : env) (o : op) : option (env * obs) :=
  match o with
  | Default x => match m x with None => Some (set m x (Some None), Done) | Some _ => None end
  | From fail x ty v => match m x with
                        | None => Some (if fail then (m, Failed) else (set m x (Some (Some (ty, v))), Done))
                        | Some _ => None
                        end
  | Copy fail x y => match m x, m y with
                     | None, Some None => Some (set m x (Some None), Done)
                     | None, Some v => Some (if fail then (m, Failed) else (set m x (Some v), Done))
                     | _, _ => None
                     end
  | Destroy x => match m x with Some _ => Some (set m x None, Done) | None => None end
  | Swap x y => match m x, m y with Some v, Some w => Some (set (set m x (Some w)) y (Some v), Done) | _, _ => None end
  | Assign fail x ty v => match m x with
                          | Some _ => Some (if fail then (m, Failed) else (set m x (Some (Some (ty, v))), Done))
                          | None => None
                          end
  | AssignAny fail x y => match m x, m y with
                          | Some _, Some None => Some (set m x (Some None), Done)
                          | Some _, Some v => Some (if fail then (m, Failed) else (set m x (Some v), Done))
                          | _, _ => None
                          end
  | Cast ty x => match m x with
                 | Some (Some (ty', v)) => Some (m, if Nat.eqb ty' ty then Value v else Bad_cast)
                 | Some None => Some (m, Bad_cast)
                 | None => None
                 end
  | Type_of x => match m x with Some c => Some (m, Is_type (option_map fst c)) | None => None end
  end.
Fixpoint spec_run (m : env) (os : list op) : option (env * list obs) :=
  match os with
  | [] => Some (m, [])
  | o :: os => match spec_step m o with
               | Some (m', r) => match spec_run m' os with Some (m'', rs) => Some (m'', r :: rs) | None => None end
               | None => None
               end
  end.
Definition empty_env : env := fun _ => None.
(** objects a step may change *)
Definition touched (o : op) : list nat :=
  match o with
  | Default x | From _ x _ _ | Copy _ x _ | Destroy x | Assign _ x _ _ | AssignAny _ x _ => [x]
  | Swap x y => [x; y]
  | Cast _ _ | Type_of _ => []
  end.
End any_spec.
Arguments op : clear implicits.
Arguments obs : clear implicits.
Arguments env : clear implicits.
