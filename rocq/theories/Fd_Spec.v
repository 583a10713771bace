(** What is to be shown of the socket classes' system calls (src/network/socket.cpp, src/network/mprpc): the calls made so far,
    and who may make them. *)
From Verif Require Import Common.
Local Open Scope Z_scope.

(** the calls on a descriptor other than ::close *)
Inductive call := KConnect (addr port : Z) | KReuse | KBind (port : Z) | KLinger | KListen (backlog : Z) | KName | KAccept | KOpt | KIo | KDown.
(** Gave: a call gave this new descriptor; On: a call on it and whether it succeeded; Close: a call of ::close and whether the
    descriptor is released by it *)
Inductive ev := Gave (fd : Z) | On (c : call) (fd : Z) (ok : bool) | Close (fd : Z) (gone : bool).

Definition mem (fd : Z) (own : list Z) : bool := if in_dec Z.eq_dec fd own then true else false.
(** The descriptors which the calls have got and not released, or None if a call touched any other.  A call on a negative number
    touches nothing. *)
Definition one (own : list Z) (e : ev) : option (list Z) :=
  match e with
  | Gave fd => Some (fd :: own)
  | On _ fd _ => if (fd <? 0) || mem fd own then Some own else None
  | Close fd gone => if fd <? 0 then Some own else if mem fd own then Some (if gone then remove Z.eq_dec fd own else own) else None
  end.
Fixpoint replay (own : list Z) (l : list ev) : option (list Z) :=
  match l with
  | [] => Some own
  | e :: l => match one own e with Some own => replay own l | None => None end
  end.
(** no call touches a descriptor which the classes do not hold *)
Definition proper (l : list ev) : Prop := replay [] l <> None.
(** furthermore all descriptors got have been released *)
Definition released (l : list ev) : Prop := replay [] l = Some [].
