(** The files of the proc file system: what Linux writes to /proc/meminfo and /proc/loadavg. *)
From Verif Require Import Common Cast_Spec.
Local Open Scope Z_scope.

(** A field of meminfo: a name, some blanks before the number, the number in units of 1024 bytes. *)
Record field := { fname : list Z; fpad : nat; fkib : Z }.
(** The decimal digits of a number, without leading zeros. *)
Definition numeral (n : Z) (t : list Z) : Prop := t <> [] /\ Forall digit t /\ decimal t = n /\ (t = [48] \/ hd 48 t <> 48).
(** "MemTotal:       16318464 kB" *)
Definition field_line (f : field) (l : list Z) : Prop :=
  exists t, numeral (fkib f) t /\ l = fname f ++ [58] ++ repeat 32 (S (fpad f)) ++ t ++ str " kB".
Definition plain (s : list Z) : Prop := Forall (fun c => ~ blank c) s.
(** meminfo: the fields in any order *)
Inductive meminfo : list field -> list Z -> Prop :=
| mi_nil : meminfo [] []
| mi_cons f l fs t : plain (fname f) -> field_line f l -> meminfo fs t -> meminfo (f :: fs) (l ++ [10] ++ t).
(** [n] is the only name that starts so; it occurs once, with the number [k], or does not occur and [k] is 0 *)
Definition starts (n s : list Z) : Prop := exists r, s = n ++ r.
Inductive value (n : list Z) : list field -> Z -> Prop :=
| v_none fs : Forall (fun f => ~ starts n (fname f)) fs -> value n fs 0
| v_one a f b : Forall (fun f => ~ starts n (fname f)) a -> fname f = n -> Forall (fun f => ~ starts n (fname f)) b -> value n (a ++ f :: b) (fkib f).
(** loadavg starts with the load of the last minute, with two decimals *)
Definition loadavg (a b : Z) (t : list Z) : Prop :=
  exists ta d1 d2 rest, numeral a ta /\ digit d1 /\ digit d2 /\ decimal [d1; d2] = b /\ t = ta ++ [46; d1; d2] ++ rest /\
  match rest with [] => True | c :: _ => blank c end.
