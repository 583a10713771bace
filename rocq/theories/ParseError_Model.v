(** Model of src/lang/exception.h: parse_error. *)
From Verif Require Import Common NumText_Model Cast_Model.
From Verif Require Ipv4_Model.
Local Open Scope Z_scope.

(** exception.h:80-85 *)
Record parse_error := PE { filename : list Z; lineno : Z; pos : Z; msg : list Z; whole : list Z }.
(** exception.h:72-78; lexical_cast<std::string> of an int, cast.h:66-74 *)
Definition init (f : list Z) (l p : Z) (m : list Z) : parse_error :=
  PE f l p m (f ++ str ":" ++ to_string (TNum true 32) l ++ str ":" ++ to_string (TNum true 32) p ++ str " " ++ m).
(** exception.h:45-51, 52-61 *)
Definition default : parse_error := init [] 0 0 [].
Definition make (f : list Z) (l p : Z) (m : list Z) : parse_error := init f l p m.
(** exception.h:64: the C string, up to the first NUL *)
Definition what (e : parse_error) : list Z := Ipv4_Model.c_str (whole e).
