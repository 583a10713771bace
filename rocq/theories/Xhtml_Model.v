(** Model of src/text/xhtml.{h,cpp}. *)
From Verif Require Import Common.
Local Open Scope Z_scope.

(** xhtml.cpp:45-56, loop body of [html_encode]. *)
Definition html_encode1 (c : Z) : list Z :=
  if c =? 38 then str "&amp;"
  else if c =? 34 then str "&quot;"
  else if c =? 39 then str "&#039;"
  else if c =? 60 then str "&lt;"
  else if c =? 62 then str "&gt;"
  else [c].

(** xhtml.cpp:41-59 *)
Fixpoint html_encode (s : list Z) : list Z :=
  match s with
  | [] => []
  | c :: r => html_encode1 c ++ html_encode r
  end.

(** xhtml.h:48-107: the three kinds of elements.  [attr_] is a [std::map]; the
    model keeps its entries in iteration order.  Children are shared pointers;
    sharing is not observable because rendering only reads.  A cyclic graph of
    shared pointers (which would not terminate) is not representable. *)
Inductive elem : Type :=
| Tag (name : list Z) (attrs : list (list Z * list Z)) (children : list elem)
| Text (text : list Z)
| Prim (text : list Z).

(** xhtml.cpp:64-70 *)
Fixpoint render_attrs (a : list (list Z * list Z)) : list Z :=
  match a with
  | [] => []
  | (k, v) :: r =>
      (match v with
       | [] => 32 :: html_encode k
       | _ => 32 :: html_encode k ++ [61; 34] ++ html_encode v ++ [34]
       end) ++ render_attrs r
  end.

(** xhtml.cpp:61-81, 112-120 *)
Fixpoint render (e : elem) : list Z :=
  match e with
  | Tag name attrs children =>
      60 :: html_encode name ++ render_attrs attrs ++
      match children with
      | [] => str " />"
      | _ => 62 :: flat_map render children ++ [60; 47] ++ html_encode name ++ [62]
      end
  | Text t => html_encode t
  | Prim t => t
  end.

(** xhtml.cpp:83-110 [pretty]; [os<<endl] writes a newline. *)
Definition pad (indent : nat) : list Z := repeat 32 (indent * 2 + 1).
Fixpoint pretty (indent : nat) (e : elem) : list Z :=
  match e with
  | Tag name attrs children =>
      60 :: html_encode name ++ render_attrs attrs ++ 10 :: pad indent ++
      match children with
      | [] => str " />"
      | _ => 62 :: flat_map (pretty (S indent)) children ++ [60; 47] ++ html_encode name ++ 10 :: pad indent ++ [62]
      end
  | Text t => html_encode t
  | Prim t => t
  end.
