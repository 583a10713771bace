(** Model of src/text/json/serialization.h and of via_json, cast.h:613-632.  A stream is the bytes it still holds. *)
From Verif Require Import Common Json_Model JsonCast_Model JsonArchive_Spec.
Local Open Scope Z_scope.

(** base.h:762-769, serialization.h:82-87: std::endl is a newline *)
Definition put (pr esc : bool) (v : val) : list Z :=
  (if pr then pretty esc (to_json v) else print esc (to_json v)) ++ (if pr then [] else [10]).
Definition puts (pr esc : bool) (vs : list val) : list Z := concat (map (put pr esc) vs).
Section Get.
  Context (fbk : list Z -> Z).
  (** serialization.h:47-50, cast.h:626-632: the answer and, where it is known, what the stream holds afterwards *)
  Definition get (t : ty) (s : list Z) : answer val * option (list Z) :=
    match read_json fbk s with
    | JOk (j, s) => (match from_json t j with Ok v => AValue v | Throw => ABadCast | _ => AWrong end, Some s)
    | JParse => (AMalformed, None)
    | JEnd => (AEnd, None)
    | _ => (AWrong, None)
    end.
  (** A program that gets values of the types ts, going on after a value of another kind *)
  Fixpoint gets (ts : list ty) (s : list Z) : list (answer val) * option (list Z) :=
    match ts with
    | [] => ([], Some s)
    | t :: ts =>
        match get t s with
        | (a, Some s) => let '(l, s) := gets ts s in (a :: l, s)
        | (a, None) => ([a], None)
        end
    end.
End Get.
