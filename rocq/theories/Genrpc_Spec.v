(** What genrpc should do: from the file of a signature write the client in the language asked for, and change nothing else. *)
From Verif Require Import Common NumText_Model.
Local Open Scope Z_scope.

Definition text := list Z.
(** The working directory: what is in the file of a name, if it is there *)
Definition files := text -> option text.
(** [b] is [a] with the file [n] being [t] *)
Definition written (a : files) (n t : text) (b : files) : Prop := b n = Some t /\ forall m, m <> n -> b m = a m.
Definition same (a b : files) : Prop := forall n, b n = a n.

Definition inside (p s : text) : Prop := exists a b, s = a ++ p ++ b.
Definition starts (p s : text) : Prop := exists b, s = p ++ b.
(** The name of a header without its suffix *)
Definition header (sig stem : text) : Prop := In sig (map (app stem) [str ".h"; str ".hpp"; str ".hxx"]).
(** The first letter large *)
Definition large (n : text) : text := match n with c :: r => (if (97 <=? c) && (c <=? 122) then c - 32 else c) :: r | [] => [] end.

(** A text with blanks for ends of words has these words *)
Inductive has_words : text -> list text -> Prop :=
| hw_none : has_words [] []
| hw_blank s l : has_words s l -> has_words (32 :: s) l
| hw_last w : w <> [] -> ~ In 32 w -> has_words w [w]
| hw_more w s l : w <> [] -> ~ In 32 w -> has_words s l -> has_words (w ++ 32 :: s) (w :: l).
(** What the shell takes as it is: no blanks, quotes, or characters with a meaning for it *)
Definition shell_plain (w : text) : Prop :=
  w <> [] /\ Forall (fun c => 97 <= c <= 122 \/ 65 <= c <= 90 \/ 43 <= c <= 58 \/ c = 61 \/ c = 95) w.
(** The arguments that the shell makes of a command of such words *)
Definition shell_args (cmd : text) (l : list text) : Prop := has_words cmd l /\ Forall shell_plain l.

(** The text of a program in which the places for the name of the signature, for the language and for the services are filled in: [holes] are the texts between *)
Definition filled (h0 h1 h2 h3 h4 : text) (sig lang refl : text) : text := h0 ++ sig ++ h1 ++ sig ++ h2 ++ lang ++ h3 ++ refl ++ h4.
(** The lines that add the services *)
Definition service (i : nat) (n : text) : text :=
  n ++ str "_reflect ref" ++ show_int (Z.of_nat i) ++ str ";" ++ [10] ++ str "refs.push_back(&ref" ++ show_int (Z.of_nat i) ++ str ");" ++ [10].
Definition services (names : list text) : text := concat (map (fun x => service (fst x) (snd x)) (combine (seq 0 (length names)) names)).
Definition lines (l : list text) : text := flat_map (fun n => n ++ [10]) l.
(** Names of services *)
Definition identifier (n : text) : Prop := n <> [] /\ Forall (fun c => 97 <= c <= 122 \/ 65 <= c <= 90 \/ 48 <= c <= 57 \/ c = 95) n.
