(** What a reader of the produced mark-up sees: character references and tags,
    as a (deterministic) tokenizer for the XML subset without comments, CDATA
    and processing instructions. *)
From Verif Require Import Common.
Local Open Scope Z_scope.

(** The named/numeric references for the five special characters. *)
Inductive charref : list Z -> Z -> Prop :=
| ref_amp : charref (str "&amp;") 38
| ref_quot : charref (str "&quot;") 34
| ref_apos : charref (str "&#039;") 39
| ref_lt : charref (str "&lt;") 60
| ref_gt : charref (str "&gt;") 62.

Definition special (c : Z) : Prop := In c [38; 34; 39; 60; 62].

(** [unescape raw s]: the character data [raw] denotes the text [s]. *)
Inductive unescape : list Z -> list Z -> Prop :=
| un_nil : unescape [] []
| un_char c raw s : ~ special c -> unescape raw s -> unescape (c :: raw) (c :: s)
| un_ref e c raw s : charref e c -> unescape raw s -> unescape (e ++ raw) (c :: s).

Definition namechar (c : Z) : Prop :=
  (48 <= c <= 57) \/ (65 <= c <= 90) \/ (97 <= c <= 122) \/ c = 45 \/ c = 95 \/ c = 58 \/ c = 46.
Definition is_name (n : list Z) : Prop := n <> [] /\ Forall namechar n.

Definition is_ws (c : Z) : Prop := c = 32 \/ c = 10.

Inductive token : Type :=
| TOpen (name : list Z)                 (* <name *)
| TAttr (key value : list Z)            (* key="value" or key *)
| TEnd                                  (* > *)
| TSelf                                 (* /> *)
| TClose (name : list Z)                (* </name> *)
| TChar (c : Z).                        (* one character of text *)

Inductive mode : Type := InText | InTag.

(** A name ends where a character that is no name character follows. *)
Definition stops (r : list Z) : Prop := match r with [] => False | c :: _ => ~ namechar c /\ c <> 61 end.

(** One token: [tok m s t m' s'] reads [t] from the front of [s]. *)
Inductive tok : mode -> list Z -> token -> mode -> list Z -> Prop :=
| tk_char c r : ~ special c -> tok InText (c :: r) (TChar c) InText r
| tk_ref e c r : charref e c -> tok InText (e ++ r) (TChar c) InText r
| tk_open n r : is_name n -> stops r -> tok InText (60 :: n ++ r) (TOpen n) InTag r
| tk_close n ws r : is_name n -> Forall is_ws ws -> tok InText ([60; 47] ++ n ++ ws ++ 62 :: r) (TClose n) InText r
| tk_attr ws k raw v r : ws <> [] -> Forall is_ws ws -> is_name k -> ~ In 34 raw -> ~ In 60 raw -> unescape raw v ->
    tok InTag (ws ++ k ++ [61; 34] ++ raw ++ 34 :: r) (TAttr k v) InTag r
| tk_attr0 ws k r : ws <> [] -> Forall is_ws ws -> is_name k -> stops r ->
    tok InTag (ws ++ k ++ r) (TAttr k []) InTag r
| tk_end ws r : Forall is_ws ws -> tok InTag (ws ++ 62 :: r) TEnd InText r
| tk_self ws r : Forall is_ws ws -> tok InTag (ws ++ 47 :: 62 :: r) TSelf InText r.

Inductive tokens : mode -> list Z -> list token -> Prop :=
| tks_nil : tokens InText [] []
| tks_cons m s t m' s' ts : tok m s t m' s' -> tokens m' s' ts -> tokens m s (t :: ts).

From Verif Require Import Xhtml_Model.

(** The token sequence that describes an element tree. *)
Fixpoint events (e : elem) : list token :=
  match e with
  | Tag name attrs children =>
      TOpen name :: map (fun kv => TAttr (fst kv) (snd kv)) attrs ++
      match children with
      | [] => [TSelf]
      | _ => TEnd :: flat_map events children ++ [TClose name]
      end
  | Text t => map TChar t
  | Prim _ => []
  end.

(** Trees whose tag and attribute names are names, without raw [Prim] parts;
    texts and attribute values are arbitrary. *)
Inductive wf_elem : elem -> Prop :=
| wf_text t : wf_elem (Text t)
| wf_tag n a ch : is_name n -> Forall (fun kv => is_name (fst kv)) a -> Forall wf_elem ch -> wf_elem (Tag n a ch).
