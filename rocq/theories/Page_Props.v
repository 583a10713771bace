(** C91: pages made with the tag macros. *)
From Verif Require Import Common CommonLemmas Xhtml_Model Xhtml_Spec Xhtml_Proof Http_Model Page_Spec Page_Model Page_Proof.
Local Open Scope Z_scope.

(** Every program has one meaning... *)
Theorem C91_meaning : forall p, closed p -> exists g x b, forall l' g' x' b', makes p l' g' x' b' <-> l' = [] /\ g' = g /\ x' = x /\ b' = b.
Proof.
  intros p C. destruct (makes_size (S (size p)) p ltac:(lia) None (fun _ => C)) as (l & g & x & b & M & El & _). rewrite (El eq_refl) in M.
  exists g, x, b. intros l' g' x' b'. split; [exact (makes_fun _ _ _ _ _ M l' g' x' b')|]. intros (-> & -> & -> & ->). exact M.
Qed.
(** ... and it is what the page shows, after the lines for xmltag and dtd (unless empty), whatever ran before. *)
Definition line (s : list Z) : list Z := match s with [] => [] | _ => s ++ [10] end.
Theorem C91_page : forall p g x h w, closed p -> makes p [] g x false -> exists w',
  run p h w = Ok (line (setting true x XMLTAG) ++ line (setting false x DTD) ++ flat_map (pretty 0) g ++ [10], set h (str "Content-Type") (str "text/html; charset=utf-8"), w').
Proof.
  intros p g x h w C M. destruct (makes_size (S (size p)) p ltac:(lia) None (fun _ => C)) as (l' & g' & x' & b' & M' & _ & X).
  destruct (makes_fun _ _ _ _ _ M _ _ _ _ M') as (-> & -> & -> & ->). unfold run. rewrite (X _ [] []) by reflexivity. cbn [obind added bld get xmltag dtd]. eexists. unfold line. now destruct (setting true x XMLTAG), (setting false x DTD).
Qed.
(** If an exception leaves the program it leaves run; the destructors on the way do no harm. *)
Theorem C91_throw : forall p g x h w, closed p -> makes p [] g x true -> run p h w = Throw.
Proof.
  intros p g x h w C M. destruct (makes_size (S (size p)) p ltac:(lia) None (fun _ => C)) as (l' & g' & x' & b' & M' & _ & X).
  destruct (makes_fun _ _ _ _ _ M _ _ _ _ M') as (-> & -> & -> & ->). unfold run. rewrite (X _ [] []) by reflexivity. reflexivity.
Qed.
(** A reader of the page finds exactly the tags, attributes and texts of the program, if names are names and there is no raw text. *)
Theorem C91_reads_back : forall p g x h w out h' w', closed p -> Forall nice1 p -> makes p [] g x false -> run p h w = Ok (out, h', w') ->
  exists lead rest, out = lead ++ rest /\ lead = line (setting true x XMLTAG) ++ line (setting false x DTD) /\
  forall ts, tokens InText rest ts <-> ts = flat_map events g ++ [TChar 10].
Proof.
  intros p g x h w out h' w' C N M R. destruct (C91_page p g x h w C M) as [w2 E]. rewrite E in R. injection R as <- _ _.
  exists (line (setting true x XMLTAG) ++ line (setting false x DTD)), (flat_map (pretty 0) g ++ [10]). split; [now rewrite <- app_assoc|]. split; [reflexivity|].
  assert (T : tokens InText (flat_map (pretty 0) g ++ [10]) (flat_map events g ++ [TChar 10])).
  { apply steps_tokens. eapply steps_app; [apply steps_forest; exact (proj1 (makes_nice _ _ _ _ _ M N))|]. apply steps_one. apply tk_char. unfold special. cbn. lia. }
  intros ts. split; [intros H; exact (tokens_fun _ _ _ H _ T)|intros ->; exact T].
Qed.

Definition program : list stmt :=
  [STag (str "html") [SAttr (str "lang") (fun _ => str "en"); STag (str "body") [SAttr (str "class") (fun v => v ++ str "a"); SText (str "1 < 2"); STry [STag (str "b") [SText (str "x"); SThrow; SText (str "y")]];
     SAttr (str "class") (fun v => v ++ str " b")]]; SDtd []].
Example C91_page_nonvacuous : closed program /\ Forall nice1 program /\
  makes program [] [Tag (str "html") [(str "lang", str "en")] [Tag (str "body") [(str "class", str "a b")] [Text (str "1 < 2"); Tag (str "b") [] [Text (str "x")]]]] [(false, [])] false.
Proof.
  split; [repeat constructor|]. split.
  - assert (N : forall n, n <> [] -> forallb (fun c => ((97 <=? c) && (c <=? 122))%bool) n = true -> is_name n).
    { intros n Hn Hf. split; [exact Hn|]. apply Forall_forall. intros c Hc. rewrite forallb_forall in Hf. specialize (Hf c Hc). unfold namechar. lia. }
    unfold program. repeat first [apply Forall_cons | apply Forall_nil | apply n_attr | apply n_tag | apply n_text | apply n_throw | apply n_try | apply n_dtd]; apply N; vm_compute; congruence.
  - change [(false, [])] with ([] ++ [(false, @nil Z)]). eapply (m_tag _ _ [(str "lang", fun _ => str "en")] _ [] _ _ []).
    + constructor. change (@nil (bool * list Z)) with (@nil (bool * list Z) ++ []) at 1. eapply (m_tag _ _ ([(str "class", fun v => v ++ str "a")] ++ [] ++ [(str "class", fun v => v ++ str " b")]) _ [] _ _ []).
      * constructor. constructor. change (@nil (bool * list Z)) with (@nil (bool * list Z) ++ []) at 1.
        change [Tag (str "b") [] [Text (str "x")]] with ([Tag (str "b") [] [Text (str "x")]] ++ []). refine (m_try _ [] _ [] true _ _ _ _ _ _ _).
        -- refine (m_tag_throw _ _ [] _ [] _ _ _ _); [repeat constructor|]. exact (after_attributes []).
        -- constructor. constructor.
      * exact (after_attributes [(str "class", fun v => v ++ str "a"); (str "class", fun v => v ++ str " b")]).
      * constructor.
    + exact (after_attributes [(str "lang", fun _ => str "en")]).
    + constructor. constructor.
Qed.
Example C91_page_case : omap (fun r => fst (fst r)) (run [STag (str "p") [SText (str "a"); STag (str "br") []; SPrim (str "&nbsp;")]] [] {| xmltag := []; dtd := []; bld := [] |}) =
  Ok (str "<?xml version=""1.0"" encoding=""utf-8""?>" ++ [10] ++
      str "<!DOCTYPE html PUBLIC ""-//W3C//DTD XHTML 1.0 Transitional//EN"" ""http://www.w3.org/TR/xhtml1/DTD/xhtml1-transitional.dtd"">" ++ [10] ++
      str "<p" ++ [10] ++ str " >a<br" ++ [10] ++ str "    />&nbsp;</p" ++ [10] ++ str " >" ++ [10]).
Proof. reflexivity. Qed.
Example C91_throw_nonvacuous : makes [STag (str "p") [SThrow]; SText (str "x")] [] [Tag (str "p") [] []] [] true.
Proof. refine (m_tag_throw _ _ [] _ [] _ _ _ _); [constructor|exact (after_attributes [])]. Qed.

Print Assumptions C91_meaning.
Print Assumptions C91_page.
Print Assumptions C91_throw.
Print Assumptions C91_reads_back.
