(** C23: HTML escaping and rendering. *)
From Verif Require Import Common Xhtml_Model Xhtml_Spec Xhtml_Proof.
Local Open Scope Z_scope.

(** The encoded text is character data that denotes exactly [s], and nothing else. *)
Theorem C23_html_encode_denotes : forall s t, unescape (html_encode s) t <-> t = s.
Proof.
  intros s t. split.
  - intros H. exact (unescape_fun _ _ H s (unescape_encode s)).
  - intros ->. exact (unescape_encode s).
Qed.

(** No special character survives unescaped ('&' only introduces references). *)
Theorem C23_html_encode_safe : forall s c, In c (html_encode s) -> special c -> c = 38.
Proof. exact encode_no_special. Qed.

Theorem C23_html_encode_injective : forall s t, html_encode s = html_encode t -> s = t.
Proof. exact html_injective. Qed.

(** A rendered tree reads back as exactly that tree: no text or attribute value
    can open, close or alter a tag.  Likewise for the indented rendering. *)
Theorem C23_render_reads_back : forall e ts, wf_elem e ->
  (tokens InText (render e) ts <-> ts = events e).
Proof.
  intros e ts H. split.
  - intros T. exact (tokens_fun _ _ _ T _ (tokens_render e H)).
  - intros ->. exact (tokens_render e H).
Qed.

Theorem C23_pretty_reads_back : forall i e ts, wf_elem e ->
  (tokens InText (pretty i e) ts <-> ts = events e).
Proof.
  intros i e ts H. split.
  - intros T. exact (tokens_fun _ _ _ T _ (tokens_pretty i e H)).
  - intros ->. exact (tokens_pretty i e H).
Qed.

Definition sample : elem :=
  Tag (str "p") [(str "class", str "a""><script>"); (str "hidden", [])]
      [Text (str "1 < 2 & ""x"""); Tag (str "br") [] []; Tag (str "b") [] [Text (str "</p>")]].
Example C23_case_encode : html_encode (str "a<b>&'""") = str "a&lt;b&gt;&amp;&#039;&quot;".
Proof. vm_compute. reflexivity. Qed.
Example C23_case : wf_elem sample /\
  render sample = str "<p class=""a&quot;&gt;&lt;script&gt;"" hidden>1 &lt; 2 &amp; &quot;x&quot;<br /><b>&lt;/p&gt;</b></p>".
Proof.
  split; [|vm_compute; reflexivity].
  assert (N : forall n, n <> [] -> forallb (fun c => ((97 <=? c) && (c <=? 122))%bool) n = true -> is_name n).
  { intros n Hn Hf. split; [exact Hn|]. apply Forall_forall. intros c Hc. rewrite forallb_forall in Hf.
    specialize (Hf c Hc). unfold namechar. lia. }
  unfold sample. repeat first [apply wf_tag | apply wf_text | apply Forall_cons | apply Forall_nil];
    apply N; vm_compute; congruence.
Qed.

Print Assumptions C23_html_encode_denotes.
Print Assumptions C23_html_encode_safe.
Print Assumptions C23_html_encode_injective.
Print Assumptions C23_render_reads_back.
Print Assumptions C23_pretty_reads_back.
