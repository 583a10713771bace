(** C82 and C83: CGI programs and the embedded web server. *)
From Verif Require Import Common CommonLemmas NumText_Model Xhtml_Model Socket_Spec Socket_Model Socket_Proof Http_Spec Http_Model Http_Proof HttpMsg_Spec HttpMsg_Model HttpMsg_Proof.
From Verif Require Import Cgi_Model Cgi_Spec CgiServer_Spec CgiServer_Model CgiServer_Proof.
From Verif Require Uri_Model Cgi_Proof.
Local Open Scope Z_scope.
Notation type_of h := (or_else [] (value_of (str "Content-Type") h)).

(** a connection on which a request for the URI t stands, after any calls on the socket *)
Definition connected (rc sc : nat -> Z) (x : st) (m t : list Z) (u : Uri_Model.comps) (h : header) (body : list Z) : Prop :=
  (forall i, 0 < rc i) /\ (forall i, 0 < sc i) /\ conn (fst x) = true /\ (exists cs inb n rs, bytes inb /\ run rc sc cs (fresh inb n) = Ok (rs, x)) /\
  (exists ma mi s, int ma /\ int mi /\ (length (request_line m t ma mi) <= 4094)%nat /\ rb (fst x) ++ kin (snd x) = message (request_line m t ma mi) (with_length h body) body ++ s) /\
  word_ok m /\ word_ok t /\ Uri_Model.uri t = Ok u /\ fields_ok h /\ Z.of_nat (length body) < 2 ^ 63.
(** the program is called with c: nothing else of it matters *)
Definition called (rc sc : nat -> Z) (max : Z) (i : info) (x : st) (c : call) : Prop :=
  (forall p p', p c = p' c -> serve rc sc p max i x = serve rc sc p' max i x) /\ (forall p, p c = Throw -> serve rc sc p max i x = Throw).
(** the environment describes the request *)
Definition describes (i : info) (m : list Z) (u : Uri_Model.comps) (h : header) (body : list Z) (c : call) : Prop :=
  c_method c = m /\
  Forall (fun p => find (c_env c) (fst p) = Some (snd p))
    (variables m (Uri_Model.path u) (Uri_Model.query u) (type_of h) (length_text body) (i_addr i) (show_int (i_port i)) (show_int (i_server_port i)) (i_version i)) /\
  forall k v, In (k, v) h -> find (c_env c) (str "HTTP_" ++ upper k) = Some v.
(** the client gets the page *)
Definition answered (rc sc : nat -> Z) (max : Z) (i : info) (x : st) (c : call) : Prop :=
  forall p out hd code reason, p c = Ok (out, hd) -> page_ok hd -> Forall (fun g => same (fst g) (str "Content-Length") = false) hd -> status_of hd code reason ->
  exists x', serve rc sc p max i x = Ok x' /\ wb (fst x') = [] /\
  kout (snd x') = kout (snd x) ++ wb (fst x) ++ message (status_line 1 1 code reason) (with_length (page_fields hd) out) out.

Lemma reaches rc sc x m t u h body : connected rc sc x m t u h body -> alive x /\ exists ma mi s, int ma /\ int mi /\ arrives x t ma mi h body s m.
Proof.
  intros (H1 & H2 & Hc & (cs & inb & n & rs & Hb & Hr) & (ma & mi & s & Ha & Hi & Hl & Hs) & Hm & _). split; [exact (reached_alive rc sc cs inb n rs x Hb H1 H2 Hr)|].
  exists ma, mi, s. split; [exact Ha|]. split; [exact Hi|]. split; [exact Hm|]. split; assumption.
Qed.
Lemma conclude rc sc max i x m t u h body c x2 d (P : cgi -> Prop) : connected rc sc x m t u h body ->
  calls rc sc max i x c x2 -> alive x2 -> quiet x x2 -> seen i m u h body c -> c_data c = d -> P d ->
  called rc sc max i x c /\ describes i m u h body c /\ answered rc sc max i x c /\ P (c_data c).
Proof.
  intros (H1 & H2 & Hc & _) C A Q (S1 & S2 & S3 & S4) <- HP. split; [|split; [|split; [|exact HP]]].
  - split; intros p; [intros p' E; now rewrite (C p), (C p'), E|intros E; now rewrite (C p), E].
  - split; [exact S1|]. split; [exact S3|exact S4].
  - intros p out hd code reason E Hp Hn Hs. rewrite (C p), E. cbn [obind]. exact (respond sc H2 x x2 code reason hd out Hc A Q Hp Hs Hn).
Qed.
Lemma get_case rc sc max i x t u h body ps : connected rc sc x (str "GET") t u h body -> form_text ps (Uri_Model.query u) ->
  exists c, called rc sc max i x c /\ describes i (str "GET") u h body c /\ answered rc sc max i x c /\ Cgi_Proof.queries (c_data c) ps.
Proof.
  intros H Hq. destruct (reaches _ _ _ _ _ _ _ _ H) as (A & ma & mi & s & Hma & Hmi & Hs). pose proof H as (H1 & H2 & _ & _ & _ & _ & Ht & Hu & Hf & Hl).
  destruct (calls_any rc sc H1 max i x t u ma mi h body s A Ht Hma Hmi Hu Hf Hl (str "GET") (Cgi_Proof.add_all ps empty_cgi) Hs) as (c & x2 & C & A2 & Q & S & D).
  { intros S next y. exact (prepare_get next i u h body Hf max ps y Hq). }
  exists c. refine (conclude rc sc max i x _ t u h body c x2 _ (fun d => Cgi_Proof.queries d ps) H C A2 Q S D _). apply (Cgi_Proof.queries_add_all ps empty_cgi []), Cgi_Proof.queries_empty.
Qed.
Lemma post_case rc sc max i x t u h body ps : connected rc sc x (str "POST") t u h body -> form_text ps body -> ~ contains (str "multipart/") (type_of h) -> Z.of_nat (length body) <= max ->
  exists c, called rc sc max i x c /\ describes i (str "POST") u h body c /\ answered rc sc max i x c /\ Cgi_Proof.queries (c_data c) ps.
Proof.
  intros H Hq Hn Hx. destruct (reaches _ _ _ _ _ _ _ _ H) as (A & ma & mi & s & Hma & Hmi & Hs). pose proof H as (H1 & H2 & _ & _ & _ & _ & Ht & Hu & Hf & Hl).
  destruct (calls_body rc sc H1 max i x t u ma mi h body s A Ht Hma Hmi Hu Hf Hl (str "POST") (Cgi_Proof.add_all ps empty_cgi) Hs) as (c & x2 & C & A2 & Q & S & D).
  { intros S next y y1 R. exact (prepare_post next i u h body Hf Hl max y y1 ps Hx R Hn Hq). }
  exists c. refine (conclude rc sc max i x _ t u h body c x2 _ (fun d => Cgi_Proof.queries d ps) H C A2 Q S D _). apply (Cgi_Proof.queries_add_all ps empty_cgi []), Cgi_Proof.queries_empty.
Qed.
Lemma multi_case rc sc max i x t u h bd ps pre epi body : connected rc sc x (str "POST") t u h body -> body = lines pre ++ multipart_text bd ps ++ epi -> Z.of_nat (length body) <= max ->
  value_of (str "Content-Type") h = Some (str "multipart/form-data; boundary=" ++ bd) -> ~ In 10 bd -> preamble_ok bd pre -> Forall part_ok ps ->
  exists c, called rc sc max i x c /\ describes i (str "POST") u h body c /\ answered rc sc max i x c /\
  forall k, find (query (c_data c)) k = last_of (values k (pairs ps)) /\ find (multi_query (c_data c)) k = all_of (values k (pairs ps)) /\ find (file (c_data c)) k = last_of (values k (files ps)).
Proof.
  intros H Hb Hx Hv Hbd Hpre Hps. destruct (reaches _ _ _ _ _ _ _ _ H) as (A & ma & mi & s & Hma & Hmi & Hs). pose proof H as (H1 & H2 & _ & _ & _ & _ & Ht & Hu & Hf & Hl).
  destruct (calls_body rc sc H1 max i x t u ma mi h body s A Ht Hma Hmi Hu Hf Hl (str "POST") (fold_left Cgi_Proof.step ps empty_cgi) Hs) as (c & x2 & C & A2 & Q & S & D).
  { intros S next y y1 R. exact (prepare_multi next i u h body Hf Hl max y y1 bd ps pre epi Hx R Hv Hbd Hpre Hps Hb). }
  exists c. refine (conclude rc sc max i x _ t u h body c x2 _ (fun d => forall k, find (query d) k = _ /\ find (multi_query d) k = _ /\ find (file d) k = _) H C A2 Q S D _).
  destruct (Cgi_Proof.steps_all ps empty_cgi [] [] Cgi_Proof.queries_empty) as [Hq Hfi]; [intros k; reflexivity|]. intros k. destruct (Hq k). split; [assumption|]. split; [assumption|apply Hfi].
Qed.
Lemma other_case rc sc max i x m t u h body : connected rc sc x m t u h body -> m <> str "GET" -> m <> str "POST" ->
  exists c, called rc sc max i x c /\ describes i m u h body c /\ answered rc sc max i x c /\ c_data c = empty_cgi.
Proof.
  intros H G P. destruct (reaches _ _ _ _ _ _ _ _ H) as (A & ma & mi & s & Hma & Hmi & Hs). pose proof H as (H1 & H2 & _ & _ & _ & _ & Ht & Hu & Hf & Hl).
  destruct (calls_any rc sc H1 max i x t u ma mi h body s A Ht Hma Hmi Hu Hf Hl m empty_cgi Hs) as (c & x2 & C & A2 & Q & S & D).
  { intros S next y. exact (prepare_other next i u h body Hf max m y G P). }
  exists c. exact (conclude rc sc max i x _ t u h body c x2 _ (fun d => d = empty_cgi) H C A2 Q S D eq_refl).
Qed.

(** C82: the program gets the form of the query and the variables. *)
Theorem C82_get_partial : forall rc sc max i x t u h body ps, connected rc sc x (str "GET") t u h body -> form_text ps (Uri_Model.query u) ->
  exists c, called rc sc max i x c /\ describes i (str "GET") u h body c /\
  forall k, find (query (c_data c)) k = last_of (values k ps) /\ find (multi_query (c_data c)) k = all_of (values k ps).
Proof. intros rc sc max i x t u h body ps H Hq. destruct (get_case rc sc max i x t u h body ps H Hq) as (c & C & D & _ & Q). exists c. auto. Qed.
Theorem C82_post_partial : forall rc sc max i x t u h body ps, connected rc sc x (str "POST") t u h body -> form_text ps body ->
  ~ contains (str "multipart/") (type_of h) -> Z.of_nat (length body) <= max ->
  exists c, called rc sc max i x c /\ describes i (str "POST") u h body c /\
  forall k, find (query (c_data c)) k = last_of (values k ps) /\ find (multi_query (c_data c)) k = all_of (values k ps).
Proof. intros rc sc max i x t u h body ps H Hq Hn Hx. destruct (post_case rc sc max i x t u h body ps H Hq Hn Hx) as (c & C & D & _ & Q). exists c. auto. Qed.
Theorem C82_multipart_partial : forall rc sc max i x t u h bd ps pre epi body, connected rc sc x (str "POST") t u h body -> body = lines pre ++ multipart_text bd ps ++ epi ->
  Z.of_nat (length body) <= max -> value_of (str "Content-Type") h = Some (str "multipart/form-data; boundary=" ++ bd) -> ~ In 10 bd -> preamble_ok bd pre -> Forall part_ok ps ->
  exists c, called rc sc max i x c /\ describes i (str "POST") u h body c /\
  forall k, find (query (c_data c)) k = last_of (values k (pairs ps)) /\ find (multi_query (c_data c)) k = all_of (values k (pairs ps)) /\ find (file (c_data c)) k = last_of (values k (files ps)).
Proof.
  intros rc sc max i x t u h bd ps pre epi body H Hb Hx Hv Hbd Hpre Hps. destruct (multi_case rc sc max i x t u h bd ps pre epi body H Hb Hx Hv Hbd Hpre Hps) as (c & C & D & _ & Q). exists c. auto.
Qed.
Theorem C82_other_partial : forall rc sc max i x m t u h body, connected rc sc x m t u h body -> m <> str "GET" -> m <> str "POST" ->
  exists c, called rc sc max i x c /\ describes i m u h body c /\ forall k, find (query (c_data c)) k = None /\ find (multi_query (c_data c)) k = None /\ find (file (c_data c)) k = None.
Proof.
  intros rc sc max i x m t u h body H G P. destruct (other_case rc sc max i x m t u h body H G P) as (c & C & D & _ & Q). exists c. split; [exact C|]. split; [exact D|]. rewrite Q. intros k. repeat split.
Qed.
(** C83: the client gets the status, the fields and the page. *)
Theorem C83_answer : forall rc sc max i x m t u h body ps, connected rc sc x m t u h body ->
  (m = str "GET" /\ form_text ps (Uri_Model.query u)) \/ (m = str "POST" /\ form_text ps body /\ ~ contains (str "multipart/") (type_of h) /\ Z.of_nat (length body) <= max) \/ (m <> str "GET" /\ m <> str "POST") ->
  exists c, called rc sc max i x c /\ answered rc sc max i x c.
Proof.
  intros rc sc max i x m t u h body ps H [[-> Hq]|[(-> & Hq & Hn & Hx)|[G P]]].
  - destruct (get_case rc sc max i x t u h body ps H Hq) as (c & C & _ & D & _). exists c. auto.
  - destruct (post_case rc sc max i x t u h body ps H Hq Hn Hx) as (c & C & _ & D & _). exists c. auto.
  - destruct (other_case rc sc max i x m t u h body H G P) as (c & C & _ & D & _). exists c. auto.
Qed.
Theorem C83_multipart_answer : forall rc sc max i x t u h bd ps pre epi body, connected rc sc x (str "POST") t u h body -> body = lines pre ++ multipart_text bd ps ++ epi ->
  Z.of_nat (length body) <= max -> value_of (str "Content-Type") h = Some (str "multipart/form-data; boundary=" ++ bd) -> ~ In 10 bd -> preamble_ok bd pre -> Forall part_ok ps ->
  exists c, called rc sc max i x c /\ answered rc sc max i x c.
Proof.
  intros rc sc max i x t u h bd ps pre epi body H Hb Hx Hv Hbd Hpre Hps. destruct (multi_case rc sc max i x t u h bd ps pre epi body H Hb Hx Hv Hbd Hpre Hps) as (c & C & _ & D & _). exists c. auto.
Qed.
(** A body that is too long: the program is not called, the client is told. *)
Theorem C83_too_long : forall rc sc p max i x t u h body, connected rc sc x (str "POST") t u h body -> 0 <= max < Z.of_nat (length body) ->
  exists x' a b page, page = a ++ str "Content length is too long: got " ++ show_int (Z.of_nat (length body)) ++ str " bytes, expect less than " ++ show_int max ++ str " bytes" ++ b /\
  serve rc sc p max i x = Ok x' /\ wb (fst x') = [] /\
  kout (snd x') = kout (snd x) ++ wb (fst x) ++ message (status_line 1 1 500 (str "Internal Server Error")) (with_length [(str "Content-Type", str "text/plain; charset=utf-8")] page) page.
Proof.
  intros rc sc p max i x t u h body H Hx. destruct (reaches _ _ _ _ _ _ _ _ H) as (A & ma & mi & s & Hma & Hmi & Hs). pose proof H as (H1 & H2 & Hc & _ & _ & _ & Ht & Hu & Hf & Hl).
  exact (refuse_long rc sc H1 H2 p max i x t u ma mi h body s A Hc Ht Hma Hmi Hu Hf Hl Hs Hx).
Qed.

Definition nl (s : String.string) : list Z := str s ++ [13; 10].
Definition here : info := mkInfo (str "10.0.0.7") 4711 8080 (str "1.2").
Definition shown (o : option (list Z)) : list Z := match o with Some v => v | None => str "nothing" end.
(** programs that print a variable, or a value of the form *)
Definition print_var (k : list Z) (c : call) : outcome (list Z * header) := Ok (shown (find (c_env c) k), c_head c).
Definition print_query (k : list Z) (c : call) : outcome (list Z * header) := Ok (shown (find (query (c_data c)) k), c_head c).
Definition reply (p : call -> outcome (list Z * header)) (req : list Z) : outcome (list Z) :=
  let* x := serve (fun _ => 7) (fun _ => 5) p 20 here (fresh req 0) in Ok (kout (snd x)).
Definition plain_page (s : list Z) : list Z :=
  nl "HTTP/1.1 200 OK" ++ nl "Content-Type: text/plain; charset=utf-8" ++ str "Content-Length: " ++ show_int (Z.of_nat (length s)) ++ [13; 10; 13; 10] ++ s.
Example C82_case_get : reply (print_query (str "b")) (nl "GET /a/b?a=1&b=%32 HTTP/1.0" ++ nl "X: y" ++ nl "") = Ok (plain_page (str "2")).
Proof. vm_compute. reflexivity. Qed.
Example C82_case_post : reply (print_query (str "b")) (nl "POST /a/b?a=1 HTTP/1.0" ++ nl "Content-Length: 5" ++ nl "" ++ str "b=2+3") = Ok (plain_page (str "2 3")).
Proof. vm_compute. reflexivity. Qed.
Example C82_case_env : forall k v, In (k, v) [(str "REQUEST_URI", str "/a/b?a=1"); (str "SCRIPT_NAME", str "/a/b"); (str "REMOTE_PORT", str "4711"); (str "HTTP_COOKIE", str "c=d"); (str "SERVER_SOFTWARE", str "pficommon/1.2"); (str "HTTP_ACCEPT", str "nothing")] ->
  reply (print_var k) (nl "GET /a/b?a=1 HTTP/1.0" ++ nl "Cookie: c=d" ++ nl "") = Ok (plain_page v).
Proof. intros k v H. cbn [In] in H. repeat (destruct H as [E|H]; [injection E as <- <-; vm_compute; reflexivity|]). contradiction H. Qed.
Example C83_case_status : reply (fun _ => Ok (str "oh", [(str "status", str "404 Not  Here"); (str "Set-Cookie", str "k")])) (nl "PUT / HTTP/1.1" ++ nl "") =
  Ok (nl "HTTP/1.1 404 Not  Here" ++ nl "Set-Cookie: k" ++ nl "Content-Type: text/html; charset=utf-8" ++ nl "Content-Length: 2" ++ nl "" ++ str "oh").
Proof. vm_compute. reflexivity. Qed.
Example C83_case_location : reply (fun _ => Ok ([], [(str "Location", str "/b"); (str "CONTENT-TYPE", str "a/b")])) (nl "GET / HTTP/1.1" ++ nl "") =
  Ok (nl "HTTP/1.1 302 Found" ++ nl "Location: /b" ++ nl "Content-Type: a/b" ++ nl "").
Proof. vm_compute. reflexivity. Qed.
Example C83_nonvacuous : page_ok [(str "Status", str "404 Not  Here"); (str "Set-Cookie", str "k")] /\ status_of [(str "Status", str "404 Not  Here")] 404 (str "Not  Here") /\
  status_of [(str "Location", str "/b")] 302 (str "Found") /\ status_of [] 200 (str "OK").
Proof.
  split; [split; [constructor; [|constructor; [|constructor]]; apply text_field; try discriminate; reflexivity|repeat constructor; cbn; intuition discriminate]|].
  split; [|split; split; reflexivity]. split; [reflexivity|]. split; [unfold int; lia|]. split; [intros K; vm_compute in K; lia|]. change (~ blank 78). unfold blank. lia.
Qed.
Example C82_nonvacuous : connected (fun _ => 7) (fun _ => 5) (fresh (nl "POST /a?b HTTP/1.0" ++ nl "Cookie: c" ++ nl "Content-Length: 3" ++ nl "" ++ str "a=1") 0) (str "POST") (str "/a?b")
  (Uri_Model.mkC [] [] [] [] (str "/a") (str "b") []) [(str "Cookie", str "c")] (str "a=1").
Proof.
  split; [intros; lia|]. split; [intros; lia|]. split; [reflexivity|]. split.
  { exists [], (nl "POST /a?b HTTP/1.0" ++ nl "Cookie: c" ++ nl "Content-Length: 3" ++ nl "" ++ str "a=1"), 0%nat, []. split; [|reflexivity].
    apply Forall_forall. intros c K. vm_compute in K. unfold is_byte. lia. }
  split. { exists 1, 0, []. split; [unfold int; lia|]. split; [unfold int; lia|]. split; [vm_compute; lia|vm_compute; reflexivity]. }
  split; [split; [discriminate|]; apply Forall_forall; intros c K; vm_compute in K; unfold blank; lia|].
  split; [split; [discriminate|]; apply Forall_forall; intros c K; vm_compute in K; unfold blank; lia|]. split; [vm_compute; reflexivity|]. split; [|reflexivity].
  assert (L : line_field (str "Cookie", str "c")) by (apply text_field; try discriminate; reflexivity). destruct L as (L1 & L2 & L3).
  split; [constructor; [|constructor]; split; [exact L1|split; [exact L2|split; [exact L3|vm_compute; lia]]]|]. split; repeat constructor; intros [].
Qed.
(** The environment of a process: the last entry of a name counts. *)
Theorem C82_process_environment : forall vs k, Forall (fun p => ~ In 61 (fst p) /\ ~ In 0 (fst p)) vs ->
  find (get_env (map (fun p => fst p ++ 61 :: snd p) vs)) k = last_of (values k vs).
Proof.
  intros vs k. induction vs as [|[a v] vs IH] using rev_ind; intros H; [reflexivity|]. apply Forall_app in H. destruct H as [H1 H2]. apply Forall_inv in H2. cbn [fst] in H2.
  unfold get_env in *. rewrite map_app, fold_left_app. cbn [map fold_left fst snd].
  assert (E : strchr 61 (a ++ 61 :: v) = Some (a, v)).
  { clear - H2. destruct H2 as [A B]. induction a as [|c a IH]; [reflexivity|]. cbn [app strchr]. destruct (Z.eqb_spec c 61) as [->|_]; [elim A; now left|].
    destruct (Z.eqb_spec c 0) as [->|_]; [elim B; now left|]. rewrite IH; [reflexivity| |]; intros K; [apply A|apply B]; now right. }
  rewrite E, find_put, Cgi_Proof.values_app, Cgi_Proof.values_one. destruct (eqs a k); [now rewrite Cgi_Proof.last_of_snoc|]. rewrite app_nil_r. now apply IH.
Qed.
Example C82_environment_nonvacuous : find (get_env [str "A=1=2"; str "B"; str "A=3"; str "=x"]) (str "A") = Some (str "3") /\ find (get_env [str "A=1=2"; str "B"; str "=x"]) [] = Some (str "x").
Proof. split; reflexivity. Qed.

(** False of the code: the variable of a field with a hyphen has a hyphen, not a low line (RFC 3875, 4.1.18). *)
Theorem C82_hyphen_refuted : exists h k v p, In (k, v) h /\ p = print_var (standard_name k) /\
  reply p (nl "GET / HTTP/1.1" ++ wire h) = Ok (plain_page (str "nothing")).
Proof.
  exists [(str "User-Agent", str "x")], (str "User-Agent"), (str "x"). eexists. split; [now left|]. split; [reflexivity|]. vm_compute. reflexivity.
Qed.
(** False of the code: a form sent in chunks is not read. *)
Theorem C82_chunked_refuted : exists body w, chunked_body body w /\ form_text [(str "a", str "1")] body /\
  reply (print_query (str "a")) (nl "POST / HTTP/1.1" ++ nl "Transfer-Encoding: chunked" ++ nl "" ++ w) = Ok (plain_page (str "nothing")).
Proof.
  exists (str "a=1" ++ []), (((str "3" ++ [] ++ [13; 10]) ++ str "a=1" ++ [13; 10]) ++ (str "0" ++ [] ++ [13; 10]) ++ flat_map (fun t => t ++ [13; 10]) [] ++ [13; 10]). split; [|split; [|vm_compute; reflexivity]].
  - assert (Hd : forall c v, nth (Z.to_nat v) (str "0123456789abcdef") 0 = c -> 0 <= v < 16 -> hexnum [c] v) by (intros; constructor; split; auto).
    apply cb_chunk; [|apply cb_end; [|constructor]].
    + constructor; [discriminate|vm_compute; reflexivity|]. constructor; [apply Hd; [reflexivity|vm_compute; split; congruence]| |vm_compute; lia].
      split; [constructor|]. split; [intros []|split; [intros []|exact I]].
    + constructor; [apply Hd; [reflexivity|lia]| |vm_compute; lia]. split; [constructor|]. split; [intros []|split; [intros []|exact I]].
  - apply (ft_one (str "a") (str "1") (str "a") (str "1")).
    + exact (UriCodec_Proof.encode_percent_form (str "a") (proj1 (bytesb_spec (str "a")) eq_refl)).
    + exact (UriCodec_Proof.encode_percent_form (str "1") (proj1 (bytesb_spec (str "1")) eq_refl)).
Qed.
(** False of the code: the page that says a request is too short is never delivered; the end of the stream has closed the
    connection.  Nor is one for a multipart form without a boundary: reading the form throws first. *)
Theorem C83_short_refuted : exists req, (exists text x', exec_on (fun _ => 7) (fun _ => Throw) (Sized 9) 20 [(str "REQUEST_METHOD", str "POST"); (str "CONTENT_LENGTH", str "9")] (fresh (str "a=1") 0) = Ok (text, x') /\ contains (str "Request is too short") text) /\
  req = nl "POST / HTTP/1.1" ++ nl "Content-Length: 9" ++ nl "" ++ str "a=1" /\ forall p, reply p req = Throw.
Proof.
  eexists. split; [|split; [reflexivity|intros p; vm_compute; reflexivity]]. eexists _, _. split; [vm_compute; reflexivity|].
  match goal with |- contains ?x ?t => let n := eval vm_compute in (find_sub x t) in match n with Some ?k => exists (firstn k t), (skipn (k + 20) t) end end. vm_compute. reflexivity.
Qed.
Theorem C83_boundary_refuted : forall p, reply p (nl "POST / HTTP/1.1" ++ nl "Content-Type: multipart/mixed" ++ nl "Content-Length: 3" ++ nl "" ++ str "a=1") = Throw.
Proof. intros p. vm_compute. reflexivity. Qed.

Print Assumptions C82_get_partial.
Print Assumptions C82_post_partial.
Print Assumptions C82_multipart_partial.
Print Assumptions C82_other_partial.
Print Assumptions C83_answer.
Print Assumptions C83_multipart_answer.
Print Assumptions C83_too_long.
Print Assumptions C82_process_environment.
Print Assumptions C82_hyphen_refuted.
Print Assumptions C82_chunked_refuted.
Print Assumptions C83_short_refuted.
Print Assumptions C83_boundary_refuted.
