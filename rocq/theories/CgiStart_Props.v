(** C99: starting CGI programs — as a process, under FastCGI and as a server of its own. *)
From Verif Require Import Common CommonLemmas NumText_Model Http_Spec Http_Model Cgi_Model CgiServer_Model CgiStart_Spec CgiStart_Model CgiStart_Proof.
From Verif Require Cgi_Proof.
Local Open Scope Z_scope.

(** Reading a FastCGI stream, looking and taking in any order, gives the bytes of the request. *)
Theorem C99_stream ops input : bytes input -> exists rs, steps ops (fcgx_init input) = Ok rs /\ map delivered rs = reads ops input.
Proof. intros Hb. apply steps_reads. split; [exact Hb|left; now split]. Qed.
(** All that is written goes out; if a call of the library fails, what went out is a beginning, and the stream says so. *)
Theorem C99_output ps : put_all [] ps [] = (true, flat_map text_of ps).
Proof. exact (put_all_ok ps []). Qed.
Theorem C99_output_failure oks ps : exists k, snd (put_all oks ps []) = flat_map text_of (firstn k ps) /\
  (fst (put_all oks ps []) = true -> snd (put_all oks ps []) = flat_map text_of ps).
Proof. exact (put_all_any ps oks []). Qed.

(** Processes one after the other, with the state of the program going from one to the next: the states, what each writes, and how it ends *)
Section Order.
Context {A : Type} (prog : A -> call -> A * outcome (list Z * header)) (max : Z).
Inductive in_order : A -> list (list (list Z) * list Z) -> A -> list (list Z) -> outcome unit -> Prop :=
| io_end a : in_order a [] a [] (Ok tt)
| io_next a envi input reqs a1 t a2 ts e : run_cgi prog max a envi input = (a1, Ok t) -> in_order a1 reqs a2 ts e -> in_order a ((envi, input) :: reqs) a2 (t :: ts) e
| io_fail a envi input reqs a1 e : run_cgi prog max a envi input = (a1, e) -> (forall t, e <> Ok t) -> in_order a ((envi, input) :: reqs) a1 [] (omap (fun _ => tt) e).
End Order.
(** Under FastCGI every request is answered as by a process of its own, up to the first that throws. *)
Theorem C99_fcgi {A} (prog : A -> call -> A * outcome (list Z * header)) max reqs : Forall (fun q => bytes (snd q)) reqs -> forall a,
  let '(a', ts, e) := fcgi_loop prog max a reqs in in_order prog max a reqs a' ts e.
Proof.
  induction 1 as [|(envi & input) reqs Hb _ IH]; intros a; [constructor|]. cbn [fcgi_loop]. rewrite (fcgi_once prog max a envi input Hb).
  destruct (run_cgi prog max a envi input) as (a1 & r) eqn:E. destruct r as [t| | |].
  - specialize (IH a1). destruct (fcgi_loop prog max a1 reqs) as [[a2 ts] e]. now apply (io_next _ _ _ _ _ _ a1).
  - now apply (io_fail _ _ _ _ _ _ _ _ E).
  - now apply (io_fail _ _ _ _ _ _ _ _ E).
  - now apply (io_fail _ _ _ _ _ _ _ _ E).
Qed.
(** A request for which the program throws ends the FastCGI loop: those that follow are not served, though each would be answered by itself. *)
Definition env_get (q : String.string) : list (list Z) := [str "REQUEST_METHOD=GET"; str "QUERY_STRING=" ++ str q].
Definition picky (n : Z) (c : call) : Z * outcome (list Z * header) :=
  (n + 1, match Cgi_Model.find (c_env c) (str "QUERY_STRING") with Some [] => Throw | Some q => Ok (q, plain_head) | None => Throw end).
Theorem C99_later_served_refuted : ~ (forall A (prog : A -> call -> A * outcome (list Z * header)) max a q reqs t,
  Forall (fun q => bytes (snd q)) (reqs ++ [q]) -> (forall a, snd (run_cgi prog max a (fst q) (snd q)) = Ok t) -> In t (snd (fst (fcgi_loop prog max a (reqs ++ [q]))))).
Proof.
  intros H. specialize (H _ picky 0 0 (env_get "b", []) [(env_get "", [])] _ ltac:(repeat constructor) ltac:(intros a; vm_compute; reflexivity)).
  vm_compute in H. exact H.
Qed.
Example C99_fcgi_nonvacuous :
  fcgi_loop picky 0 0 [(env_get "a", []); (env_get "b", []); (env_get "", []); (env_get "c", [])] =
  (3, [str "Content-Type: text/plain; charset=utf-8" ++ [10; 10] ++ str "a"; str "Content-Type: text/plain; charset=utf-8" ++ [10; 10] ++ str "b"], Throw).
Proof. vm_compute. reflexivity. Qed.

(** The server listens as the command line says: the last port, number of threads and timeout count. *)
Theorem C99_options argv0 args ss : written args ss -> (forall s, In s ss -> complaint argv0 s = None) ->
  run_server argv0 args = Listen (last (ports ss) 8080) (last (threads ss) 1) (last (map Some (timeouts ss)) None).
Proof. intros W H. unfold run_server. rewrite (written_events args ss W). exact (settings_listen argv0 ss (written_small args ss W) H 8080 1 None). Qed.
(** The first setting that is out of range, or a request for help, ends the program with a message about it. *)
Theorem C99_exit argv0 args pre s post m : written args (pre ++ s :: post) -> (forall x, In x pre -> complaint argv0 x = None) -> complaint argv0 s = Some m -> run_server argv0 args = Exit m.
Proof. intros W H Hm. unfold run_server. rewrite (written_events args _ W). exact (settings_exit argv0 pre s post m (written_small args _ W) H Hm 8080 1 None). Qed.
(** What is listened on is always a port and a sensible number of threads, whatever the command line. *)
Theorem C99_range argv0 args p t o : run_server argv0 args = Listen p t o -> 1 <= p <= 65535 /\ 1 <= t <= 1024.
Proof.
  unfold run_server. generalize (fst (getopt args)) as es. intros es.
  enough (Q : forall p' t' o', 1 <= p' <= 65535 /\ 1 <= t' <= 1024 -> settings argv0 es p' t' o' = Listen p t o -> 1 <= p <= 65535 /\ 1 <= t <= 1024) by (apply Q; lia).
  induction es as [|[c arg|] es IH]; intros p' t' o' G E; cbn [settings] in E.
  - injection E as <- <- _. exact G.
  - destruct (c =? 112).
    + cbv zeta in E. destruct (Z.leb_spec 1 (atoi arg)), (Z.leb_spec (atoi arg) 65535); cbn [andb] in E; try discriminate E.
      rewrite Z.mod_small in E by lia. refine (IH _ _ _ _ E). lia.
    + destruct (c =? 116).
      * cbv zeta in E. destruct (Z.leb_spec 1 (atoi arg)), (Z.leb_spec (atoi arg) 1024), (Z.leb_spec (atoi arg) 0); cbn [andb] in E; try discriminate E; refine (IH _ _ _ _ E); lia.
      * destruct (c =? 111); [exact (IH _ _ _ G E)|]. destruct (c =? 104); [discriminate E|]. exact (IH _ _ _ G E).
  - exact (IH _ _ _ G E).
Qed.
Example C99_options_nonvacuous : exists ss, written (map str ["-sp"; "80"; "x"; "--th=4"; "-o1.5"; "--port"; "8081"; "--"; "-h"]%string) ss /\
  ss = [AsServer; Port 80; Threads 4; Timeout (str "1.5"); Port 8081] /\ (forall s, In s ss -> complaint (str "a.out") s = None) /\
  run_server (str "a.out") (map str ["-sp"; "80"; "x"; "--th=4"; "-o1.5"; "--port"; "8081"; "--"; "-h"]%string) = Listen 8081 4 (Some (str "1.5")).
Proof.
  eexists. split; [|split; [reflexivity|]].
  - cbn [map]. apply (wr_cluster 115 AsServer 112); [now left|discriminate|].
    apply (wr_port 80 [[45; 112]; str "80"]); [apply gi_next|lia|]. apply wr_word; [intros x; discriminate|].
    apply (wr_threads 4 [str "--" ++ str "th" ++ 61 :: str "4"]); [apply gi_equals|lia|].
    { split; [now exists (str "read")|]. intros m Hm (r & E). cbn in Hm. destruct Hm as [<-|[<-|[<-|[<-|[<-|[]]]]]]; try reflexivity; discriminate E. }
    apply (wr_timeout (str "1.5") [45 :: 111 :: str "1.5"]); [apply gi_joined; discriminate|].
    apply (wr_port 8081 [str "--" ++ str "port"; str "8081"]); [apply gi_long|lia|apply wr_end].
    split; [exists []; reflexivity|]. intros m Hm (r & E). cbn in Hm. destruct Hm as [<-|[<-|[<-|[<-|[<-|[]]]]]]; try reflexivity; discriminate E.
  - split; [|vm_compute; reflexivity]. intros s Hs. cbn in Hs. destruct Hs as [<-|[<-|[<-|[<-|[<-|[]]]]]]; reflexivity.
Qed.
Example C99_exit_nonvacuous : run_server (str "a.out") (map str ["-p80"; "-t"; "2000"; "-h"]%string) = Exit (str "too many threads: --thread=2000") /\
  complaint (str "a.out") (Threads 2000) = Some (str "too many threads: --thread=2000").
Proof. split; vm_compute; reflexivity. Qed.
(** Only numbers are taken, and a number above the ports is refused: not so. *)
Theorem C99_number_refuted : ~ (forall argv0 d p t o, run_server argv0 [str "--port=" ++ d] = Listen p t o -> d = show_int p).
Proof. intros H. specialize (H [] (str "80abc") 80 1 None ltac:(vm_compute; reflexivity)). vm_compute in H. discriminate H. Qed.
Theorem C99_too_large_refuted : ~ (forall argv0 n p t o, 65535 < n -> run_server argv0 [str "--port=" ++ show_int n] <> Listen p t o).
Proof. intros H. refine (H [] 4294967376 80 1 None _ _); [lia|vm_compute; reflexivity]. Qed.
(** A second server in the same process does not see the options: optind stays where the first has left it. *)
Theorem C99_again_refuted : ~ (forall argv0 args, run_server_again argv0 args = run_server argv0 args).
Proof. intros H. specialize (H [] [str "-p80"]). vm_compute in H. discriminate H. Qed.
(** What it does instead: if every word was an option, it listens on the defaults. *)
Theorem C99_again argv0 args : snd (getopt args) = [] -> run_server_again argv0 args = Listen 8080 1 None.
Proof. intros H. unfold run_server_again. now rewrite H. Qed.

(** A program that is a server or a CGI: the words -s and --server decide. *)
Lemma exists_word a b args : existsb (fun x => eqs x a || eqs x b) args = true <-> In a args \/ In b args.
Proof.
  rewrite existsb_exists. split.
  - intros (x & Hx & H). apply orb_prop in H. destruct H as [H|H]; apply Cgi_Proof.eqs_iff in H; subst; tauto.
  - intros [H|H]; [exists a|exists b]; (split; [exact H|]); rewrite Cgi_Proof.eqs_refl; [reflexivity|apply orb_true_r].
Qed.
Theorem C99_mode argv0 args :
  ((In (str "-s") args \/ In (str "--server") args) -> run_server_or_cgi argv0 args = ServerMode (run_server argv0 args)) /\
  (~ (In (str "-s") args \/ In (str "--server") args) -> (In (str "-h") args \/ In (str "--help") args) -> run_server_or_cgi argv0 args = HelpMode) /\
  (~ (In (str "-s") args \/ In (str "--server") args) -> ~ (In (str "-h") args \/ In (str "--help") args) -> run_server_or_cgi argv0 args = CgiMode).
Proof.
  unfold run_server_or_cgi. rewrite <- (exists_word (str "-s") (str "--server") args), <- (exists_word (str "-h") (str "--help") args).
  destruct (existsb (fun a => eqs a (str "-s") || eqs a (str "--server")) args), (existsb (fun a => eqs a (str "-h") || eqs a (str "--help")) args); repeat split; intros; congruence.
Qed.
(** So the option in its other spellings does not count, and an argument of another option does. *)
Theorem C99_mode_refuted : ~ (forall argv0 args ss, written args ss -> (In AsServer ss <-> exists s, run_server_or_cgi argv0 args = ServerMode s)).
Proof.
  intros H. destruct (H [] (map str ["-sp80"]%string) [AsServer; Port 80]) as (H1 & _).
  - cbn [map]. apply (wr_cluster 115 AsServer 112); [now left|discriminate|]. apply (wr_port 80 [45 :: 112 :: str "80"]); [apply gi_joined; discriminate|lia|constructor].
  - destruct (H1 (or_introl eq_refl)) as (s & E). vm_compute in E. discriminate E.
Qed.
Example C99_mode_nonvacuous : run_server_or_cgi [] (map str ["-s"; "-p80"]%string) = ServerMode (Listen 80 1 None) /\ run_server_or_cgi [] (map str ["-h"]%string) = HelpMode /\
  run_server_or_cgi [] [] = CgiMode /\ run_server_or_cgi [] (map str ["-o"; "-s"]%string) = ServerMode (Listen 8080 1 (Some (str "-s"))).
Proof. repeat split; vm_compute; reflexivity. Qed.

Print Assumptions C99_stream.
Print Assumptions C99_output.
Print Assumptions C99_output_failure.
Print Assumptions C99_fcgi.
Print Assumptions C99_later_served_refuted.
Print Assumptions C99_options.
Print Assumptions C99_exit.
Print Assumptions C99_range.
Print Assumptions C99_number_refuted.
Print Assumptions C99_too_large_refuted.
Print Assumptions C99_again_refuted.
Print Assumptions C99_again.
Print Assumptions C99_mode.
Print Assumptions C99_mode_refuted.
