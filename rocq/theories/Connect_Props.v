(** C110: Connections go to the addresses of the name *)
From Verif Require Import Common NumText_Model NumText_Proof Cast_Spec Cast_Proof Ipv4_Spec Ipv4_Model Ipv4_Props Connect_Spec Connect_Model Connect_Proof.
Local Open Scope Z_scope.

(** The system knows the addresses of the host; it is asked with the port in decimal. *)
Definition knows (gai : list Z -> list Z -> option (list sockaddr)) (host : list Z) (port : Z) (addrs : list addr) : Prop :=
  forall service, service <> [] -> Forall digit service -> decimal service = port ->
  exists l, gai host service = Some l /\ Forall2 (fun sa a => ip sa = bytes_of a) l addrs.
(** What the socket says afterwards *)
Definition says (c : conn) (r : option addr) (port : Z) : Prop :=
  match r with Some a => connected c = true /\ raddr c = a /\ rport c = port | None => connected c = false end.
(** How often the system has answered, interruptions apart *)
Definition answered (ans : list answer) : nat := length (filter (fun a => match a with Intr => false | _ => true end) ans).
Lemma answered_finals l : answered l = finals l.
Proof. unfold answered. induction l as [|[] l IH]; cbn; congruence. Qed.
Lemma service_text port : 0 <= port -> show_int port <> [] /\ Forall digit (show_int port) /\ decimal (show_int port) = port /\ c_str (show_int port) = show_int port.
Proof.
  intros H. unfold show_int. replace (port <? 0) with false by lia. split; [now apply dec_text_nonempty|].
  assert (D : Forall digit (dec_text port)) by (eapply Forall_impl; [|apply dec_text_digits; exact H]; intros c; apply digit_isdigit).
  split; [exact D|]. split; [now rewrite decimal_dec_val, dec_text_val|].
  apply c_str_plain. intros X. rewrite Forall_forall in D. apply D in X. unfold digit in X. lia.
Qed.
Lemma connect_given ips port ans : Forall is_addr ips -> 0 <= port < 2 ^ 16 ->
  match connect_ips ips port ans with
  | Ok (c, log) => exists r, visit port ips log r /\ says c r port /\ map snd log = firstn (length log) ans
  | Fuel => (answered ans < length ips)%nat
  | _ => False
  end.
Proof.
  intros F Hp. unfold connect_ips. destruct (attempts_visit ips port F Hp ans) as [E|(r & log & E & V & M)]; rewrite E; cbn [obind].
  - destruct (Nat.le_gt_cases (length ips) (answered ans)) as [L|L]; [|exact L]. rewrite answered_finals in L. now destruct (attempts_enough ips port F Hp ans L).
  - exists r. split; [exact V|]. split; [|exact M]. destruct r; now repeat split.
Qed.

(** Whatever addresses a resolver gives: they are tried in order, each with its bytes and port, and the socket tells which one
    answered; connect ends when the system has answered for each. *)
Theorem C110_tries ips port ans : Forall is_addr ips -> 0 <= port < 2 ^ 16 ->
  match connect_ips ips port ans with
  | Ok (c, log) => exists r, visit port ips log r /\ says c r port /\ map snd log = firstn (length log) ans
  | Fuel => (answered ans < length ips)%nat
  | _ => False
  end.
Proof.
  apply connect_given.
Qed.
(** With the library's resolver these are the addresses that the system knows for the host, but 255.255.255.255. *)
Theorem C110_connect_partial gai gni host port addrs ans : ~ In 0 host -> 0 <= port < 2 ^ 16 -> Forall is_addr addrs -> knows gai host port addrs ->
  (forall sa, gni sa = true) -> ~ In (255, 255, 255, 255) addrs ->
  match connect gai gni host port ans with
  | Ok (c, log) => exists r, visit port addrs log r /\ says c r port /\ map snd log = firstn (length log) ans
  | Fuel => (answered ans < length addrs)%nat
  | _ => False
  end.
Proof.
  intros H0 Hp A K G N. unfold connect, resolve. rewrite (c_str_plain host H0). destruct (service_text port ltac:(lia)) as (Hn & Hd & Hv & ->).
  destruct (K _ Hn Hd Hv) as (l & -> & F). rewrite (addresses_filter gni l addrs F A (fun sa _ => G sa)).
  assert (E : filter (fun a => negb (eq a none)) addrs = addrs).
  { clear - N. induction addrs as [|a l IH]; [reflexivity|]. cbn [filter]. destruct (eq a none) eqn:E.
    - apply C61_equality in E. destruct N. now left.
    - cbn [negb]. rewrite IH; [reflexivity|]. intros X. apply N. now right. }
  rewrite E. now apply connect_given.
Qed.
(** A name that the system does not know: no connection is tried, the socket is not connected. *)
Theorem C110_unknown gai gni host port ans : (forall service, gai (c_str host) service = None) ->
  exists c, connect gai gni host port ans = Ok (c, []) /\ connected c = false.
Proof. intros H. unfold connect, resolve. rewrite H. eexists. split; reflexivity. Qed.
(** That address is never tried, though the system knows it. *)
Theorem C110_broadcast_refuted gai gni host port ans : ~ In 0 host -> 0 <= port < 2 ^ 16 -> knows gai host port [(255, 255, 255, 255)] ->
  (forall sa, gni sa = true) -> exists c, connect gai gni host port ans = Ok (c, []) /\ connected c = false.
Proof.
  intros H0 Hp K G. unfold connect, resolve. rewrite (c_str_plain host H0). destruct (service_text port ltac:(lia)) as (Hn & Hd & Hv & ->).
  destruct (K _ Hn Hd Hv) as (l & -> & F). rewrite (addresses_filter gni l _ F); [eexists; split; reflexivity| |auto].
  constructor; [|constructor]. unfold is_addr, byte. lia.
Qed.
(** A host with a NUL is cut there: the connection goes to another host. *)
Theorem C110_nul_refuted gai gni host more port ans : ~ In 0 host ->
  connect gai gni (host ++ 0 :: more) port ans = connect gai gni host port ans.
Proof.
  intros H. unfold connect, resolve. rewrite (c_str_plain host H). replace (c_str (host ++ 0 :: more)) with host; [reflexivity|].
  induction host as [|c host IH]; [reflexivity|]. cbn [app c_str]. replace (c =? 0) with false by (symmetry; apply Z.eqb_neq; intros ->; apply H; now left).
  f_equal. apply IH. intros X. apply H. now right.
Qed.
(** The socket of an accepted connection tells the peer's address and port. *)
Theorem C110_accept sa a port : denotes sa a port -> is_addr a -> connected (accepted sa) = true /\ raddr (accepted sa) = a /\ rport (accepted sa) = port.
Proof.
  intros (_ & E & h & l & P & _ & _ & ->) H. unfold accepted. cbn [connected raddr rport]. rewrite (numeric_text sa a E). destruct (to_string_text a H) as [_ ->].
  rewrite P. now repeat split.
Qed.
(** Whatever threads set resolvers and connect: each connect uses the resolver that was set last, or one of the library's if there is
    none - as long as the mutex can be locked. *)
Theorem C110_resolver_partial l : Forall (fun o => match o with Set_ _ ok => ok = true | Take ok ok2 => ok = true /\ ok2 = true end) l ->
  exists s, rrun rstart l = Ok s /\ right None (rlog s) /\
    length (rlog s) = length l.
Proof.
  intros F. assert (B : forallb bit l = true).
  { apply forallb_forall. intros o X. rewrite Forall_forall in F. specialize (F o X). destruct o; cbn; [exact F|destruct F as [-> ->]; reflexivity]. }
  destruct (rrun_right l B rstart I eq_refl) as (s & E & R). exists s. split; [exact E|]. split; [exact R|].
  assert (G : forall l s s', forallb bit l = true -> rrun s l = Ok s' -> length (rlog s') = (length (rlog s) + length l)%nat).
  { clear. induction l as [|o l IH]; intros s s' B E; [injection E as <-; cbn; lia|]. cbn [forallb] in B. apply andb_true_iff in B as [B0 B].
    cbn [rrun] in E. destruct (rstep s o) as [s1| | |] eqn:E1; cbn [obind] in E; try discriminate. rewrite (IH s1 s' B E). cbn [length].
    enough (length (rlog s1) = S (length (rlog s))) by lia. destruct o as [r ok|ok ok2]; cbn [bit] in B0.
    - subst ok. injection E1 as <-. cbn [rlog]. rewrite app_length. cbn. lia.
    - apply andb_true_iff in B0 as [-> ->]. cbn [rstep] in E1. destruct (cur s) as [k|] eqn:C; cbn [cur] in E1.
      + rewrite C in E1. injection E1 as <-. cbn [rlog]. rewrite app_length. cbn. lia.
      + injection E1 as <-. cbn [rlog]. rewrite app_length. cbn. lia. }
  now rewrite (G l rstart s B E).
Qed.
(** If not: setting is silently lost, and connect follows a null pointer. *)
Theorem C110_lock_refuted s : (forall r, rstep s (Set_ r false) = Ok s) /\ (forall ok2, rstep s (Take false ok2) = UB) /\ rstep rstart (Take true false) = UB.
Proof. now repeat split. Qed.

(** a system that knows localhost *)
Definition sys (host service : list Z) : option (list sockaddr) :=
  if list_eq_dec Z.eq_dec host (str "localhost") then Some [mkSa 2 [127; 0; 0; 1] [0; 0]; mkSa 2 [10; 0; 0; 255] [0; 0]] else None.
Example C110_connect_nonvacuous :
  knows sys (str "localhost") 8080 [(127, 0, 0, 1); (10, 0, 0, 255)] /\
  connect sys (fun _ => true) (str "localhost") 8080 [Intr; No; Yes] =
    Ok (mkC true (10, 0, 0, 255) 8080, [(mkSa 2 [127; 0; 0; 1] [31; 144], Intr); (mkSa 2 [127; 0; 0; 1] [31; 144], No); (mkSa 2 [10; 0; 0; 255] [31; 144], Yes)]) /\
  denotes (mkSa 2 [10; 0; 0; 255] [31; 144]) (10, 0, 0, 255) 8080.
Proof.
  split; [|split; [vm_compute; reflexivity|]].
  - intros service _ _ _. eexists. split; [reflexivity|]. repeat constructor.
  - unfold denotes. repeat split. exists 31, 144. unfold byte. repeat split; lia.
Qed.
Example C110_tries_nonvacuous : connect_ips [(1, 2, 3, 4)] 80 [No] = Ok (mkC false (0, 0, 0, 0) 0, [(mkSa 2 [1; 2; 3; 4] [0; 80], No)]).
Proof. vm_compute. reflexivity. Qed.
Example C110_unknown_nonvacuous : (forall service, sys (c_str (str "nowhere")) service = None) /\ inet_addr (str "1.2.03.0x4") = [1; 2; 3; 4] /\ inet_addr (str "127.1") = [127; 0; 0; 1].
Proof. repeat split. Qed.
Example C110_nul_nonvacuous : connect sys (fun _ => true) (str "localhost" ++ [0] ++ str ".example.com") 80 [Yes] =
  Ok (mkC true (127, 0, 0, 1) 80, [(mkSa 2 [127; 0; 0; 1] [0; 80], Yes)]).
Proof. vm_compute. reflexivity. Qed.
Example C110_accept_nonvacuous : accepted (mkSa 2 [192; 168; 0; 7] [1; 0]) = mkC true (192, 168, 0, 7) 256.
Proof. vm_compute. reflexivity. Qed.
Example C110_resolver_nonvacuous : exists s,
  rrun rstart [Take true true; Take true true; Set_ (Some 5%nat) true; Take true true; Set_ None true; Take true true] = Ok s /\
  rlog s = [Took (Default 0); Took (Default 0); SetTo (Some 5%nat); Took (Given 5); SetTo None; Took (Default 1)] /\
  ~ right None [SetTo (Some 5%nat); Took (Default 0)].
Proof. eexists. split; [reflexivity|]. split; [reflexivity|]. cbn. intros [X _]. discriminate X. Qed.

Print Assumptions C110_tries.
Print Assumptions C110_connect_partial.
Print Assumptions C110_unknown.
Print Assumptions C110_broadcast_refuted.
Print Assumptions C110_nul_refuted.
Print Assumptions C110_accept.
Print Assumptions C110_resolver_partial.
Print Assumptions C110_lock_refuted.
