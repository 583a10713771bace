From Verif Require Import Common NumText_Model Ipv4_Spec Ipv4_Model Ipv4_Props Cast_Spec Connect_Spec Connect_Model.
Local Open Scope Z_scope.

(** The text of a byte: one to three digits, no 0 in front *)
Definition shown (w : Z) (t : list Z) : bool :=
  match t with
  | [a] => isdigit a && (a - 48 =? w)
  | [a; b] => isdigit a && isdigit b && negb (a =? 48) && (10 * (a - 48) + (b - 48) =? w)
  | [a; b; c] => isdigit a && isdigit b && isdigit c && negb (a =? 48) && (100 * (a - 48) + 10 * (b - 48) + (c - 48) =? w)
  | _ => false
  end.
Lemma show_shown w : byte w -> shown w (show_int w) = true.
Proof.
  intros H. assert (A : forallb (fun w => shown w (show_int w)) (map Z.of_nat (seq 0 256)) = true) by (vm_compute; reflexivity).
  rewrite forallb_forall in A. apply A, in_map_iff. exists (Z.to_nat w). unfold byte in H. split; [lia|]. apply in_seq. lia.
Qed.
Lemma digit_digit c : isdigit c = true -> digit_of c = c - 48 /\ (digit_of c <? 10) = true.
Proof. unfold isdigit, digit_of. intros H. rewrite H. split; [reflexivity|lia]. Qed.
(** what follows a number: nothing, or a point *)
Definition after (r : list Z) : Prop := match r with [] => True | c :: _ => c = 46 end.
Lemma read_stop b acc r : after r -> b <= 16 -> read b acc r = (acc, r).
Proof. destruct r as [|c r]; [reflexivity|]. cbn [after]. intros -> H. cbn [read]. change (digit_of 46) with 99. now replace (99 <? b) with false by lia. Qed.
Lemma read_digit acc c r : isdigit c = true -> read 10 acc (c :: r) = read 10 (10 * acc + (c - 48)) r.
Proof. intros H. destruct (digit_digit c H) as [E L]. cbn [read]. now rewrite L, E. Qed.
Lemma part_show w r : byte w -> after r -> part (show_int w ++ r) = Some (w, r).
Proof.
  intros H A. pose proof (show_shown w H) as S. destruct (show_int w) as [|a [|b [|c [|d l]]]]; try discriminate S; cbn [shown] in S; cbn [app].
  - apply andb_true_iff in S as [Da E]. unfold part. rewrite Da. destruct (a =? 48) eqn:Z0.
    + replace w with 0 by lia. destruct r as [|x [|h r]].
      * now rewrite read_stop.
      * now rewrite read_stop by (exact A || lia).
      * cbn [after] in A. subst x. cbn [Z.eqb Pos.eqb orb andb]. now rewrite read_stop by (reflexivity || lia).
    + rewrite read_digit, read_stop by (assumption || lia). do 2 f_equal. lia.
  - apply andb_true_iff in S as [S E]. apply andb_true_iff in S as [S N]. apply andb_true_iff in S as [Da Db].
    unfold part. rewrite Da. replace (a =? 48) with false by lia. rewrite !read_digit, read_stop by (assumption || lia). do 2 f_equal. lia.
  - apply andb_true_iff in S as [S E]. apply andb_true_iff in S as [S N]. apply andb_true_iff in S as [S Dc]. apply andb_true_iff in S as [Da Db].
    unfold part. rewrite Da. replace (a =? 48) with false by lia. rewrite !read_digit, read_stop by (assumption || lia). do 2 f_equal. lia.
Qed.
Lemma part_last w : byte w -> part (show_int w) = Some (w, []).
Proof. intros H. rewrite <- (app_nil_r (show_int w)). now apply part_show. Qed.
Lemma part_more w : byte w -> forall r, part (show_int w ++ 46 :: r) = Some (w, 46 :: r).
Proof. intros H r. now apply part_show. Qed.
Lemma show_nonul w : byte w -> ~ In 0 (show_int w).
Proof.
  intros H I. pose proof (show_shown w H) as S. unfold isdigit in S. destruct (show_int w) as [|a [|b [|c [|d l]]]]; try discriminate S; cbn [shown] in S; unfold isdigit in S; cbn [In] in I; lia.
Qed.
Lemma c_str_plain s : ~ In 0 s -> c_str s = s.
Proof.
  induction s as [|c s IH]; [reflexivity|]. intros H. cbn [c_str]. destruct (c =? 0) eqn:E; [exfalso; apply H; left; lia|].
  rewrite IH; [reflexivity|]. intros X. apply H. now right.
Qed.
Definition text (a : addr) : list Z :=
  let '(w, x, y, z) := a in show_int w ++ [46] ++ show_int x ++ [46] ++ show_int y ++ [46] ++ show_int z.
Lemma text_nonul a : is_addr a -> ~ In 0 (text a).
Proof.
  destruct a as [[[w x] y] z]. intros (Hw & Hx & Hy & Hz). unfold text. rewrite !in_app_iff. cbn [In].
  pose proof (show_nonul w Hw). pose proof (show_nonul x Hx). pose proof (show_nonul y Hy). pose proof (show_nonul z Hz). intuition discriminate.
Qed.
Lemma to_string_text a : is_addr a -> to_string a = Ok (text a) /\ parse (text a) = a.
Proof.
  intros H. destruct (C61_round_trip a H) as (t & E & P). assert (t = text a); [|subst t; now split].
  destruct a as [[[w x] y] z]. unfold to_string in E. cbv zeta in E. destruct (_ <=? 16) in E; [|discriminate]. now injection E as <-.
Qed.
Lemma inet_addr_text a : is_addr a -> inet_addr (text a) = bytes_of a.
Proof.
  intros H. unfold inet_addr. rewrite (c_str_plain _ (text_nonul a H)). destruct a as [[[w x] y] z]. destruct H as (Hw & Hx & Hy & Hz).
  unfold text. cbn [app]. cbn [parts]. rewrite (part_more w Hw). cbn [Z.eqb Pos.eqb]. rewrite (part_more x Hx). cbn [Z.eqb Pos.eqb].
  rewrite (part_more y Hy). cbn [Z.eqb Pos.eqb]. rewrite (part_last z Hz). cbn [option_map]. unfold small, byte in *.
  replace ((w <? 256) && (x <? 256) && (y <? 256) && (z <? 256)) with true by lia. reflexivity.
Qed.
Lemma target_ok a port : is_addr a -> 0 <= port < 2 ^ 16 -> exists sa, target a port = Ok sa /\ denotes sa a port.
Proof.
  intros H Hp. unfold target. destruct (to_string_text a H) as [-> _]. cbn [obind]. eexists. split; [reflexivity|].
  unfold denotes. cbn [family ip portb]. rewrite (inet_addr_text a H). split; [reflexivity|]. split; [reflexivity|].
  exists (port / 256), (port mod 256). unfold byte. split; [reflexivity|]. change (2 ^ 16) with 65536 in Hp.
  split; [split; [apply Z.div_pos; lia|apply Z.div_lt_upper_bound; lia]|]. split; [apply Z.mod_pos_bound; lia|]. apply Z.div_mod. lia.
Qed.
Lemma numeric_text sa a : ip sa = bytes_of a -> numeric sa = text a.
Proof. intros E. unfold numeric. rewrite E. now destruct a as [[[w x] y] z]. Qed.

Lemma attempts_visit ips port : Forall is_addr ips -> 0 <= port < 2 ^ 16 -> forall ans,
  attempts ips port ans = Fuel \/ exists r log, attempts ips port ans = Ok (r, log) /\ visit port ips log r /\ map snd log = firstn (length log) ans.
Proof.
  intros F Hp. induction F as [|a ips Ha F IH]; intros ans.
  - right. exists None, []. repeat split. constructor.
  - cbn [attempts]. destruct (target_ok a port Ha Hp) as (sa & -> & D). cbn [obind].
    induction ans as [|x ans IHa]; [now left|]. destruct x.
    + destruct IHa as [E|(r & log & E & V & M)].
      * left. cbn [again]. now rewrite E.
      * right. cbn [again]. rewrite E. cbn [obind]. exists r, ((sa, Intr) :: log). split; [reflexivity|]. split; [now constructor|]. cbn. now f_equal.
    + right. exists (Some a), [(sa, Yes)]. split; [reflexivity|]. split; [now constructor|reflexivity].
    + destruct (IH ans) as [E|(r & log & E & V & M)].
      * left. cbn [again]. now rewrite E.
      * right. cbn [again]. rewrite E. cbn [obind]. exists r, ((sa, No) :: log). split; [reflexivity|]. split; [now constructor|]. cbn. now f_equal.
Qed.
(** Enough answers: one that is no interruption per address *)
Fixpoint finals (ans : list answer) : nat := match ans with [] => 0 | Intr :: l => finals l | Yes :: l | No :: l => S (finals l) end.
Lemma attempts_enough ips port : Forall is_addr ips -> 0 <= port < 2 ^ 16 -> forall ans, (length ips <= finals ans)%nat -> attempts ips port ans <> Fuel.
Proof.
  intros F Hp. induction F as [|a ips Ha F IH]; intros ans L; [discriminate|].
  cbn [attempts]. destruct (target_ok a port Ha Hp) as (sa & -> & D). cbn [obind]. cbn [length] in L.
  induction ans as [|x ans IHa]; [cbn in L; lia|]. destruct x.
  - specialize (IHa L). cbn [again]. destruct (again sa a (attempts ips port) ans) as [[r log]| | |]; cbn [obind]; congruence.
  - discriminate.
  - cbn in L. specialize (IH ans ltac:(lia)). cbn [again]. destruct (attempts ips port ans) as [[r log]| | |]; cbn [obind]; congruence.
Qed.

(** The addresses of the resolver *)
Lemma addresses_filter gni l addrs : Forall2 (fun sa a => ip sa = bytes_of a) l addrs -> Forall is_addr addrs ->
  (forall sa, In sa l -> gni sa = true) -> addresses gni l = filter (fun a => negb (eq a none)) addrs.
Proof.
  intros F A G. induction F as [|sa a l addrs E F IH]; [reflexivity|]. inversion A as [|? ? Ha A']; subst. cbn [addresses filter].
  rewrite (G sa (or_introl eq_refl)). rewrite (numeric_text _ _ E). destruct (to_string_text a Ha) as [_ P]. rewrite P.
  rewrite IH; [reflexivity|exact A'|]. intros x X. apply G. now right.
Qed.
Lemma filter_addr f addrs : Forall is_addr addrs -> Forall is_addr (filter f addrs).
Proof. rewrite !Forall_forall. intros H x X. apply filter_In in X. now apply H. Qed.

(** The resolver *)
Definition bit (o : rop) : bool := match o with Set_ _ ok => ok | Take a b => a && b end.
Lemma right_app l : forall c k, right c (l ++ [k]) <-> right c l /\ right (fold_left (fun c e => match e with SetTo (Some n) => Some (Given n) | SetTo None => None | Took k => Some k end) l c) [k].
Proof.
  induction l as [|e l IH]; intros c k; [cbn; tauto|]. destruct e as [r|k0].
  - cbn [app right fold_left]. rewrite IH. destruct r; tauto.
  - cbn [app right fold_left]. rewrite IH. tauto.
Qed.
Definition state_of := fold_left (fun (c : option rid) e => match e with SetTo (Some n) => Some (Given n) | SetTo None => None | Took k => Some k end).
Lemma rrun_right l : forallb bit l = true -> forall s, right None (rlog s) -> cur s = state_of (rlog s) None ->
  exists s', rrun s l = Ok s' /\ right None (rlog s').
Proof.
  induction l as [|o l IH]; intros B s R C; [now exists s|]. cbn [forallb] in B. apply andb_true_iff in B as [B0 B]. cbn [rrun].
  destruct o as [r ok|ok ok2]; cbn [bit] in B0.
  - subst ok. cbn [rstep obind]. apply IH; [exact B| |].
    + cbn [rlog]. apply right_app. split; [exact R|]. destruct r; exact I.
    + cbn [rlog cur]. unfold state_of. rewrite fold_left_app. cbn. now destruct r.
  - apply andb_true_iff in B0 as [-> ->]. cbn [rstep]. destruct (cur s) as [k|] eqn:E; cbn [cur].
    + rewrite E. cbn [obind]. apply IH; [exact B| |].
      * cbn [rlog]. apply right_app. split; [exact R|]. fold state_of. rewrite <- C. cbn. now split.
      * cbn [rlog cur]. unfold state_of. rewrite fold_left_app. reflexivity.
    + cbn [obind]. apply IH; [exact B| |].
      * cbn [rlog]. apply right_app. split; [exact R|]. fold state_of. rewrite <- C. cbn. split; [now exists (made s)|exact I].
      * cbn [rlog cur]. unfold state_of. rewrite fold_left_app. reflexivity.
Qed.
