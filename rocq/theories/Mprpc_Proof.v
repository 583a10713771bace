From Verif Require Import Common CommonLemmas Mprpc_Spec Mprpc_Model.
Local Open Scope Z_scope.
Ltac Zify.zify_post_hook ::= Z.div_mod_to_equations.

(** * msgpack does its job *)
Definition stable {A} (P : list Z -> parsed A) : Prop :=
  forall l x, (forall a r, P l = Got a r -> P (l ++ x) = Got a (r ++ x)) /\ (P l = Bad -> P (l ++ x) = Bad).
Lemma stable_got {A} (a : A) : stable (fun l => Got a l).
Proof. intros l x. split; [intros b r [= <- <-]; reflexivity|discriminate]. Qed.
Lemma stable_bad {A} : stable (fun _ => @Bad A).
Proof. intros l x. split; [discriminate|reflexivity]. Qed.
Lemma stable_take n : stable (take n).
Proof.
  intros l x. unfold take. destruct (Nat.leb_spec n (length l)) as [H|H]; split; try discriminate. intros a r E. injection E as <- <-.
  rewrite app_length. rewrite (proj2 (Nat.leb_le _ _)) by lia. rewrite firstn_app, skipn_app. replace (n - length l)%nat with 0%nat by lia. cbn [firstn skipn]. now rewrite app_nil_r.
Qed.
Lemma stable_bind {A B} (P : list Z -> parsed A) (f : A -> list Z -> parsed B) : stable P -> (forall a, stable (f a)) -> stable (fun l => bind (P l) f).
Proof.
  intros HP Hf l x. destruct (HP l x) as [H1 H2]. unfold bind. destruct (P l) as [|a r|] eqn:E.
  - split; discriminate.
  - rewrite (H1 a r eq_refl). apply Hf.
  - rewrite (H2 eq_refl). split; [discriminate|reflexivity].
Qed.
Lemma stable_num n : stable (num n).
Proof. apply stable_bind; [apply stable_take|]. intros b. apply stable_got. Qed.
Lemma stable_many P n : stable P -> stable (many P n).
Proof.
  intros HP. induction n as [|n IH]; cbn [many]; [apply stable_got|]. apply stable_bind; [exact HP|]. intros o. apply stable_bind; [exact IH|]. intros os. apply stable_got.
Qed.
Lemma stable_raw n : stable (raw_of n).
Proof. apply stable_bind; [apply stable_take|]. intros s. apply stable_got. Qed.
Lemma stable_cons {A} (P : Z -> list Z -> parsed A) : (forall t, stable (P t)) -> stable (fun l => match l with [] => More | t :: l => P t l end).
Proof. intros H l x. destruct l as [|t l]; [split; discriminate|]. apply H. Qed.
Lemma stable_if {A} (b : bool) (P Q : list Z -> parsed A) : stable P -> stable Q -> stable (fun l => if b then P l else Q l).
Proof. destruct b; auto. Qed.
Lemma stable_parse d : stable (mp_parse d).
Proof.
  induction d as [|d IH].
  - intros l x. destruct l as [|t l]; [split; discriminate|]. cbn [app mp_parse]. revert l x. change (stable (fun l => mp_parse 0 (t :: l))). cbn [mp_parse]. cbv zeta.
    repeat (apply stable_if; [solve [apply stable_got|apply stable_bad|apply stable_raw|apply stable_bind; [apply stable_num|]; intros ?; solve [apply stable_got|apply stable_bad|apply stable_raw]]|]). apply stable_bad.
  - assert (Ha : forall n, stable (fun l => bind (many (mp_parse d) (Z.to_nat n) l) (fun os r => Got (OArr os) r))) by (intros n; apply stable_bind; [apply stable_many, IH|intros os; apply stable_got]).
    assert (Hm : forall n, stable (fun l => bind (many (mp_parse d) (Z.to_nat (2 * n)) l) (fun os r => Got (OMap os) r))) by (intros n; apply stable_bind; [apply stable_many, IH|intros os; apply stable_got]).
    intros l x. destruct l as [|t l]; [split; discriminate|]. cbn [app mp_parse]. revert l x. change (stable (fun l => mp_parse (S d) (t :: l))). cbn [mp_parse]. cbv zeta.
    repeat (apply stable_if; [solve [apply stable_got|apply stable_bad|apply stable_raw|apply Ha|apply Hm|apply stable_bind; [apply stable_num|]; intros ?; solve [apply stable_got|apply stable_bad|apply stable_raw|apply Ha|apply Hm]]|]). apply stable_bad.
Qed.

(** parsing uses up bytes *)
Definition eats {A} (k : nat) (P : list Z -> parsed A) : Prop := forall l a r, P l = Got a r -> (length r + k <= length l)%nat.
Lemma eats_got {A} (a : A) : eats 0 (fun l => Got a l).
Proof. intros l b r [= <- <-]. lia. Qed.
Lemma eats_bad {A} : eats 0 (fun _ => @Bad A).
Proof. intros l b r [=]. Qed.
Lemma eats_take n : eats 0 (take n).
Proof. intros l a r. unfold take. destruct (Nat.leb n (length l)); [|discriminate]. intros [= <- <-]. rewrite skipn_length. lia. Qed.
Lemma eats_bind {A B} (P : list Z -> parsed A) (f : A -> list Z -> parsed B) : eats 0 P -> (forall a, eats 0 (f a)) -> eats 0 (fun l => bind (P l) f).
Proof. intros HP Hf l b r. unfold bind. destruct (P l) as [|a r'|] eqn:E; try discriminate. intros F. apply HP in E. apply Hf in F. lia. Qed.
Lemma eats_num n : eats 0 (num n).
Proof. apply eats_bind; [apply eats_take|]. intros b. apply eats_got. Qed.
Lemma eats_raw n : eats 0 (raw_of n).
Proof. apply eats_bind; [apply eats_take|]. intros b. apply eats_got. Qed.
Lemma eats_many P n : eats 0 P -> eats 0 (many P n).
Proof. intros HP. induction n as [|n IH]; cbn [many]; [apply eats_got|]. apply eats_bind; [exact HP|]. intros o. apply eats_bind; [exact IH|]. intros os. apply eats_got. Qed.
Lemma eats_if {A} (b : bool) (P Q : list Z -> parsed A) : eats 0 P -> eats 0 Q -> eats 0 (fun l => if b then P l else Q l).
Proof. destruct b; auto. Qed.
Lemma eats_parse d : eats 1 (mp_parse d).
Proof.
  induction d as [|d IH].
  - intros l a r. destruct l as [|t l]; [discriminate|]. cbn [length]. enough (H : eats 0 (fun l => mp_parse 0 (t :: l))) by (intros E; apply (H l) in E; lia). cbn [mp_parse]. cbv zeta.
    repeat (apply eats_if; [solve [apply eats_got|apply eats_bad|apply eats_raw|apply eats_bind; [apply eats_num|]; intros ?; solve [apply eats_got|apply eats_bad|apply eats_raw]]|]). apply eats_bad.
  - assert (I0 : eats 0 (mp_parse d)) by (intros l a r E; apply IH in E; lia).
    assert (Ha : forall n, eats 0 (fun l => bind (many (mp_parse d) (Z.to_nat n) l) (fun os r => Got (OArr os) r))) by (intros n; apply eats_bind; [apply eats_many, I0|intros os; apply eats_got]).
    assert (Hm : forall n, eats 0 (fun l => bind (many (mp_parse d) (Z.to_nat (2 * n)) l) (fun os r => Got (OMap os) r))) by (intros n; apply eats_bind; [apply eats_many, I0|intros os; apply eats_got]).
    intros l a r. destruct l as [|t l]; [discriminate|]. cbn [length]. enough (H : eats 0 (fun l => mp_parse (S d) (t :: l))) by (intros E; apply (H l) in E; lia). cbn [mp_parse]. cbv zeta.
    repeat (apply eats_if; [solve [apply eats_got|apply eats_bad|apply eats_raw|apply Ha|apply Hm|apply eats_bind; [apply eats_num|]; intros ?; solve [apply eats_got|apply eats_bad|apply eats_raw|apply Ha|apply Hm]]|]). apply eats_bad.
Qed.

(** what was packed is parsed *)
Lemma be_len n : forall z, length (be n z) = n.
Proof. induction n as [|n IH]; intros z; cbn [be]; [reflexivity|]. rewrite app_length, IH. cbn; lia. Qed.
Lemma unbe_app a : forall acc b, unbe acc (a ++ b) = unbe (unbe acc a) b.
Proof. induction a as [|x a IH]; intros acc b; cbn [unbe app]; [reflexivity|]. apply IH. Qed.
Lemma unbe_be n : forall z acc, 0 <= z < 256 ^ Z.of_nat n -> unbe acc (be n z) = acc * 256 ^ Z.of_nat n + z.
Proof.
  induction n as [|n IH]; intros z acc H; cbn [be]; [cbn in *; lia|]. rewrite Nat2Z.inj_succ, Z.pow_succ_r in * by lia.
  rewrite unbe_app, IH by lia. cbn [unbe]. assert (HD := Z.div_mod z 256). set (q := z / 256) in *. set (m := z mod 256) in *. set (W := 256 ^ Z.of_nat n) in *. replace z with (256 * q + m) by lia. ring.
Qed.
Lemma take_app n a l : length a = n -> take n (a ++ l) = Got a l.
Proof.
  intros <-. unfold take. rewrite app_length. rewrite (proj2 (Nat.leb_le _ _)) by lia. rewrite firstn_app, skipn_app, firstn_all, skipn_all, Nat.sub_diag. cbn [firstn skipn]. now rewrite app_nil_r.
Qed.
Lemma num_be n z l : 0 <= z < 256 ^ Z.of_nat n -> num n (be n z ++ l) = Got z l.
Proof. intros H. unfold num. rewrite take_app by apply be_len. cbn [bind]. rewrite unbe_be by exact H. reflexivity. Qed.
Fixpoint obj_ind' (P : obj -> Prop) (h1 : P ONil) (h2 : forall b, P (OBool b)) (h3 : forall z, P (OInt z)) (h4 : forall b, P (OFloat b)) (h5 : forall b, P (ODouble b))
  (h6 : forall s, P (ORaw s)) (h7 : forall l, Forall P l -> P (OArr l)) (h8 : forall l, Forall P l -> P (OMap l)) (o : obj) : P o :=
  let fix all (l : list obj) : Forall P l := match l with [] => Forall_nil _ | o :: l => Forall_cons _ (obj_ind' P h1 h2 h3 h4 h5 h6 h7 h8 o) (all l) end in
  match o with
  | ONil => h1 | OBool b => h2 b | OInt z => h3 z | OFloat b => h4 b | ODouble b => h5 b | ORaw s => h6 s | OArr l => h7 l (all l) | OMap l => h8 l (all l)
  end.
Lemma many_app P l : forall rest, Forall (fun o => forall rest, P (mp_pack o ++ rest) = Got o rest) l -> many P (length l) (concat (map mp_pack l) ++ rest) = Got l rest.
Proof.
  induction l as [|o l IH]; intros rest H; cbn [many length map concat]; [reflexivity|]. inversion H as [|? ? H1 H2]; subst. rewrite <- app_assoc, H1. cbn [bind]. rewrite IH by assumption. reflexivity.
Qed.
Ltac no b := rewrite (proj2 (Z.ltb_ge _ _) : b) by lia.
Ltac dec := repeat match goal with
  | |- context[?a <? ?b] => first [rewrite (proj2 (Z.ltb_lt a b)) by lia | rewrite (proj2 (Z.ltb_ge a b)) by lia]
  | |- context[?a <=? ?b] => first [rewrite (proj2 (Z.leb_le a b)) by lia | rewrite (proj2 (Z.leb_gt a b)) by lia]
  | |- context[?a =? ?b] => first [rewrite (proj2 (Z.eqb_eq a b)) by lia | rewrite (proj2 (Z.eqb_neq a b)) by lia]
  end.
Lemma parse_pack o : forall d rest, mp_good d o -> mp_parse d (mp_pack o ++ rest) = Got o rest.
Proof.
  induction o using obj_ind'; intros d rest HG.
  - destruct d; reflexivity.
  - destruct d, b; reflexivity.
  - assert (HG' : - 2 ^ 63 <= z < 2 ^ 64) by (destruct d; exact HG). clear HG. cbn [mp_pack]. destruct (Z.ltb_spec z 0).
    + destruct (Z.leb_spec (-32) z).
      { cbn [app]. destruct d; cbn [mp_parse]; cbv zeta; dec; f_equal; f_equal; lia. }
      destruct (Z.leb_spec (- 2 ^ 7) z).
      { cbn [app]. destruct d; cbn [mp_parse]; cbv zeta; dec; rewrite num_be by (cbn; lia); cbn [bind]; f_equal; f_equal; unfold signed; cbn; destruct (Z.ltb_spec (z mod 256) 128); lia. }
      destruct (Z.leb_spec (- 2 ^ 15) z).
      { cbn [app]. destruct d; cbn [mp_parse]; cbv zeta; dec; rewrite num_be by (cbn; lia); cbn [bind]; f_equal; f_equal; unfold signed; cbn; destruct (Z.ltb_spec (z mod 65536) 32768); lia. }
      destruct (Z.leb_spec (- 2 ^ 31) z).
      { cbn [app]. destruct d; cbn [mp_parse]; cbv zeta; dec; rewrite num_be by (cbn; lia); cbn [bind]; f_equal; f_equal; unfold signed; cbn; destruct (Z.ltb_spec (z mod 4294967296) 2147483648); lia. }
      cbn [app]. destruct d; cbn [mp_parse]; cbv zeta; dec; rewrite num_be by (cbn; lia); cbn [bind]; f_equal; f_equal; unfold signed; cbn; destruct (Z.ltb_spec (z mod 18446744073709551616) 9223372036854775808); lia.
    + destruct (Z.ltb_spec z (2 ^ 7)). { cbn [app]. destruct d; cbn [mp_parse]; cbv zeta; dec; reflexivity. }
      destruct (Z.ltb_spec z (2 ^ 8)). { cbn [app]. destruct d; cbn [mp_parse]; cbv zeta; dec; rewrite num_be by (cbn; lia); reflexivity. }
      destruct (Z.ltb_spec z (2 ^ 16)). { cbn [app]. destruct d; cbn [mp_parse]; cbv zeta; dec; rewrite num_be by (cbn; lia); reflexivity. }
      destruct (Z.ltb_spec z (2 ^ 32)). { cbn [app]. destruct d; cbn [mp_parse]; cbv zeta; dec; rewrite num_be by (cbn; lia); reflexivity. }
      cbn [app]. destruct d; cbn [mp_parse]; cbv zeta; dec; rewrite num_be by (cbn; lia); reflexivity.
  - assert (HG' : 0 <= b < 2 ^ 32) by (destruct d; exact HG). cbn [mp_pack app] in *. destruct d; cbn [mp_parse]; cbv zeta; dec; rewrite num_be by (cbn; lia); reflexivity.
  - assert (HG' : 0 <= b < 2 ^ 64) by (destruct d; exact HG). cbn [mp_pack app] in *. destruct d; cbn [mp_parse]; cbv zeta; dec; rewrite num_be by (cbn; lia); reflexivity.
  - assert (HG' : Z.of_nat (length s) < 2 ^ 32) by (destruct d; exact HG). cbn [mp_pack]. rewrite <- app_assoc. unfold head. set (n := Z.of_nat (length s)) in *.
    assert (HR : forall l, raw_of n (s ++ l) = Got (ORaw s) l) by (intros l; unfold raw_of, n; rewrite Nat2Z.id, take_app by reflexivity; reflexivity).
    destruct (Z.ltb_spec n 32); [|destruct (Z.ltb_spec n (2 ^ 16))]; cbn [app]; destruct d; cbn [mp_parse]; cbv zeta; dec;
      try (replace (160 + n - 160) with n by lia; apply HR); rewrite num_be by (cbn; lia); cbn [bind]; apply HR.
  - destruct d as [|d]; [destruct HG as [_ []]|]. cbn [mp_good mp_pack] in *. rewrite <- app_assoc. unfold head. destruct HG as [HL HG]. set (n := Z.of_nat (length l)) in *.
    assert (HR : forall r, bind (many (mp_parse d) (Z.to_nat n) (concat (map mp_pack l) ++ r)) (fun os r => Got (OArr os) r) = Got (OArr l) r).
    { intros r. unfold n. rewrite Nat2Z.id, many_app; [reflexivity|]. clear HL n. induction H as [|o l Ho Hl IH]; constructor; destruct HG as [G1 G2]; [intros rest'; now apply Ho|now apply IH]. }
    destruct (Z.ltb_spec n 16); [|destruct (Z.ltb_spec n (2 ^ 16))]; cbn [app]; cbn [mp_parse]; cbv zeta; dec;
      try (replace (144 + n - 144) with n by lia; apply HR); rewrite num_be by (cbn; lia); cbn [bind]; apply HR.
  - destruct d as [|d]; [destruct HG as [_ []]|]. cbn [mp_good mp_pack] in *. rewrite <- app_assoc. unfold head. destruct HG as [[k [HL HK]] HG]. set (n := Z.of_nat (length l) / 2) in *.
    assert (Hn : Z.to_nat (2 * n) = length l) by (unfold n; lia).
    assert (HR : forall r, bind (many (mp_parse d) (Z.to_nat (2 * n)) (concat (map mp_pack l) ++ r)) (fun os r => Got (OMap os) r) = Got (OMap l) r).
    { intros r. rewrite Hn, many_app; [reflexivity|]. clear HL HK Hn n k. induction H as [|o l Ho Hl IH]; constructor; destruct HG as [G1 G2]; [intros rest'; now apply Ho|now apply IH]. }
    destruct (Z.ltb_spec n 16); [|destruct (Z.ltb_spec n (2 ^ 16))]; cbn [app]; cbn [mp_parse]; cbv zeta; dec;
      try (replace (128 + n - 128) with n by lia; apply HR); rewrite num_be by (cbn; lia); cbn [bind]; apply HR.
Qed.
Lemma msgpack_ok d : codec_ok (msgpack d).
Proof.
  split; cbn [good pack parse msgpack].
  - intros o rest H. now apply parse_pack.
  - intros o p q H E Hq. destruct (stable_parse d p q) as [S1 S2]. assert (HP := parse_pack o d [] H). rewrite app_nil_r, E in HP. destruct (mp_parse d p) as [|a r|] eqn:F; [reflexivity| |].
    + rewrite (S1 a r eq_refl) in HP. injection HP as _ HP. destruct r, q; try discriminate. contradiction.
    + rewrite (S2 eq_refl) in HP. discriminate.
  - intros l o rest E. apply eats_parse in E. lia.
Qed.

(** * Writing *)
Lemma write_loop_prefix size : forall evs p, let '(s, r, _) := write_loop size p evs in exists q, p = s ++ q /\ (forall v, r = WDone v -> q = [] /\ v = int_of size).
Proof.
  induction evs as [|e evs IH]; intros p.
  - destruct p as [|x p]; cbn [write_loop]; [exists []; split; [reflexivity|intros v [= <-]; auto]|]. exists (x :: p). split; [reflexivity|discriminate].
  - destruct p as [|x p]; cbn [write_loop]. { exists []. split; [reflexivity|intros v [= <-]; auto]. }
    destruct e as [n|[] []].
    + destruct (n <=? 0); [exists (x :: p); split; [reflexivity|discriminate]|]. specialize (IH (skipn (Z.to_nat n) (x :: p))). destruct (write_loop size (skipn (Z.to_nat n) (x :: p)) evs) as [[s r] evs'].
      destruct IH as [q [H1 H2]]. exists q. split; [|exact H2]. rewrite <- app_assoc, <- H1. now rewrite firstn_skipn.
    + apply IH.
    + apply IH.
    + exists (x :: p). split; [reflexivity|discriminate].
    + apply IH.
    + exists (x :: p). split; [reflexivity|discriminate].
    + exists (x :: p). split; [reflexivity|discriminate].
Qed.
Lemma taken_nonneg evs : Forall benign_w evs -> 0 <= taken evs.
Proof. induction 1 as [|e evs H _ IH]; cbn; [lia|]. destruct e; cbn in H; fold (taken evs); lia. Qed.
Lemma write_loop_all size : forall evs p, Forall benign_w evs -> exists s evs', write_loop size p evs = (s, WDone (int_of size), evs') /\ s = p \/ write_loop size p evs = (s, WBlocked, []) /\ taken evs < Z.of_nat (length p).
Proof.
  induction evs as [|e evs IH]; intros p H.
  - destruct p as [|x p]; cbn [write_loop]. { exists [], []. auto. } exists [], []. right. split; [reflexivity|]. cbn [taken fold_right length]. lia.
  - destruct p as [|x p]; cbn [write_loop]. { exists [], (e :: evs). auto. }
    inversion H as [|? ? He H']; subst. destruct e as [n|[] late]; cbn [benign_w] in He.
    + rewrite (proj2 (Z.leb_gt _ _)) by lia. destruct (IH (skipn (Z.to_nat n) (x :: p)) H') as [s [evs' [[E ->]|[E Hl]]]].
      * rewrite E. exists (x :: p), evs'. left. now rewrite firstn_skipn.
      * rewrite E. exists (firstn (Z.to_nat n) (x :: p) ++ s), []. right. split; [reflexivity|]. rewrite skipn_length in Hl. cbn [taken fold_right]. fold (taken evs). assert (HT := taken_nonneg evs H'). lia.
    + apply IH; assumption.
    + subst late. apply IH; assumption.
    + destruct He.
Qed.

(** * Reading *)
Lemma prefix_cases {A} : forall (a b x y : list A), a ++ x = b ++ y -> (exists k, a = b ++ k /\ y = k ++ x) \/ (exists k, b = a ++ k /\ k <> [] /\ x = k ++ y).
Proof.
  induction a as [|h a IH]; intros [|h' b] x y H; cbn [app] in *.
  - left. exists []. auto.
  - right. exists (h' :: b). split; [reflexivity|]. split; [discriminate|exact H].
  - left. exists (h :: a). split; [reflexivity|]. cbn. now symmetry.
  - injection H as <- H. destruct (IH b x y H) as [[k [-> E]]|[k [-> [Hk E]]]]; [left; exists k; auto|right; exists k; auto].
Qed.
Lemma read_benign c : codec_ok c -> forall evs buf o rest, Forall benign_r evs -> good c o -> buf ++ incoming evs = pack c o ++ rest ->
  exists buf' evs', os_read c evs buf = (RObj o, buf', evs') /\ Forall benign_r evs' /\ buf' ++ incoming evs' = rest.
Proof.
  intros HC. induction evs as [|e evs IH]; intros buf o rest H HG E.
  - cbn in E. rewrite app_nil_r in E. cbn [os_read]. rewrite E, (whole c HC) by assumption. exists rest, []. split; [reflexivity|]. split; [constructor|]. cbn. apply app_nil_r.
  - destruct (prefix_cases _ _ _ _ E) as [[k [E1 E2]]|[k [E1 [Hk E2]]]].
    + cbn [os_read]. rewrite E1, (whole c HC) by assumption. exists k, (e :: evs). split; [reflexivity|]. split; [assumption|]. now symmetry.
    + cbn [os_read]. rewrite (part c HC o buf k HG E1 Hk). inversion H as [|? ? He H']; subst. destruct e as [b|[] late]; cbn [benign_r] in He.
      * destruct b as [|x b]; [contradiction|]. apply IH; [assumption|assumption|]. cbn [incoming map concat] in E. fold (incoming evs) in E. now rewrite <- app_assoc.
      * apply IH; [assumption..|]. exact E.
      * subst late. apply IH; [assumption..|]. exact E.
      * destruct He.
Qed.
Lemma read_shrinks c : codec_ok c -> forall evs buf o buf' evs', os_read c evs buf = (RObj o, buf', evs') -> (length buf' + length (incoming evs') < length buf + length (incoming evs))%nat.
Proof.
  intros HC. induction evs as [|e evs IH]; intros buf o buf' evs' E; cbn [os_read] in E.
  - destruct (parse c buf) as [|a r|] eqn:F; try discriminate. injection E as <- <- <-. apply (shorter c HC) in F. lia.
  - destruct (parse c buf) as [|a r|] eqn:F; try discriminate.
    + cbn [incoming map concat]. fold (incoming evs). destruct e as [[|x b]|[] []]; try discriminate; apply IH in E; cbn [app length] in *; rewrite ?app_length in *; cbn [length] in *; lia.
    + injection E as <- <- <-. apply (shorter c HC) in F. lia.
Qed.
Lemma join_no_fuel c : codec_ok c -> forall fuel id evs buf, (length buf + length (incoming evs) < fuel)%nat -> fst (fst (join fuel c id evs buf)) <> JFuel.
Proof.
  intros HC. induction fuel as [|fuel IH]; intros id evs buf H; [lia|]. cbn [join]. destruct (os_read c evs buf) as [[[] buf'] evs'] eqn:E; try discriminate.
  assert (HS := read_shrinks c HC _ _ _ _ _ E). destruct (to_msg o) as [[[[k i] x] y]|]; [|discriminate]. destruct (negb (k =? 1)); [apply IH; lia|]. destruct (negb (i =? id)); [apply IH; lia|]. discriminate.
Qed.
Lemma join_id c fuel id : forall evs buf i e r buf' evs', join fuel c id evs buf = (JGot i e r, buf', evs') -> i = id.
Proof.
  induction fuel as [|fuel IH]; intros evs buf i e r buf' evs'; cbn [join]; [discriminate|]. destruct (os_read c evs buf) as [[[] b] ev]; try discriminate.
  destruct (to_msg o) as [[[[k j] x] y]|]; [|discriminate]. destruct (negb (k =? 1)); [apply IH|]. destruct (Z.eqb_spec j id); cbn [negb]; [|apply IH]. intros E. injection E as -> _ _ _ _. assumption.
Qed.
Lemma to_msg_message k i a b : 0 <= k < 256 -> 0 <= i < 2 ^ 32 -> to_msg (message k i a b) = Some (k, i, a, b).
Proof. intros H1 H2. unfold to_msg, message, as_uint. change (2 ^ 8) with 256. rewrite (proj2 (Z.leb_le 0 k)), (proj2 (Z.ltb_lt k 256)), (proj2 (Z.leb_le 0 i)), (proj2 (Z.ltb_lt i _)) by lia. reflexivity. Qed.
Lemma pack_pos c o : codec_ok c -> good c o -> (0 < length (pack c o))%nat.
Proof. intros HC H. assert (E := whole c HC o [] H). apply (shorter c HC) in E. rewrite app_nil_r in E. cbn in E. lia. Qed.
Lemma wire_len c os : codec_ok c -> Forall (good c) os -> (length os <= length (wire c os))%nat.
Proof. intros HC. unfold wire. induction 1 as [|o os H _ IH]; cbn [map concat length]; [lia|]. rewrite app_length. assert (HP := pack_pos c o HC H). lia. Qed.
Lemma join_find c : codec_ok c -> forall noise fuel id e r rest evs buf, Forall (good c) noise -> Forall (other id) noise -> good c (response id e r) -> 0 <= id < 2 ^ 32 -> Forall benign_r evs ->
  (length noise < fuel)%nat -> buf ++ incoming evs = wire c (noise ++ response id e r :: rest) ->
  exists buf' evs', join fuel c id evs buf = (JGot id e r, buf', evs') /\ Forall benign_r evs' /\ buf' ++ incoming evs' = wire c rest.
Proof.
  intros HC. induction noise as [|o noise IH]; intros fuel id e r rest evs buf Hg Ho Hr Hi Hb Hf E; (destruct fuel as [|fuel]; [lia|]); cbn [app] in E; unfold wire in E; cbn [map concat] in E; cbn [join].
  - destruct (read_benign c HC evs buf _ _ Hb Hr E) as [buf' [evs' [-> [H1 H2]]]]. change (response id e r) with (message 1 id e r). rewrite to_msg_message by lia. cbn [Z.eqb negb Pos.eqb]. rewrite Z.eqb_refl. cbn [negb].
    exists buf', evs'. auto.
  - inversion Hg as [|? ? G1 G2]; subst. inversion Ho as [|? ? O1 O2]; subst. destruct (read_benign c HC evs buf _ _ Hb G1 E) as [buf' [evs' [-> [H1 H2]]]].
    destruct O1 as [k [i [a [b [-> [K1 [K2 K3]]]]]]]. rewrite to_msg_message by assumption. cbn [length] in Hf.
    destruct (IH fuel id e r rest evs' buf' G2 O2 Hr Hi H1 ltac:(lia) H2) as [b2 [e2 [F1 F2]]].
    destruct (Z.eqb_spec k 1); cbn [negb]; [|exists b2, e2; auto]. destruct (Z.eqb_spec i id); cbn [negb]; [lia|]. exists b2, e2; auto.
Qed.
Lemma join_find_ c noise id e r rest evs buf : codec_ok c -> Forall (good c) noise -> Forall (other id) noise -> good c (response id e r) -> 0 <= id < 2 ^ 32 -> Forall benign_r evs ->
  buf ++ incoming evs = wire c (noise ++ response id e r :: rest) ->
  exists buf' evs', join_ c id evs buf = (JGot id e r, buf', evs') /\ Forall benign_r evs' /\ buf' ++ incoming evs' = wire c rest.
Proof.
  intros HC Hg Ho Hr Hi Hb E. apply join_find with (noise := noise); try assumption. assert (HL := wire_len c noise HC Hg). apply (f_equal (@length Z)) in E. rewrite app_length in E. unfold wire in E at 1. rewrite map_app, concat_app, app_length in E.
  fold (wire c noise) in E. lia.
Qed.
(** with nothing left to read it waits *)
Lemma incoming_nil evs : Forall benign_r evs -> incoming evs = [] -> Forall (fun e => match e with RData _ => False | _ => True end) evs.
Proof.
  induction 1 as [|e evs H _ IH]; intros E; constructor; unfold incoming in *; cbn [map concat] in E; apply app_eq_nil in E as [E1 E2]; [|now apply IH]. destruct e; [|exact I]. cbn in H. contradiction.
Qed.
Lemma read_waits c : parse c [] = More -> forall evs, Forall benign_r evs -> incoming evs = [] -> os_read c evs [] = (RBlocked, [], []).
Proof.
  intros HP evs Hb Hi. assert (HI := incoming_nil evs Hb Hi). clear Hi. induction evs as [|e evs IH]; cbn [os_read]; rewrite HP; [reflexivity|]. inversion Hb as [|? ? B1 B2]; inversion HI as [|? ? I1 I2]; subst.
  destruct e as [b|[] late]; cbn [benign_r] in *; [destruct I1|auto|subst; auto|destruct B1].
Qed.
Lemma parse_nil c o : codec_ok c -> good c o -> parse c [] = More.
Proof. intros HC H. apply (part c HC o [] (pack c o) H eq_refl). assert (HP := pack_pos c o HC H). intros E. rewrite E in HP. cbn in HP. lia. Qed.
Lemma join_waits c id evs buf o : codec_ok c -> good c o -> Forall benign_r evs -> buf ++ incoming evs = [] -> join_ c id evs buf = (JBlocked, [], []).
Proof. intros HC H Hb E. apply app_eq_nil in E as [-> E]. unfold join_. cbn [join]. rewrite (read_waits c (parse_nil c o HC H) evs Hb E). reflexivity. Qed.

(** replies joined in the order in which they come *)
Fixpoint joins (c : codec) (ids : list Z) (evs : list rev) (buf : list Z) : option (list (obj * obj)) :=
  match ids with
  | [] => Some []
  | id :: ids => match join_ c id evs buf with (JGot _ e r, buf, evs) => option_map (cons (e, r)) (joins c ids evs buf) | _ => None end
  end.
(** * Serving *)
Lemma convert_all ts : forall l, length l = length ts -> Forall (fun p => fst p (snd p) = true) (combine ts l) -> convert ts l = Args l.
Proof.
  induction ts as [|t ts IH]; intros [|o l] HL H; try discriminate; cbn [convert]; [reflexivity|]. cbn [combine] in H. inversion H as [|? ? H1 H2]; subst. cbn [fst snd] in H1. rewrite H1. rewrite IH; [reflexivity|cbn in HL; lia|assumption].
Qed.

Lemma joins_in_order c : codec_ok c -> forall (rs : list (list obj * (Z * obj * obj))) rest evs buf,
  Forall (fun x => let '(noise, (id, e, r)) := x in Forall (good c) noise /\ Forall (other id) noise /\ good c (response id e r) /\ 0 <= id < 2 ^ 32) rs -> Forall benign_r evs ->
  buf ++ incoming evs = wire c (concat (map (fun x => let '(noise, (id, e, r)) := x in noise ++ [response id e r]) rs) ++ rest) ->
  joins c (map (fun x => fst (fst (snd x))) rs) evs buf = Some (map (fun x => (snd (fst (snd x)), snd (snd x))) rs).
Proof.
  intros HC. induction rs as [|[noise [[id e] r]] rs IH]; intros rest evs buf H Hb E; cbn [map joins fst snd]; [reflexivity|]. inversion H as [|? ? H0 H']; subst. destruct H0 as [H1 [H2 [H3 H4]]].
  cbn [map concat] in E. rewrite <- !app_assoc in E. cbn [app] in E. destruct (join_find_ c noise id e r _ evs buf HC H1 H2 H3 H4 Hb E) as [buf' [evs' [-> [F1 F2]]]].
  rewrite (IH rest evs' buf' H' F1 F2). reflexivity.
Qed.
Lemma os_write_all data w : delivers (Z.of_nat (length data)) w -> exists w', os_write data w = (data, WDone (int_of (Z.of_nat (length data))), w').
Proof.
  intros [H1 H2]. unfold os_write. destruct (write_loop_all (Z.of_nat (length data)) w data H1) as [s [w' [[E ->]|[E F]]]]; [exists w'; exact E|lia].
Qed.
Lemma int_of_pos z : 0 < z < 2 ^ 31 -> 0 <? int_of z = true.
Proof. intros H. apply Z.ltb_lt. unfold int_of. rewrite Z.mod_small; lia. Qed.
Lemma call_served c funcs t id name l w1 cut1 w2 cut2 : codec_ok c -> 0 <= id < 2 ^ 32 -> good c (request id name l) -> Z.of_nat (length (pack c (request id name l))) < 2 ^ 31 ->
  delivers (Z.of_nat (length (pack c (request id name l)))) w1 -> pieces cut1 ->
  call c funcs t id name l w1 cut1 w2 cut2 =
  match serve1 funcs (request id name l) with
  | SReply o => let '(sent, _, _) := os_write (pack c o) w2 in match join_ c id (cut2 sent) [] with (JGot _ e r, _, _) => Returns (interpret t e r) | (JBlocked, _, _) => Hangs | _ => IoError end
  | SSilent => Hangs | SClose => IoError | SDie => ServerDies | SShort => RunsShort
  end.
Proof.
  intros HC Hi Hg Hs Hw Hc. unfold call. destruct (os_write_all _ _ Hw) as [w' ->]. assert (HP := pack_pos c _ HC Hg). rewrite int_of_pos by lia.
  destruct (Hc (pack c (request id name l))) as [C1 C2].
  destruct (read_benign c HC (cut1 (pack c (request id name l))) [] (request id name l) [] C1 Hg) as [b [e [-> _]]]; [cbn [app]; rewrite C2; now rewrite app_nil_r|]. reflexivity.
Qed.
Lemma reply_arrives c id e r w cut : codec_ok c -> 0 <= id < 2 ^ 32 -> good c (response id e r) -> delivers (Z.of_nat (length (pack c (response id e r)))) w -> pieces cut ->
  exists w', os_write (pack c (response id e r)) w = (pack c (response id e r), WDone (int_of (Z.of_nat (length (pack c (response id e r))))), w') /\
  exists b ev, join_ c id (cut (pack c (response id e r))) [] = (JGot id e r, b, ev).
Proof.
  intros HC Hi Hg Hw Hc. destruct (os_write_all _ _ Hw) as [w' E]. exists w'. split; [exact E|]. destruct (Hc (pack c (response id e r))) as [C1 C2].
  destruct (join_find_ c [] id e r [] (cut (pack c (response id e r))) [] HC) as [b [ev [F _]]]; try assumption; try constructor.
  - cbn [app]. rewrite C2. unfold wire. cbn [map concat]. now rewrite app_nil_r.
  - eauto.
Qed.
Lemma serve_request funcs id name l : 0 <= id < 2 ^ 32 -> serve1 funcs (request id name l) =
  match find funcs name with
  | None => SReply (response id (OInt 1) (ORaw name))
  | Some v => match convert (types v) l with
              | Args l => match fn v l with FVal r => SReply (response id ONil r) | FExn w => SReply (response id (ORaw w) ONil) | FRpcError => SSilent | FThrow => SDie end
              | Mismatch => SReply (response id (OInt 2) ONil)
              | Short => SShort
              end
  end.
Proof. intros H. unfold serve1, request. change (OArr [OInt 0; OInt id; ORaw name; OArr l]) with (message 0 id (ORaw name) (OArr l)). rewrite to_msg_message by lia. reflexivity. Qed.

Lemma find_bound funcs name v : bound funcs name v -> find funcs name = Some v.
Proof.
  intros (pre & post & -> & N). unfold find. induction pre as [|[k w] pre IH]; cbn [app List.find fst].
  - destruct (list_eq_dec Z.eq_dec name name); [reflexivity|congruence].
  - cbn [map fst In] in N. destruct (list_eq_dec Z.eq_dec k name); [tauto|]. apply IH. tauto.
Qed.
Lemma find_unbound funcs name : unbound funcs name -> find funcs name = None.
Proof.
  unfold unbound, find. induction funcs as [|[k w] funcs IH]; intros N; [reflexivity|]. cbn [List.find fst map In] in *.
  destruct (list_eq_dec Z.eq_dec k name); [tauto|]. apply IH. tauto.
Qed.
Lemma convert_mistyped ts l : mistyped ts l -> convert ts l = Mismatch.
Proof.
  intros (ts1 & t & ts2 & l1 & o & l2 & -> & -> & E & H & F). revert l1 E H. induction ts1 as [|t1 ts1 IH]; intros [|o1 l1] E H; cbn [length] in E; try discriminate; cbn [app convert].
  - now rewrite F.
  - cbn [combine] in H. inversion H as [|? ? H1 H2]; subst. cbn [fst snd] in H1. rewrite H1, IH by (assumption || lia). reflexivity.
Qed.
Lemma to_msg_range k i a b : ~ (0 <= k < 256 /\ 0 <= i < 2 ^ 32) -> to_msg (message k i a b) = None.
Proof.
  intros H. unfold to_msg, message, as_uint. change (2 ^ 8) with 256.
  destruct (Z.leb_spec 0 k), (Z.ltb_spec k 256), (Z.leb_spec 0 i), (Z.ltb_spec i (2 ^ 32)); cbn [andb]; try reflexivity. exfalso. apply H. lia.
Qed.
Lemma join_range c : codec_ok c -> forall noise fuel id k i a b rest evs buf, Forall (good c) noise -> Forall (other id) noise -> good c (message k i a b) ->
  ~ (0 <= k < 256 /\ 0 <= i < 2 ^ 32) -> Forall benign_r evs -> (length noise < fuel)%nat -> buf ++ incoming evs = wire c (noise ++ message k i a b :: rest) ->
  exists buf' evs', join fuel c id evs buf = (JFalse, buf', evs') /\ buf' ++ incoming evs' = wire c rest.
Proof.
  intros HC. induction noise as [|o noise IH]; intros fuel id k i a b rest evs buf Hg Ho Hr Hn Hb Hf E; (destruct fuel as [|fuel]; [lia|]); cbn [app] in E; unfold wire in E; cbn [map concat] in E; cbn [join].
  - destruct (read_benign c HC evs buf _ _ Hb Hr E) as [buf' [evs' [-> [H1 H2]]]]. rewrite to_msg_range by assumption. exists buf', evs'. auto.
  - inversion Hg as [|? ? G1 G2]; subst. inversion Ho as [|? ? O1 O2]; subst. destruct (read_benign c HC evs buf _ _ Hb G1 E) as [buf' [evs' [-> [H1 H2]]]].
    destruct O1 as [k' [i' [a' [b' [-> [K1 [K2 K3]]]]]]]. rewrite to_msg_message by assumption. cbn [length] in Hf.
    destruct (IH fuel id k i a b rest evs' buf' G2 O2 Hr Hn H1 ltac:(lia) H2) as [b2 [e2 [F1 F2]]].
    destruct (Z.eqb_spec k' 1); cbn [negb]; [|exists b2, e2; auto]. destruct (Z.eqb_spec i' id); cbn [negb]; [lia|]. exists b2, e2; auto.
Qed.
