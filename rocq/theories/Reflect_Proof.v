(** Proofs about type reflection. *)
From Verif Require Import Common NumText_Model NumText_Proof Reflect_Spec Reflect_Model.
From Coq Require Import Lia.
Local Open Scope Z_scope.

Section Ind.
  Variable P : cty -> Prop.
  Hypothesis H0 : forall c, (match c with CVector _ | CMap _ _ | CClass _ => False | _ => True end) -> P c.
  Hypothesis H1 : forall t, P t -> P (CVector t).
  Hypothesis H2 : forall k v, P k -> P v -> P (CMap k v).
  Hypothesis H3 : forall ops, Forall (fun o => match o with OName _ => True | ONamed _ t | OPlain t => P t end) ops -> P (CClass ops).
  Fixpoint cty_rect' (c : cty) : P c.
  Proof.
    destruct c as [ | | s n | n | | | t | k v | ops ].
    1-6: apply H0; exact I.
    - apply H1, cty_rect'.
    - apply H2; apply cty_rect'.
    - apply H3. induction ops as [ | o ops IH ]; constructor.
      + destruct o as [ n | n t | t ]; [ exact I | apply cty_rect' | apply cty_rect' ].
      + exact IH.
  Defined.
End Ind.
Section TInd.
  Variable P : tree -> Prop.
  Hypothesis H0 : forall c, (match c with TArray _ | TMap _ _ | TClass _ _ => False | _ => True end) -> P c.
  Hypothesis H1 : forall t, P t -> P (TArray t).
  Hypothesis H2 : forall k v, P k -> P v -> P (TMap k v).
  Hypothesis H3 : forall n ms, Forall (fun m => P (snd m)) ms -> P (TClass n ms).
  Fixpoint tree_rect' (c : tree) : P c.
  Proof.
    destruct c as [ | s n | | | | | t | k v | n ms ].
    1-6: apply H0; exact I.
    - apply H1, tree_rect'.
    - apply H2; apply tree_rect'.
    - apply H3. induction ms as [ | o ops IH ]; constructor; [ apply tree_rect' | exact IH ].
  Defined.
End TInd.

Definition mems (ops : list cop) := flat_map (fun o => match o with OName _ => [] | ONamed n t => [(n, shape t)] | OPlain t => [([] : list Z, shape t)] end) ops.
Definition nams (ops : list cop) := flat_map (fun o => match o with OName n => [n] | _ => [] end) ops.
Lemma last_cons {A} (a : A) l d : last (a :: l) d = last l a.
Proof. revert a d. induction l as [ | b l IH ]; intros a d; [ reflexivity | ]. change (last (a :: b :: l) d) with (last (b :: l) d). rewrite !IH. reflexivity. Qed.
Definition run := fix run (ops : list cop) (r : reflection) : outcome reflection :=
        match ops with
        | [] => Ok r
        | o :: ops => let* r := match o with
                                | OName n => set_name n r
                                | ONamed n t => let* t := (let* r := serialize t new_reflection in get r) in add n t r
                                | OPlain t => serialize t r
                                end in run ops r
        end.
Lemma serialize_shape c : forall top s ns, serialize c {| stk := top :: s; names := ns |} = Ok {| stk := (top ++ [([], shape c)]) :: s; names := ns |}.
Proof.
  induction c as [ c H | t IH | k v IHk IHv | ops IH ] using cty_rect'; intros top s ns.
  - destruct c; try contradiction; reflexivity.
  - cbn [serialize]. unfold new_reflection, enter_class. cbn [stk names]. rewrite IH. reflexivity.
  - cbn [serialize]. unfold new_reflection, enter_class. cbn [stk names]. rewrite IHk, IHv. reflexivity.
  - cbn [serialize].
    fold run.
    assert (R : forall tp nm, run ops {| stk := tp :: top :: s; names := nm :: ns |} = Ok {| stk := (tp ++ mems ops) :: top :: s; names := last (nams ops) nm :: ns |}).
    { clear - IH. induction ops as [ | o ops IHo ]; intros tp nm.
      - cbn. rewrite app_nil_r. reflexivity.
      - pose proof (Forall_inv IH) as Ho. specialize (IHo (Forall_inv_tail IH)).
        destruct o as [ n | n t | t ].
        + cbn [run]. cbn [obind set_name names stk]. rewrite IHo. unfold nams, mems. cbn [flat_map app]. rewrite last_cons. reflexivity.
        + cbn [run]. unfold new_reflection, enter_class. cbn [stk names]. rewrite Ho. cbn [obind get stk app add names]. rewrite IHo.
          unfold nams, mems. cbn [flat_map app]. rewrite <- app_assoc. reflexivity.
        + cbn [run]. rewrite Ho. cbn [obind]. rewrite IHo.
          unfold nams, mems. cbn [flat_map app]. rewrite <- app_assoc. reflexivity. }
    unfold enter_class. cbn [stk names]. rewrite R. reflexivity.
Qed.
Lemma get_type_shape c : get_type c = Ok (shape c).
Proof. unfold get_type, new_reflection, enter_class. cbn [stk names]. rewrite serialize_shape. reflexivity. Qed.

Lemma traverse_parts t : traverse t = parts t.
Proof.
  induction t as [ c H | t IH | k v IHk IHv | n ms IH ] using tree_rect'.
  - destruct c; try contradiction; reflexivity.
  - cbn. rewrite IH. reflexivity.
  - cbn. rewrite IHk, IHv. reflexivity.
  - cbn [traverse parts]. f_equal. induction ms as [ | m ms IHm ]; [ reflexivity | ]. cbn [flat_map]. rewrite (Forall_inv IH), IHm by exact (Forall_inv_tail IH). reflexivity.
Qed.

(** Reading the text *)
Lemma stop {P : Z -> Prop} (u v : list Z) r q c d : Forall P u -> Forall P v -> ~ P c -> ~ P d -> u ++ c :: r = v ++ d :: q -> u = v /\ c :: r = d :: q.
Proof.
  revert v. induction u as [ | a u IH ]; intros [ | b v ] Hu Hv Hc Hd E; cbn in E.
  - auto.
  - injection E as E1 E2. subst. exfalso. apply Hc. exact (Forall_inv Hv).
  - injection E as E1 E2. subst. exfalso. apply Hd. exact (Forall_inv Hu).
  - injection E as E1 E2. subst b. destruct (IH v (Forall_inv_tail Hu) (Forall_inv_tail Hv) Hc Hd E2) as [ -> F ]. auto.
Qed.
Definition pl (c : Z) : Prop := ~ In c (str ",:(){}<>").
Definition members := fix members (first : bool) (ms : list (list Z * tree)) : list Z :=
         match ms with
         | [] => []
         | (n, t) :: ms => (if first then [] else str ",") ++ print t ++ (match n with [] => [] | _ => str ":" ++ n end) ++ members false ms
         end.
Definition lab (n : list Z) : list Z := match n with [] => [] | _ => str ":" ++ n end.
Lemma members_false n t ms : members false ((n, t) :: ms) = 44 :: print t ++ lab n ++ members false ms.
Proof. reflexivity. Qed.
Lemma members_true n t ms : members true ((n, t) :: ms) = print t ++ lab n ++ members false ms.
Proof. reflexivity. Qed.
Lemma lab_inj n m r q c d : plain n -> plain m -> In c [44; 125] -> In d [44; 125] -> lab n ++ c :: r = lab m ++ d :: q -> n = m /\ c :: r = d :: q.
Proof.
  intros Hn Hm Hc Hd E.
  assert (Nc : ~ pl c) by (intros K; apply K; cbn in *; intuition subst; auto 10).
  assert (Nd : ~ pl d) by (intros K; apply K; cbn in *; intuition subst; auto 10).
  unfold lab in E. destruct n as [ | x n ], m as [ | y m ].
  - auto.
  - exfalso. cbn in E. assert (K : 58 = c \/ 58 = d) by (injection E; auto). cbn in Hc, Hd. intuition congruence.
  - exfalso. cbn in E. assert (K : 58 = c \/ 58 = d) by (injection E; auto). cbn in Hc, Hd. intuition congruence.
  - cbn [app str] in E. apply (f_equal (@tl Z)) in E. refine (stop (P := pl) (x :: n) (y :: m) r q c d Hn Hm Nc Nd _). exact E.
Qed.
Lemma print_head t : exists c r, print t = c :: r /\ 97 <= c <= 122.
Proof. destruct t as [ | [ | ] n | | | | | t | k v | n ms ]; (eexists; eexists; split; [ reflexivity | split; vm_compute; discriminate ]). Qed.
Lemma members_head ms r : exists c q, members false ms ++ 125 :: r = c :: q /\ In c [44; 125].
Proof. destruct ms as [ | (n, t) ms ]; [ exists 125, r | eexists 44, _ ]; (split; [ reflexivity | cbn; auto ]). Qed.
Lemma str_app u v : forall r q : list Z, length (str u) = length (str v) -> str u ++ r = str v ++ q -> str u = str v /\ r = q.
Proof. intros r q H E. split; [ apply (f_equal (firstn (length (str u)))) in E; rewrite H in E at 2; rewrite !firstn_app, H, !Nat.sub_diag, !firstn_O, !app_nil_r, <- H, firstn_all, H, firstn_all in E; exact E | ].
  apply (f_equal (skipn (length (str u)))) in E. rewrite H in E at 2. rewrite !skipn_app, H, !Nat.sub_diag in E. rewrite <- H, skipn_all, H, skipn_all in E. exact E. Qed.

Theorem print_inj t : forall u r q, named t -> named u -> print t ++ r = print u ++ q -> t = u /\ r = q.
Proof.
  induction t as [ t H | t IH | k v IHk IHv | n ms IH ] using tree_rect'; intros u r q Nt Nu E.
  - destruct t as [ | s n | | | | | t | k v | n ms ]; try contradiction; destruct u as [ | [ | ] n' | | | | | t' | k' v' | n' ms' ];
      try (destruct s); cbn in E; try discriminate E; try (injection E as E; subst; auto).
    all: inversion Nt; subst; try (cbn in *; intuition discriminate); inversion Nu; subst; try (cbn in *; intuition discriminate).
    all: repeat (rewrite <- app_assoc in E; cbn [app] in E).
    all: unfold show_int in E; replace (n <? 0) with false in E by lia; replace (n' <? 0) with false in E by lia.
    all: pose proof (dec_text_digits n ltac:(lia)) as D1; pose proof (dec_text_digits n' ltac:(lia)) as D2.
    all: destruct (stop (P := fun c => isdigit c = true) (dec_text n) (dec_text n') r q 41 41 D1 D2 ltac:(discriminate) ltac:(discriminate) E) as [ F G ].
    all: apply (f_equal dec_val) in F; rewrite !dec_text_val in F by lia; subst; injection G as ->; auto.
  - destruct u as [ | [ | ] n' | | | | | t' | k' v' | n' ms' ]; try (cbn in E; discriminate E).
    inversion Nt; subst; try (cbn in *; intuition discriminate). inversion Nu; subst; try (cbn in *; intuition discriminate).
    cbn [print] in E. rewrite <- !app_assoc in E. apply app_inv_head in E. destruct (IH _ _ _ H0 H1 E) as [ -> F ]. injection F as ->. auto.
  - destruct u as [ | [ | ] n' | | | | | t' | k' v' | n' ms' ]; try (cbn in E; discriminate E).
    inversion Nt; subst; try (cbn in *; intuition discriminate). inversion Nu; subst; try (cbn in *; intuition discriminate).
    cbn [print] in E. rewrite <- !app_assoc in E. apply app_inv_head in E.
    match goal with A : named k, B : named k' |- _ => destruct (IHk _ _ _ A B E) as [ -> F ] end. apply app_inv_head in F.
    match goal with A : named v, B : named v' |- _ => destruct (IHv _ _ _ A B F) as [ -> G ] end. apply app_inv_head in G. subst. auto.
  - destruct u as [ | [ | ] n' | | | | | t' | k' v' | n' ms' ]; try (cbn in E; discriminate E).
    inversion Nt as [ ? K | | | | ? ? Pn Fm ]; subst; [ cbn in K; intuition discriminate | ].
    inversion Nu as [ ? K | | | | ? ? Pn' Fm' ]; subst; [ cbn in K; intuition discriminate | ].
    cbn [print] in E. fold members in E. rewrite <- !app_assoc in E. apply app_inv_head in E.
    assert (N41 : ~ pl 41) by (intros K; apply K; cbn; auto 10).
    destruct (stop (P := pl) n n' _ _ 41 41 Pn Pn' N41 N41 E) as [ -> F ]. clear E. injection F as F.
    assert (R : forall ms', Forall (fun m => plain (fst m) /\ named (snd m)) ms' -> forall r q, members false ms ++ 125 :: r = members false ms' ++ 125 :: q -> ms = ms' /\ r = q).
    { clear - IH Fm. induction ms as [ | (n, t) ms IHm ]; intros [ | (n', t') ms' ] Fm' r q E.
      - cbn in E. injection E as ->. auto.
      - rewrite members_false in E. cbn [app members] in E. injection E as E _. discriminate E.
      - rewrite members_false in E. cbn [app members] in E. injection E as E _. discriminate E.
      - rewrite !members_false in E. cbn [app] in E. apply (f_equal (@tl Z)) in E. cbn [tl] in E. rewrite <- !app_assoc in E.
        destruct (Forall_inv Fm) as [ A B ], (Forall_inv Fm') as [ A' B' ]. cbn [fst snd] in *.
        destruct (Forall_inv IH t' _ _ B B' E) as [ G1 G ]. cbn [snd] in G1. subst t'.
        destruct (members_head ms r) as (c & rr & Ec & Hc), (members_head ms' q) as (d & qq & Ed & Hd).
        rewrite Ec, Ed in G. destruct (lab_inj _ _ _ _ _ _ A A' Hc Hd G) as [ -> G2 ]. rewrite <- Ec, <- Ed in G2.
        destruct (IHm (Forall_inv_tail IH) (Forall_inv_tail Fm) ms' (Forall_inv_tail Fm') _ _ G2) as [ -> -> ]. auto. }
    destruct ms as [ | (n, t) ms ], ms' as [ | (n2, t2) ms' ].
    + cbn in F. injection F as ->. auto.
    + exfalso. rewrite members_true in F. destruct (print_head t2) as (c & w & Ew & Hc). rewrite Ew in F. assert (K : c = 125) by (injection F; auto). lia.
    + exfalso. rewrite members_true in F. destruct (print_head t) as (c & w & Ew & Hc). rewrite Ew in F. assert (K : c = 125) by (injection F; auto). lia.
    + assert (E2 : members false ((n, t) :: ms) ++ 125 :: r = members false ((n2, t2) :: ms') ++ 125 :: q).
      { rewrite !members_false. rewrite !members_true in F. cbn [app]. f_equal. exact F. }
      destruct (R _ Fm' _ _ E2) as [ -> -> ]. auto.
Qed.

Lemma print_denotes t : denotes (print t) t.
Proof.
  induction t as [ c H | t IH | k v IHk IHv | n ms IH ] using tree_rect'.
  - destruct c as [ | [ | ] n | | | | | | | ]; try contradiction; try constructor.
  - cbn [print]. now constructor.
  - cbn [print]. now constructor.
  - set (xs := map (fun m => print (snd m) ++ match fst m with [] => [] | n => str ":" ++ n end) ms).
    assert (E : print (TClass n ms) = str "class(" ++ n ++ str "){" ++ commas xs ++ str "}").
    { cbn [print]. do 3 f_equal. f_equal. subst xs. clear IH.
      assert (G : forall ms, (fix members (first : bool) (ms : list (list Z * tree)) : list Z :=
         match ms with
         | [] => []
         | (n, t) :: ms => (if first then [] else str ",") ++ print t ++ (match n with [] => [] | _ => str ":" ++ n end) ++ members false ms
         end) false ms = match ms with [] => [] | _ => str "," ++ commas (map (fun m => print (snd m) ++ match fst m with [] => [] | n => str ":" ++ n end) ms) end).
      { induction ms0 as [ | [ m t ] r IHr ]; [ reflexivity | ]. rewrite IHr. cbn [map fst snd commas]. destruct r as [ | [ m' t' ] r ]; [ cbn [map]; rewrite app_nil_r; destruct m; reflexivity | destruct m ].
        all: cbn [map fst snd]; rewrite <- !app_assoc; reflexivity. }
      destruct ms as [ | [ m t ] r ]; [ reflexivity | ]. rewrite G. cbn [map fst snd commas app]. destruct r as [ | [ m' t' ] r ]; [ cbn [map]; rewrite app_nil_r; destruct m; reflexivity | destruct m ].
      all: cbn [map fst snd]; rewrite <- !app_assoc; reflexivity. }
    rewrite E. constructor. subst xs. clear E. induction ms as [ | m ms IHm ]; cbn [map]; constructor; [ | apply IHm; exact (Forall_inv_tail IH) ].
    exists (print (snd m)). split; [ exact (Forall_inv IH) | reflexivity ].
Qed.
