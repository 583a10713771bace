(** Proofs about the PHP clients. *)
From Verif Require Import Common CommonLemmas NumText_Model NumText_Proof Reflect_Spec Reflect_Model Reflect_Proof Archive_Model Archive_Spec Archive_Proof Rpc_Spec Rpc_Model Rpc_Proof Php_Spec Php_Model.
From Coq Require Import Lia Permutation Sorted.
Local Open Scope Z_scope.

(** The type object of a tree *)
Fixpoint rtt (t : tree) : rtype :=
  match t with
  | TInt s n => RInt s n
  | TFloat => RFloat
  | TArray t => RArray (rtt t)
  | Reflect_Spec.TMap k v => RMap (rtt k) (rtt v)
  | TClass n ms => RClass n (map (fun m => (fst m, rtt (snd m))) ms)
  | _ => RString
  end.

(** ** Order of keys *)
Lemma bytes_cmp_refl a : bytes_cmp a a = Eq.
Proof. induction a as [|x a IH]; [reflexivity|]. cbn. now rewrite Z.compare_refl. Qed.
Lemma bytes_cmp_eq : forall a b, bytes_cmp a b = Eq -> a = b.
Proof.
  induction a as [|x a IH]; intros [|y b] H; try discriminate; [reflexivity|]. cbn in H. destruct (Z.compare_spec x y); try discriminate. subst. now rewrite (IH b H).
Qed.
Lemma bytes_cmp_anti : forall a b, bytes_cmp b a = CompOpp (bytes_cmp a b).
Proof.
  induction a as [|x a IH]; intros [|y b]; try reflexivity. cbn. rewrite (Z.compare_antisym x y). destruct (x ?= y); cbn; [apply IH|reflexivity|reflexivity].
Qed.
Lemma bytes_cmp_trans : forall a b c, bytes_cmp a b = Lt -> bytes_cmp b c = Lt -> bytes_cmp a c = Lt.
Proof.
  induction a as [|x a IH]; intros [|y b] [|z c] H K; try discriminate; try reflexivity. cbn in *.
  destruct (Z.compare_spec x y), (Z.compare_spec y z); try discriminate; subst.
  - rewrite Z.compare_refl. eauto.
  - rewrite (proj2 (Z.compare_lt_iff y z)) by assumption. reflexivity.
  - rewrite (proj2 (Z.compare_lt_iff x z)) by assumption. reflexivity.
  - rewrite (proj2 (Z.compare_lt_iff x z)) by lia. reflexivity.
Qed.
(** Keys of the two kinds *)
Definition same_kind (a b : val) : Prop := match a, b with VN _, VN _ | VS _, VS _ => True | _, _ => False end.
Lemma vcmp_eq a b : same_kind a b -> vcmp a b = Eq -> a = b.
Proof. destruct a, b; cbn; try contradiction; intros _ H; [apply Z.compare_eq in H|apply bytes_cmp_eq in H]; congruence. Qed.
Lemma vcmp_anti a b : same_kind a b -> vcmp b a = CompOpp (vcmp a b).
Proof. destruct a, b; cbn; try contradiction; intros _; [apply Z.compare_antisym|apply bytes_cmp_anti]. Qed.
Lemma vcmp_trans a b c : same_kind a b -> same_kind b c -> vcmp a b = Lt -> vcmp b c = Lt -> vcmp a c = Lt.
Proof.
  destruct a, b, c; cbn; try contradiction; intros _ _.
  - rewrite !Z.compare_lt_iff. lia.
  - apply bytes_cmp_trans.
Qed.
Lemma vcmp_irrefl a b : same_kind a b -> vcmp a b = Lt -> a <> b.
Proof. destruct a, b; cbn; try contradiction; intros _ H E; injection E as ->; [rewrite Z.compare_refl in H|rewrite bytes_cmp_refl in H]; discriminate. Qed.

(** Inserting in any order gives the ordered list. *)
Definition kinds (l : list val) : Prop := forall x y, In x l -> In y l -> same_kind (vfst x) (vfst y).
Definition below (x y : val) : Prop := vcmp (vfst x) (vfst y) = Lt.
Lemma insert_ord_perm x l : (forall y, In y l -> vcmp (vfst y) (vfst x) <> Eq) -> Permutation (insert_ord vfst x l) (x :: l).
Proof.
  induction l as [|y l IH]; intros H; [reflexivity|]. cbn [insert_ord]. destruct (vcmp (vfst y) (vfst x)) eqn:E.
  - exfalso. apply (H y); [now left|exact E].
  - rewrite IH by (intros z Hz; apply H; now right). apply perm_swap.
  - reflexivity.
Qed.
Lemma insert_ord_sorted x l : kinds (x :: l) -> (forall y, In y l -> vcmp (vfst y) (vfst x) <> Eq) -> StronglySorted below l -> StronglySorted below (insert_ord vfst x l).
Proof.
  intros HK H HS. induction HS as [|y l HS IH Hy]; [cbn; repeat constructor|]. cbn [insert_ord]. destruct (vcmp (vfst y) (vfst x)) eqn:E.
  - exfalso. apply (H y); [now left|exact E].
  - assert (K' : kinds (x :: l)) by (intros a b Ha Hb; apply HK; cbn in *; tauto).
    assert (H' : forall z, In z l -> vcmp (vfst z) (vfst x) <> Eq) by (intros z Hz; apply H; now right).
    constructor; [now apply IH|]. apply Forall_forall. intros z Hz. apply (Permutation_in _ (insert_ord_perm x l H')) in Hz. destruct Hz as [<-|Hz]; [exact E|].
    rewrite Forall_forall in Hy. now apply Hy.
  - assert (Exy : below x y). { unfold below. rewrite (vcmp_anti (vfst y) (vfst x)), E by (apply HK; cbn; auto). reflexivity. }
    constructor; [now constructor|]. constructor; [exact Exy|]. apply Forall_forall. intros z Hz. rewrite Forall_forall in Hy. unfold below.
    apply (vcmp_trans _ (vfst y)); [apply HK; cbn; auto|apply HK; cbn; auto|exact Exy|now apply Hy].
Qed.
Lemma sorted_unique : forall l l', kinds l -> Permutation l l' -> StronglySorted below l -> StronglySorted below l' -> l = l'.
Proof.
  induction l as [|x l IH]; intros l' HK HP HS HS'; [symmetry; now apply Permutation_nil|].
  destruct l' as [|y l']; [apply Permutation_sym, Permutation_nil in HP; discriminate|].
  assert (E : x = y).
  { assert (Hx : In x (y :: l')) by (apply (Permutation_in _ HP); now left). assert (Hy : In y (x :: l)) by (apply (Permutation_in _ (Permutation_sym HP)); now left).
    destruct Hx as [Hx|Hx]; [now symmetry|]. destruct Hy as [Hy|Hy]; [assumption|]. exfalso.
    inversion HS as [|? ? _ Fx]; subst. inversion HS' as [|? ? _ Fy]; subst. rewrite Forall_forall in Fx, Fy. specialize (Fx y Hy). specialize (Fy x Hx). unfold below in *.
    rewrite (vcmp_anti (vfst x) (vfst y)), Fx in Fy by (apply HK; cbn; auto). discriminate. }
  subst y. f_equal. apply IH; [intros a b Ha Hb; apply HK; now right|now apply Permutation_cons_inv in HP|now inversion HS|now inversion HS'].
Qed.
Lemma ascending_sorted l : ascending (map vfst l) -> StronglySorted below l.
Proof.
  induction l as [|x l IH]; intros H; [constructor|]. inversion H as [|? ? Hx H']; subst. constructor; [now apply IH|].
  apply Forall_forall. intros y Hy. rewrite Forall_forall in Hx. apply Hx. now apply in_map.
Qed.
(** The elements of an ordered list have different keys. *)
Lemma sorted_keys_distinct l : kinds l -> StronglySorted below l -> NoDup (map vfst l).
Proof.
  intros HK HS. induction HS as [|x l HS IH Hx]; [constructor|]. cbn. constructor; [|apply IH; intros a b Ha Hb; apply HK; now right].
  intros Hin. apply in_map_iff in Hin as (y & E & Hy). rewrite Forall_forall in Hx. specialize (Hx y Hy). unfold below in Hx. rewrite E in Hx.
  apply (vcmp_irrefl (vfst x) (vfst x)); [apply HK; now left|exact Hx|reflexivity].
Qed.
Lemma read_insert_any rd start (enc : list (val * list Z)) : (forall x b, In (x, b) enc -> x <> VUndef /\ forall rest, rd start (b ++ rest, true) = Ok (x, (rest, true))) ->
  forall acc rest, read_insert (length enc) rd start (insert_ord vfst) acc (flat_map snd enc ++ rest, true) =
  Ok (fold_left (fun l x => insert_ord vfst x l) (map fst enc) acc, (rest, true)).
Proof.
  induction enc as [|[x b] enc IH]; intros H acc rest; [reflexivity|]. cbn [length read_insert flat_map snd map fst fold_left].
  destruct (H x b ltac:(now left)) as (Hu & Hr). rewrite <- app_assoc, Hr. cbn [obind].
  destruct x; try (rewrite IH by (intros y c Hy; apply H; now right); reflexivity). congruence.
Qed.
Lemma fold_insert_sorts : forall xs acc, kinds (acc ++ xs) -> NoDup (map vfst (acc ++ xs)) -> StronglySorted below acc ->
  StronglySorted below (fold_left (fun l x => insert_ord vfst x l) xs acc) /\ Permutation (fold_left (fun l x => insert_ord vfst x l) xs acc) (acc ++ xs).
Proof.
  induction xs as [|x xs IH]; intros acc HK HN HS; [rewrite app_nil_r in *; split; [exact HS|reflexivity]|]. cbn [fold_left].
  assert (Hne : forall y, In y acc -> vcmp (vfst y) (vfst x) <> Eq).
  { intros y Hy E. apply vcmp_eq in E; [|apply HK; apply in_or_app; [now left|right; now left]].
    rewrite map_app in HN. cbn [map] in HN. apply NoDup_remove_2 in HN. apply HN. apply in_or_app. left. rewrite <- E. now apply in_map. }
  pose proof (insert_ord_perm x acc Hne) as HP.
  assert (HP2 : Permutation (insert_ord vfst x acc ++ xs) (acc ++ x :: xs)) by (rewrite HP; cbn; now rewrite Permutation_middle).
  destruct (IH (insert_ord vfst x acc)) as (S1 & P1).
  - intros a b Ha Hb. apply HK; eapply Permutation_in; eauto.
  - eapply Permutation_NoDup; [apply Permutation_map; symmetry; exact HP2|exact HN].
  - apply insert_ord_sorted; [|exact Hne|exact HS]. intros a b Ha Hb. apply HK; apply in_or_app; cbn in *; destruct Ha, Hb; subst; auto with datatypes.
  - split; [exact S1|]. now rewrite P1.
Qed.
Lemma fold_insert_unique xs l : kinds l -> ascending (map vfst l) -> Permutation l xs -> fold_left (fun l x => insert_ord vfst x l) xs [] = l.
Proof.
  intros HK HA HP. assert (HS := ascending_sorted l HA). assert (HN := sorted_keys_distinct l HK HS).
  destruct (fold_insert_sorts xs []) as (S1 & P1).
  - intros a b Ha Hb. apply HK; (eapply Permutation_in; [symmetry; exact HP|assumption]).
  - eapply Permutation_NoDup; [apply Permutation_map; exact HP|exact HN].
  - constructor.
  - apply sorted_unique; [|rewrite P1; now symmetry|exact S1|exact HS]. intros a b Ha Hb. cbn [app] in P1. apply HK; (eapply Permutation_in; [symmetry; exact HP|]; eapply Permutation_in; [exact P1|]; assumption).
Qed.

(** ** Keys of PHP arrays *)
Lemma num_of_show z : num_of (show_int z) = z.
Proof.
  unfold show_int. destruct (Z.ltb_spec z 0) as [H|H].
  - cbn. rewrite dec_text_val by lia. lia.
  - pose proof (dec_text_val z H) as E. pose proof (dec_text_digits z H) as D. unfold num_of. destruct (dec_text z) as [|c r]; [rewrite <- E; reflexivity|].
    destruct (Z.eqb_spec c 45) as [->|_]; [|exact E]. apply Forall_inv in D. discriminate.
Qed.
Lemma show_int_inj a b : show_int a = show_int b -> a = b.
Proof. intros H. apply (f_equal num_of) in H. now rewrite !num_of_show in H. Qed.
Lemma key_of_for s : key_for (VS s) (key_of s).
Proof.
  unfold key_for, key_of. destruct (str_eqb (show_int (num_of s)) s) eqn:E.
  - apply str_eqb_eq in E. destruct (Z.leb_spec (- 2 ^ 63) (num_of s)); [destruct (Z.ltb_spec (num_of s) (2 ^ 63))|]; cbn [andb].
    + left. exists (num_of s). unfold int64. repeat split; auto.
    + right. split; [|reflexivity]. intros z Hz Es. subst s. rewrite num_of_show in *. unfold int64 in Hz. lia.
    + right. split; [|reflexivity]. intros z Hz Es. subst s. rewrite num_of_show in *. unfold int64 in Hz. lia.
  - right. split; [|reflexivity]. intros z Hz Es. subst s. rewrite num_of_show in E. now rewrite str_eqb_refl in E.
Qed.
Lemma key_for_fun a b k : same_kind a b -> key_for a k -> key_for b k -> a = b.
Proof.
  destruct a as [| |x|s| |], b as [| |y|t| |]; cbn; try contradiction; intros _.
  - intros -> E. now injection E as ->.
  - intros [(z & _ & -> & ->)|(N & ->)] [(w & _ & -> & E)|(M & E)]; try discriminate; injection E as ->; reflexivity.
Qed.
Lemma key_eqb_eq a b : key_eqb a b = true <-> a = b.
Proof.
  destruct a, b; cbn; try (split; discriminate).
  - rewrite Z.eqb_eq. split; congruence.
  - rewrite str_eqb_eq. split; congruence.
Qed.
Lemma aset_new k v l : ~ In k (map fst l) -> aset k v l = l ++ [(k, v)].
Proof.
  induction l as [|[j w] l IH]; intros H; [reflexivity|]. cbn. destruct (key_eqb j k) eqn:E; [apply key_eqb_eq in E; exfalso; apply H; now left|].
  rewrite IH; [reflexivity|]. intros K. apply H. now right.
Qed.

(** ** Numbers in bytes *)
Lemma pack_len n z : length (pack n z) = n.
Proof. apply le_bytes_len. Qed.
Lemma le_pack n z : 0 <= z < 2 ^ (8 * Z.of_nat n) -> le_num (pack n z) = z.
Proof. intros H. unfold pack. rewrite Z.mod_small by lia. now apply le_num_bytes. Qed.
Lemma pack_wsize n : pack 4 (Z.of_nat n) = wsize n.
Proof. reflexivity. Qed.
Lemma le_num_pack n z : le_num (pack n z) = z mod 2 ^ (8 * Z.of_nat n).
Proof. unfold pack. apply le_num_bytes. apply Z.mod_pos_bound. apply Z.pow_pos_nonneg; lia. Qed.
Lemma read_num_ok n sg z old rest : (n > 0)%nat -> in_range n sg z -> read (TNum n sg) old (pack n z ++ rest, true) = Ok (VN z, (rest, true)).
Proof. intros Hn Hz. apply (archive_roundtrip (TNum n sg) (VN z)). split; [exact Hn|]. now exists z. Qed.

(** ** Writing *)
Lemma each_map {X Y W} (f : Y -> pres W) (g : X -> Y) l : each (fun x => f (g x)) l = each f (map g l).
Proof. induction l as [|x l IH]; [reflexivity|]. cbn. now rewrite IH. Qed.
Lemma each_ok {X Y} (f : X -> pres Y) (R : X -> Y -> Prop) l : (forall x, In x l -> exists y, f x = Val y /\ R x y) -> exists ys, each f l = Val ys /\ Forall2 R l ys.
Proof.
  induction l as [|x l IH]; intros H; [exists []; now split|]. destruct (H x ltac:(now left)) as (y & E & Hy). destruct IH as (ys & Es & Hys); [intros z Hz; apply H; now right|].
  exists (y :: ys). split; [cbn; now rewrite E; cbn; rewrite Es|now constructor].
Qed.
Lemma aget_number (q : list pv) : forall k pre, ~ In (KInt (Z.of_nat k)) (map fst pre) -> (forall j, (k <= j)%nat -> ~ In (KInt (Z.of_nat j)) (map fst pre)) ->
  map (fun i => aget (KInt (Z.of_nat i)) (pre ++ combine (map (fun i => KInt (Z.of_nat i)) (seq k (length q))) q)) (seq k (length q)) = q.
Proof.
  assert (G : forall i pre r, ~ In (KInt (Z.of_nat i)) (map fst pre) -> aget (KInt (Z.of_nat i)) (pre ++ r) = aget (KInt (Z.of_nat i)) r).
  { intros i. induction pre as [|[j w] pre IH]; intros r H; [reflexivity|]. cbn [app aget]. destruct (key_eqb j (KInt (Z.of_nat i))) eqn:E.
    - apply key_eqb_eq in E. subst. exfalso. apply H. now left.
    - apply IH. intros K. apply H. now right. }
  induction q as [|x q IH]; intros k pre _ H; [reflexivity|]. cbn [length seq map combine]. f_equal.
  - rewrite G by (apply H; lia). cbn [aget]. rewrite (proj2 (key_eqb_eq _ _) eq_refl). reflexivity.
  - specialize (IH (S k) (pre ++ [(KInt (Z.of_nat k), x)])). rewrite <- app_assoc in IH. cbn [app] in IH.
    assert (N : forall j, (S k <= j)%nat -> ~ In (KInt (Z.of_nat j)) (map fst (pre ++ [(KInt (Z.of_nat k), x)]))).
    { intros j Hj K. rewrite map_app in K. apply in_app_or in K as [K|[K|[]]]; [apply (H j); [lia|exact K]|]. injection K as K. lia. }
    apply IH; [apply N; lia|exact N].
Qed.
Lemma number_len (q : list pv) : length (combine (map (fun i => KInt (Z.of_nat i)) (seq 0 (length q))) q) = length q.
Proof. rewrite combine_length, map_length, seq_length. lia. Qed.

(** [b] is read as [v], into any variable *)
Definition readable (t : ty) (v : val) (b : list Z) : Prop := forall old rest, read t old (b ++ rest, true) = Ok (v, (rest, true)).
Lemma read_each_readable t : forall l bs olds rest, Forall2 (readable t) l bs -> length olds = length l -> read_each (read t) olds (concat bs ++ rest, true) = Ok (l, (rest, true)).
Proof.
  intros l bs olds rest H. revert olds. induction H as [|x b l bs Hx _ IH]; intros [|o olds] L; try discriminate; [reflexivity|].
  cbn [concat read_each]. rewrite <- app_assoc, (Hx o). cbn [obind]. rewrite IH by (cbn in L; lia). reflexivity.
Qed.
Lemma Forall2_len {X Y} (R : X -> Y -> Prop) l m : Forall2 R l m -> length l = length m.
Proof. induction 1; cbn; congruence. Qed.
Lemma Forall2_swap {X Y} (R : X -> Y -> Prop) l m : Forall2 R l m -> Forall2 (fun y x => R x y) m l.
Proof. induction 1; constructor; assumption. Qed.
Lemma write_str_ok s : bytes s -> small s -> exists b, write_str (PStr s) = Val b /\ readable TStr (VS s) b.
Proof.
  intros Hb Hs. eexists. split; [reflexivity|]. intros old rest. cbn [to_str]. rewrite pack_wsize.
  apply (archive_roundtrip TStr (VS s)). now exists s.
Qed.
Lemma write_int_ok n z s p : In n [1; 2; 4] -> in_range (Z.to_nat n) s z -> to_int p = Val z -> exists b, write_int n p = Val b /\ readable (TNum (Z.to_nat n) s) (VN z) b.
Proof.
  intros Hn Hz Ep. destruct Hn as [<-|[<-|[<-|[]]]]; unfold write_int; cbn [Z.eqb Pos.eqb]; rewrite Ep; cbn [pbind]; eexists; (split; [reflexivity|]);
    intros old rest; apply read_num_ok; (lia || exact Hz).
Qed.
Lemma write_key k kv key : key_type k -> has_type (wire k) kv -> key_for kv key -> exists b, pwrite (rtt (shape k)) (key_val key) = Val b /\ readable (wire k) kv b.
Proof.
  intros Hk Ht Hf. destruct Hk as [s n Hn|]; cbn [shape rtt pwrite wire] in *.
  - destruct Ht as (_ & z & -> & Hz). cbn in Hf. subst key. now apply write_int_ok.
  - destruct Ht as (s & -> & Hb & Hs). cbn in Hf. destruct Hf as [(z & _ & -> & ->)|(_ & ->)]; [|now apply write_str_ok].
    unfold key_val, write_str, to_str. cbn [pbind]. exact (write_str_ok (show_int z) Hb Hs).
Qed.
Lemma key_kind k x y : key_type k -> has_type (wire k) x -> has_type (wire k) y -> same_kind x y.
Proof.
  intros Hk Hx Hy. destruct Hk; cbn [wire has_type] in *.
  - destruct Hx as (_ & a & -> & _), Hy as (_ & b & -> & _). exact I.
  - destruct Hx as (a & -> & _), Hy as (b & -> & _). exact I.
Qed.
Lemma pairs_inj (l m : list (val * val)) : map (fun x => VP (fst x) (snd x)) l = map (fun x => VP (fst x) (snd x)) m -> l = m.
Proof.
  revert m. induction l as [|[a b] l IH]; intros [|[c d] m] H; try discriminate; [reflexivity|]. cbn in H. injection H as -> -> H. now rewrite (IH m H).
Qed.
Lemma rd_pair_readable a b x y bx by' old rest : readable a x bx -> readable b y by' -> rd_pair a b old ((bx ++ by') ++ rest, true) = Ok (VP x y, (rest, true)).
Proof.
  intros Hx Hy. unfold rd_pair, read_pair. destruct (match old with VP x0 y0 => (x0, y0) | _ => (dflt a, dflt b) end) as [oa ob].
  rewrite <- app_assoc, Hx. cbn [obind]. rewrite Hy. reflexivity.
Qed.
Lemma oget_attribute n q fs : attribute n q fs -> oget n fs = q.
Proof.
  induction 1 as [r|m x r Hm _ IH]; cbn; [now rewrite str_eqb_refl|]. now rewrite (str_eqb_neq _ _ Hm).
Qed.
(** What the generated code writes for an argument is read by the server as the value that it stands for. *)
Definition wok (c : cty) : Prop := carried c -> forall v p, has_type (wire c) v -> represents c v p -> exists b, pwrite (rtt (shape c)) p = Val b /\ readable (wire c) v b.
Lemma write_class fs ops : Forall (fun o => match o with OName _ => True | ONamed _ t | OPlain t => wok t end) ops -> Forall carried_op ops -> forall v,
  has_type (wire (CClass ops)) v ->
  (fix members (ops : list cop) (v : val) : Prop :=
         match ops with
         | [] => v = VL []
         | OName _ :: r => members r v
         | ONamed n t :: r => exists x y q, v = VP x y /\ attribute n q fs /\ represents t x q /\ members r y
         | OPlain _ :: _ => False
         end) ops v ->
  exists b, (fix go (ms : list (list Z * rtype)) : pres (list Z) :=
                        match ms with [] => Val [] | (m, t) :: r => let^ a := pwrite t (oget m fs) in let^ b := go r in Val (a ++ b) end)
     (map (fun m => (fst m, rtt (snd m))) (mems ops)) = Val b /\ readable (wire (CClass ops)) v b.
Proof.
  induction ops as [|o ops IH]; intros HI HC v Ht Hr.
  - exists []. split; [reflexivity|]. subst v. intros old rest. reflexivity.
  - destruct (IH (Forall_inv_tail HI) (Forall_inv_tail HC)) with (v := match o with OName _ => v | _ => match v with VP _ y => y | _ => v end end) as (b & E & Hb).
    + destruct o as [n|n t|t]; [exact Ht| |].
      * destruct Ht as (x & y & -> & _ & Hy). exact Hy.
      * destruct Ht as (x & y & -> & _ & Hy). exact Hy.
    + destruct o as [n|n t|t]; [exact Hr| |contradiction]. destruct Hr as (x & y & q & -> & _ & _ & Hr). exact Hr.
    + destruct o as [n|n t|t]; [exists b; now split| |contradiction].
      destruct Hr as (x & y & q & -> & Ha & Hq & _). pose proof (Forall_inv HC) as Hc. inversion Hc as [|? ? _ Hct]; subst.
      pose proof (Forall_inv HI) as Hw. cbn in Hw. destruct Ht as (x' & y' & Exy & Hx & Hy). injection Exy as <- <-.
      destruct (Hw Hct x q Hx Hq) as (bx & Ex & Hbx). exists (bx ++ b). split.
      * cbn [mems flat_map app map fst snd]. fold (mems ops). rewrite (oget_attribute _ _ _ Ha), Ex. cbn [pbind]. rewrite E. reflexivity.
      * intros old rest. change (wire (CClass (ONamed n t :: ops))) with (TPair (wire t) (wire (CClass ops))).
        change (read (TPair (wire t) (wire (CClass ops)))) with (rd_pair (wire t) (wire (CClass ops))). now apply rd_pair_readable.
Qed.
Lemma shape_class ops : shape (CClass ops) = TClass (last (nams ops) []) (mems ops).
Proof. reflexivity. Qed.
Lemma write_ok c : wok c.
Proof.
  induction c as [c H|t IH|k t IHk IHt|ops IH] using cty_rect'; intros HC v p Ht Hr.
  - inversion HC as [s n Hn| | | | |]; subst; try contradiction; cbn [shape rtt pwrite wire represents] in *.
    + destruct Hr as (z & -> & ->). destruct Ht as (_ & z' & E & Hz). injection E as <-. now apply write_int_ok.
    + destruct Hr as (z & -> & ->). destruct Ht as (_ & z' & E & Hz). injection E as <-. eexists. split; [reflexivity|]. intros old rest.
      apply (read_num_ok 8 false z); [lia|exact Hz].
    + destruct Hr as (s & -> & ->). destruct Ht as (s' & E & Hb & Hs). injection E as <-. now apply write_str_ok.
  - inversion HC as [| | |t' HC'| |]; subst. cbn [shape rtt pwrite wire represents] in *. destruct Hr as (l & q & -> & -> & Hlq). destruct Ht as (l' & E & Hs & Hl). injection E as <-.
    rewrite number_len, (each_map (pwrite (rtt (shape t))) (fun i => aget (KInt (Z.of_nat i)) (combine (map (fun i => KInt (Z.of_nat i)) (seq 0 (length q))) q))).
    pose proof (aget_number q 0 [] ltac:(intros []) ltac:(intros ? ? [])) as Eq. cbn [app] in Eq. rewrite Eq. clear Eq.
    destruct (each_ok (fun x => pwrite (rtt (shape t)) (snd x)) (fun x b => readable (wire t) (fst x) b) (combine l q)) as (bs' & Eb' & Hbs').
    { intros [w x] Hx. cbn [fst snd]. assert (Hw : represents t w x).
      { clear - Hlq Hx. induction Hlq as [|a b l q Hab _ IHl]; [destruct Hx|]. destruct Hx as [E|Hx]; [injection E as <- <-; exact Hab|now apply IHl]. }
      apply in_combine_l in Hx. rewrite Forall_forall in Hl. destruct (IH HC' w x (Hl w Hx) Hw) as (b & E & Hb). now exists b. }
    rewrite (each_map (pwrite (rtt (shape t))) snd) in Eb'. assert (Esnd : map snd (combine l q) = q).
    { clear - Hlq. induction Hlq as [|a b l q _ _ IHl]; [reflexivity|]. cbn. now rewrite IHl. }
    rewrite Esnd in Eb'. rewrite Eb'. cbn [pbind]. eexists. split; [reflexivity|].
    assert (Hbs : Forall2 (readable (wire t)) l bs').
    { clear - Hlq Hbs'. revert bs' Hbs'. induction Hlq as [|a b l q _ _ IHl]; intros bs' H; inversion H; subst; constructor; auto. }
    rewrite <- (Forall2_len _ _ _ Hlq). rewrite pack_wsize. intros old rest. cbn [read]. rewrite <- app_assoc, read_size_ok by exact Hs. rewrite Nat2Z.id, two_loops.
    rewrite (read_each_readable (wire t) l bs') by (exact Hbs || apply slots_len). reflexivity.
  - inversion HC as [| | | |k' t' Hk HC'|]; subst. cbn [shape rtt pwrite wire represents] in *. destruct Hr as (l & q & q' & -> & -> & HP & Hlq). destruct Ht as (l' & E & Hs & Hl & Ho).
    injection E as E. apply pairs_inj in E. subst l'. destruct (Permutation_Forall2 HP (Forall2_swap _ _ _ Hlq)) as (l' & HPl & Hlq'). apply Forall2_swap in Hlq'.
    assert (Hl' : Forall (fun p => has_type (wire k) (fst p) /\ has_type (wire t) (snd p)) l').
    { apply Forall_forall. intros x Hx. rewrite Forall_forall in Hl. apply Hl. eapply Permutation_in; [symmetry; exact HPl|exact Hx]. }
    assert (G : exists bs, each (fun e => let^ a := pwrite (rtt (shape k)) (key_val (fst e)) in let^ b := pwrite (rtt (shape t)) (snd e) in Val (a ++ b)) q' = Val bs /\
              Forall2 (fun x b => forall old rest, rd_pair (wire k) (wire t) old (b ++ rest, true) = Ok (VP (fst x) (snd x), (rest, true))) l' bs).
    { clear - Hlq' Hl' Hk HC' IHt. induction Hlq' as [|x e l q (Hf & Hrep) _ IHl]; [exists []; split; [reflexivity|constructor]|].
      destruct (IHl (Forall_inv_tail Hl')) as (bs & Eb & Hbs). destruct (Forall_inv Hl') as (Hkx & Htx).
      destruct (write_key k (fst x) (fst e) Hk Hkx Hf) as (b1 & E1 & R1). destruct (IHt HC' (snd x) (snd e) Htx Hrep) as (b2 & E2 & R2).
      exists ((b1 ++ b2) :: bs). split; [cbn [each]; rewrite E1; cbn [pbind]; rewrite E2; cbn [pbind]; now rewrite Eb|]. constructor; [|exact Hbs].
      intros old rest. now apply rd_pair_readable. }
    destruct G as (bs & Eb & Hbs). rewrite Eb. cbn [pbind]. eexists. split; [reflexivity|].
    assert (Elen : length q' = length l') by (symmetry; eapply Forall2_len; exact Hlq'). rewrite Elen. rewrite pack_wsize.
    assert (Hll : length l' = length l) by (symmetry; now apply Permutation_length).
    intros old rest. cbn [read]. rewrite <- app_assoc, read_size_ok by (rewrite Hll; exact Hs). rewrite Nat2Z.id. fold (rd_pair (wire k) (wire t)).
    set (enc := combine (map (fun x => VP (fst x) (snd x)) l') bs).
    assert (Lb : length l' = length bs) by (eapply Forall2_len; exact Hbs).
    assert (Ee : length l' = length enc) by (unfold enc; rewrite combine_length, map_length; lia).
    assert (Ef : flat_map snd enc = concat bs /\ map fst enc = map (fun x => VP (fst x) (snd x)) l').
    { unfold enc. clear - Lb. revert bs Lb. induction l' as [|x l' IHl]; intros [|b bs] Lb; try discriminate; [now split|]. cbn in *. destruct (IHl bs ltac:(lia)) as (A1 & A2). split; congruence. }
    destruct Ef as (Ef1 & Ef2). rewrite Ee, <- Ef1. rewrite read_insert_any.
    + rewrite Ef2. cbn [obind]. f_equal. f_equal. f_equal. apply fold_insert_unique.
      * intros x y Hx Hy. apply in_map_iff in Hx as (x0 & <- & Hx), Hy as (y0 & <- & Hy). cbn [vfst]. rewrite Forall_forall in Hl.
        apply (key_kind k); [exact Hk|now apply Hl|now apply Hl].
      * rewrite map_map. cbn [vfst]. exact Ho.
      * now apply Permutation_map.
    + intros x b Hx. unfold enc in Hx. assert (K : exists y, In y l' /\ x = VP (fst y) (snd y) /\ forall old rest, rd_pair (wire k) (wire t) old (b ++ rest, true) = Ok (x, (rest, true))).
      { clear - Hbs Hx. induction Hbs as [|y c l' bs Hy _ IHl]; [destruct Hx|]. cbn in Hx. destruct Hx as [E|Hx].
        - injection E as <- <-. exists y. repeat split; [now left|exact Hy].
        - destruct (IHl Hx) as (z & A1 & A2 & A3). exists z. repeat split; [now right|exact A2|exact A3]. }
      destruct K as (y & _ & -> & K). split; [discriminate|]. intros r. apply K.
  - inversion HC as [| | | | |ops' Ho Hn Hd]; subst. cbn [represents] in Hr. destruct Hr as (n & fs & -> & Hm).
    rewrite shape_class. cbn [rtt pwrite]. exact (write_class fs ops IH Ho v Ht Hm).
Qed.

(** ** Reading *)
Lemma land_top v k : 0 <= k -> 0 <= v < 2 ^ (k + 1) -> (Z.land v (2 ^ k) =? 0) = (v <? 2 ^ k).
Proof.
  intros Hk Hv. assert (E : Z.land v (2 ^ k) = if Z.testbit v k then 2 ^ k else 0).
  { apply Z.bits_inj'. intros n Hn. rewrite Z.land_spec, Z.pow2_bits_eqb by lia. destruct (Z.eqb_spec k n) as [<-|Hne].
    - rewrite andb_true_r. destruct (Z.testbit v k); [rewrite Z.pow2_bits_true by lia; reflexivity|now rewrite Z.bits_0].
    - rewrite andb_false_r. destruct (Z.testbit v k); [rewrite Z.pow2_bits_false by lia; reflexivity|now rewrite Z.bits_0]. }
  rewrite E. assert (0 < 2 ^ k) by (apply Z.pow_pos_nonneg; lia). destruct (Z.ltb_spec v (2 ^ k)) as [H1|H1].
  - assert (T : Z.testbit v k = false).
    { destruct (Z.eq_dec v 0) as [->|Hz]; [apply Z.bits_0|]. apply Z.bits_above_log2; [lia|]. apply Z.log2_lt_pow2; lia. }
    now rewrite T.
  - assert (T : Z.testbit v k = true).
    { assert (L : Z.log2 v = k) by (apply Z.log2_unique; [lia|]; unfold Z.succ; lia). rewrite <- L. apply Z.bit_log2. lia. }
    rewrite T. apply Z.eqb_neq. lia.
Qed.

Section Reading.
Context {A : Type}.
(** The state of the script: what is in its buffer, what the server has sent and what it has not read yet *)
Definition has (s : @pst A) (inb : list Z) (pend : option (list Z)) (buf : list Z) (a : A) : Prop :=
  pbuf s = buf /\ cuts s = [] /\ astate (wld s) = a /\ ss (wld s) O = Some {| inbox := inb; good := true; pending := pend |}.
Definition gives {X} (m : @P A X) (b : list Z) (x : X) : Prop :=
  forall s rest pend buf a, has s (b ++ rest) pend buf a -> exists s', m s = (Val x, s') /\ has s' rest pend buf a.
Lemma gives_ret {X} (x : X) : gives (ret x) [] x.
Proof. intros s rest pend buf a H. exists s. split; [reflexivity|exact H]. Qed.
Lemma gives_lift {X} (r : pres X) (x : X) : r = Val x -> gives (lift r) [] x.
Proof. intros -> s rest pend buf a H. exists s. split; [reflexivity|exact H]. Qed.
Lemma gives_bind {X Y} (m : @P A X) (f : X -> @P A Y) b c x y : gives m b x -> gives (f x) c y -> gives (bind m f) (b ++ c) y.
Proof.
  intros Hm Hf s rest pend buf a H. rewrite <- app_assoc in H. destruct (Hm _ _ _ _ _ H) as (s1 & E & H1). destruct (Hf _ _ _ _ _ H1) as (s2 & E2 & H2).
  exists s2. split; [|exact H2]. unfold bind. now rewrite E.
Qed.
Lemma gives_then {X Y} (m : @P A X) (f : X -> Y) b x : gives m b x -> gives (bind m (fun x => ret (f x))) b (f x).
Proof. intros H. rewrite <- (app_nil_r b). eapply gives_bind; [exact H|apply gives_ret]. Qed.
Lemma fread_gives n b : 0 < n -> length b = Z.to_nat n -> gives (fread n) b (PStr b).
Proof.
  intros Hn L s rest pend buf a (Hb & Hc & Ha & Hs). unfold fread. destruct (Z.leb_spec n 0); [lia|]. rewrite Hs, Hc. cbn [inbox pending good tl].
  destruct (b ++ rest) as [|x i] eqn:E; [destruct b; [cbn in L; lia|discriminate]|].
  assert (Em : Nat.min (Z.to_nat n) (length (x :: i)) = length b) by (rewrite <- E, app_length, L; lia). rewrite Em. 
  assert (Ef : firstn (length b) (x :: i) = b) by (rewrite <- E, firstn_app, firstn_all, Nat.sub_diag; cbn; now rewrite app_nil_r).
  assert (Es : skipn (length b) (x :: i) = rest) by (rewrite <- E, skipn_app, skipn_all, Nat.sub_diag; reflexivity).
  rewrite Ef, Es. eexists. split; [destruct pend; reflexivity|]. repeat split; assumption.
Qed.
Lemma read_u_gives n b : (0 < n)%nat -> length b = n -> gives (read_u n) b (PInt (le_num b)).
Proof.
  intros Hn L. unfold read_u. assert (E : PInt (le_num b) = unpack n (PStr b)).
  { unfold unpack. rewrite L. rewrite Nat.ltb_irrefl. now rewrite <- L, firstn_all. }
  rewrite E. apply (gives_then (fread (Z.of_nat n)) (unpack n)). apply fread_gives; lia.
Qed.
Lemma read_s_gives n z : (0 < n)%nat -> in_range n true z -> gives (read_s n) (pack n z) (PInt z).
Proof.
  intros Hn Hz. unfold read_s. rewrite <- (app_nil_r (pack n z)). eapply gives_bind; [apply read_u_gives; [exact Hn|apply pack_len]|].
  cbn [in_range] in Hz. rewrite le_num_pack. set (k := 8 * Z.of_nat n - 1) in *. assert (Ek : 8 * Z.of_nat n = k + 1) by lia. rewrite Ek.
  assert (Hp : 0 < 2 ^ k) by (apply Z.pow_pos_nonneg; lia). assert (E2 : 2 ^ (k + 1) = 2 * 2 ^ k) by (rewrite Z.pow_add_r by lia; lia).
  assert (Hm : 0 <= z mod 2 ^ (k + 1) < 2 ^ (k + 1)) by (apply Z.mod_pos_bound; lia). rewrite land_top by lia.
  assert (Er : (if z mod 2 ^ (k + 1) <? 2 ^ k then z mod 2 ^ (k + 1) else z mod 2 ^ (k + 1) - (2 ^ (k + 1) - 1) - 1) = z).
  { destruct (Z.leb_spec 0 z).
    - rewrite Z.mod_small by lia. destruct (Z.ltb_spec z (2 ^ k)); lia.
    - rewrite <- (Z_mod_plus_full z 1), Z.mod_small by lia. destruct (Z.ltb_spec (z + 1 * 2 ^ (k + 1)) (2 ^ k)); lia. }
  rewrite Er. apply gives_ret.
Qed.
Lemma read_int_gives s n z : In n [1; 2; 4] -> in_range (Z.to_nat n) s z -> gives (read_int s n) (write (TNum (Z.to_nat n) s) (VN z)) (PInt z).
Proof.
  intros Hn Hz. change (write (TNum (Z.to_nat n) s) (VN z)) with (pack (Z.to_nat n) z).
  assert (G : gives (if s then read_s (Z.to_nat n) else read_u (Z.to_nat n)) (pack (Z.to_nat n) z) (PInt z)).
  { assert (0 < Z.to_nat n)%nat by (cbn in Hn; lia). destruct s; [now apply read_s_gives|].
    rewrite <- (le_pack (Z.to_nat n) z) at 2 by exact Hz. apply read_u_gives; [assumption|apply pack_len]. }
  unfold read_int. destruct Hn as [<-|[<-|[<-|[]]]]; exact G.
Qed.
Lemma read_str_gives s : small s -> s <> [] -> gives read_str (write TStr (VS s)) (PStr s).
Proof.
  intros Hs Hne. cbn [write]. unfold read_str. eapply gives_bind; [apply read_u_gives; [lia|apply le_bytes_len]|].
  assert (E : le_num (wsize (length s)) = Z.of_nat (length s)).
  { unfold wsize. rewrite le_num_bytes; [unfold u32; apply Z.mod_small; unfold small in Hs; lia|]. unfold u32. change (8 * Z.of_nat 4) with 32. apply Z.mod_pos_bound. lia. }
  cbn [size_of]. rewrite E. apply fread_gives; [destruct s; [congruence|cbn [length]; lia]|lia].
Qed.
Lemma size_gives {B} (l : list B) : small l -> gives (read_u 4) (wsize (length l)) (PInt (Z.of_nat (length l))).
Proof.
  intros Hs. assert (E : le_num (wsize (length l)) = Z.of_nat (length l)).
  { unfold wsize. rewrite le_num_bytes; [unfold u32; apply Z.mod_small; unfold small in Hs; lia|]. unfold u32. change (8 * Z.of_nat 4) with 32. apply Z.mod_pos_bound. lia. }
  rewrite <- E. apply read_u_gives; [lia|apply le_bytes_len].
Qed.
Lemma times_gives {X V} (m : @P A X) (w : V -> list Z) (R : V -> X -> Prop) l : (forall v, In v l -> exists x, gives m (w v) x /\ R v x) ->
  exists xs, gives (times (length l) m) (flat_map w l) xs /\ Forall2 R l xs.
Proof.
  induction l as [|v l IH]; intros H; [exists []; split; [apply gives_ret|constructor]|].
  destruct (H v ltac:(now left)) as (x & Hx & Rx). destruct IH as (xs & Hxs & Rxs); [intros y Hy; apply H; now right|].
  exists (x :: xs). split; [|now constructor]. cbn [length times flat_map]. eapply gives_bind; [exact Hx|]. apply (gives_then (times (length l) m) (cons x)). exact Hxs.
Qed.
Lemma key_gives k kv : key_type k -> has_type (wire k) kv -> filled kv -> exists p, gives (pread (rtt (shape k))) (write (wire k) kv) p /\
  exists key, key_for kv key /\ forall v l acc, store_all ((p, v) :: l) acc = store_all l (aset key v acc).
Proof.
  intros Hk Ht Hf. destruct Hk as [s n Hn|]; cbn [shape rtt pread wire] in *.
  - destruct Ht as (_ & z & -> & Hz). exists (PInt z). split; [now apply read_int_gives|]. exists (KInt z). split; [reflexivity|reflexivity].
  - destruct Ht as (s & -> & Hb & Hs). inversion Hf as [| |s' Hne| |]; subst. exists (PStr s). split; [now apply read_str_gives|]. exists (key_of s). split; [apply key_of_for|reflexivity].
Qed.
Lemma store_distinct (R : val * val -> pv * pv -> Prop) (l : list (val * val)) xs k : key_type k ->
  (forall x, In x l -> has_type (wire k) (fst x)) -> NoDup (map fst l) ->
  Forall2 (fun x y => R x y /\ exists key, key_for (fst x) key /\ forall v l acc, store_all ((fst y, v) :: l) acc = store_all l (aset key v acc)) l xs ->
  forall acc, (forall x key, In x l -> key_for (fst x) key -> ~ In key (map fst acc)) ->
  exists q, store_all xs acc = Val (PArr (acc ++ q)) /\ Forall2 (fun x e => key_for (fst x) (fst e) /\ exists y, R x y /\ snd y = snd e) l q.
Proof.
  intros Hk Ht HN H. induction H as [|x [p v] l xs (HR & key & Hkey & Es) _ IH]; intros acc Hacc.
  - exists []. rewrite app_nil_r. split; [reflexivity|constructor].
  - cbn [fst] in Es. rewrite Es. rewrite aset_new by (apply (Hacc x); [now left|exact Hkey]).
    cbn [map] in HN. inversion HN as [|? ? Hnin HN']; subst.
    destruct (IH (fun y Hy => Ht y (or_intror Hy)) HN' (acc ++ [(key, v)])) as (q & Eq & Hq).
    { intros y ky Hy Hky Hin. rewrite map_app in Hin. apply in_app_or in Hin as [Hin|[Hin|[]]]; [now apply (Hacc y ky (or_intror Hy) Hky)|]. cbn in Hin. subst ky.
      apply Hnin. rewrite <- (key_for_fun (fst y) (fst x) key); [now apply in_map| |exact Hky|exact Hkey].
      apply (key_kind k); [exact Hk|apply Ht; now right|apply Ht; now left]. }
    exists ((key, v) :: q). rewrite <- app_assoc in Eq. split; [exact Eq|]. constructor; [|exact Hq]. split; [exact Hkey|]. now exists (p, v).
Qed.
Definition rok (c : cty) : Prop := carried c -> forall v, has_type (wire c) v -> filled v -> exists p, gives (pread (rtt (shape c))) (write (wire c) v) p /\ represents c v p.
Lemma attribute_app n q pre fs : ~ In n (map fst pre) -> attribute n q fs -> attribute n q (pre ++ fs).
Proof.
  induction pre as [|[m x] pre IH]; intros H Ha; [exact Ha|]. cbn [app]. apply at_next; [intros ->; apply H; now left|]. apply IH; [|exact Ha]. intros K. apply H. now right.
Qed.
Lemma read_class ops : Forall (fun o => match o with OName _ => True | ONamed _ t | OPlain t => rok t end) ops -> Forall carried_op ops -> NoDup (names_of ops) ->
  forall v, has_type (wire (CClass ops)) v -> filled v -> exists fs,
  gives ((fix go (ms : list (list Z * rtype)) : @P A (list (list Z * pv)) :=
                    match ms with [] => ret [] | (m, t) :: r => bind (pread t) (fun v => bind (go r) (fun fs => ret ((m, v) :: fs))) end)
     (map (fun m => (fst m, rtt (snd m))) (mems ops))) (write (wire (CClass ops)) v) fs /\
  forall pre, (forall n, In n (names_of ops) -> ~ In n (map fst pre)) ->
  (fix members (ops : list cop) (v : val) : Prop :=
         match ops with
         | [] => v = VL []
         | OName _ :: r => members r v
         | ONamed n t :: r => exists x y q, v = VP x y /\ attribute n q (pre ++ fs) /\ represents t x q /\ members r y
         | OPlain _ :: _ => False
         end) ops v.
Proof.
  induction ops as [|o ops IH]; intros HI HC HN v Ht Hf.
  - destruct Ht as (l & -> & Hl & _). destruct l; [|discriminate]. exists []. split; [apply gives_ret|]. reflexivity.
  - pose proof (Forall_inv HC) as Hc. inversion Hc as [n Hn|n t Hn Hct]; subst.
    + destruct (IH (Forall_inv_tail HI) (Forall_inv_tail HC) HN v Ht Hf) as (fs & Hg & Hm). exists fs. split; [exact Hg|exact Hm].
    + destruct Ht as (x & y & -> & Hx & Hy). inversion Hf as [| | | |? ? Fx Fy]; subst. cbn [names_of flat_map app] in HN. fold (names_of ops) in HN. inversion HN as [|? ? Hnin HN']; subst.
      destruct (IH (Forall_inv_tail HI) (Forall_inv_tail HC) HN' y Hy Fy) as (fs & Hg & Hm).
      pose proof (Forall_inv HI) as Hr. cbn in Hr. destruct (Hr Hct x Hx Fx) as (p & Hp & Rp). exists ((n, p) :: fs). split.
      * cbn [mems flat_map app map fst snd]. fold (mems ops). change (wire (CClass (ONamed n t :: ops))) with (TPair (wire t) (wire (CClass ops))). cbn [write write_pair].
        eapply gives_bind; [exact Hp|]. match goal with |- gives (bind ?m _) _ _ => apply (gives_then m (fun fs => (n, p) :: fs)) end. exact Hg.
      * intros pre Hpre. exists x, y, p. split; [reflexivity|]. split.
        { apply attribute_app; [apply Hpre; now left|constructor]. }
        split; [exact Rp|]. specialize (Hm (pre ++ [(n, p)])). rewrite <- app_assoc in Hm. apply Hm. intros m Hin K. rewrite map_app in K.
        apply in_app_or in K as [K|[K|[]]]; [apply (Hpre m); [now right|exact K]|]. cbn in K. subst m. contradiction.
Qed.
Lemma read_ok c : rok c.
Proof.
  induction c as [c H|t IH|k t IHk IHt|ops IH] using cty_rect'; intros HC v Ht Hf.
  - inversion HC as [s n Hn| | | | |]; subst; try contradiction; cbn [shape rtt pread wire represents] in *.
    + destruct Ht as (_ & z & -> & Hz). exists (PInt z). split; [now apply read_int_gives|now exists z].
    + destruct Ht as (_ & z & -> & Hz). exists (PFloat z). split; [|now exists z]. unfold read_double. rewrite <- (le_pack 8 z Hz) at 2.
      change (write (TNum (Z.to_nat 8) false) (VN z)) with (pack 8 z).
      match goal with |- gives (bind _ (fun d => ret (@?f d))) _ _ => assert (E : PFloat (le_num (pack 8 z)) = f (PStr (pack 8 z))) by (cbv beta; rewrite pack_len; now rewrite firstn_all2 by (rewrite pack_len; lia)); rewrite E; apply (gives_then (fread 8) f (pack 8 z) (PStr (pack 8 z))) end.
      apply fread_gives; [lia|apply pack_len].
    + destruct Ht as (s & -> & Hb & Hs). inversion Hf as [| |s' Hne| |]; subst. exists (PStr s). split; [now apply read_str_gives|now exists s].
  - inversion HC as [| | |t' HC'| |]; subst. cbn [shape rtt pread wire represents] in *. destruct Ht as (l & -> & Hs & Hl). inversion Hf as [| | |l' Fl|]; subst.
    destruct (times_gives (pread (rtt (shape t))) (write (wire t)) (represents t) l) as (xs & Hxs & Rxs).
    { intros w Hw. rewrite Forall_forall in Hl, Fl. apply (IH HC'); auto. }
    exists (PArr (number xs)). split; [|exists l, xs; repeat split; exact Rxs]. cbn [write]. eapply gives_bind; [now apply size_gives|]. cbn [size_of]. rewrite Nat2Z.id.
    apply (gives_then (times (length l) (pread (rtt (shape t)))) (fun l => PArr (number l))). exact Hxs.
  - inversion HC as [| | | |k' t' Hk HC'|]; subst. cbn [shape rtt pread wire represents] in *. destruct Ht as (l & -> & Hs & Hl & Ho). inversion Hf as [| | |l' Fl|]; subst.
    assert (Fl' : forall x, In x l -> filled (fst x) /\ filled (snd x)).
    { intros x Hx. rewrite Forall_forall in Fl. specialize (Fl (VP (fst x) (snd x))). assert (F : filled (VP (fst x) (snd x))) by (apply Fl; apply in_map_iff; now exists x).
      inversion F; subst. now split. }
    rewrite Forall_forall in Hl.
    destruct (times_gives (bind (pread (rtt (shape k))) (fun x => bind (pread (rtt (shape t))) (fun y => ret (x, y)))) (fun x : val * val => write (wire k) (fst x) ++ write (wire t) (snd x))
      (fun x y => represents t (snd x) (snd y) /\ exists key, key_for (fst x) key /\ forall v l acc, store_all ((fst y, v) :: l) acc = store_all l (aset key v acc)) l) as (xs & Hxs & Rxs).
    { intros x Hx. destruct (Hl x Hx) as (Hkx & Htx). destruct (Fl' x Hx) as (Fk & Fv). destruct (key_gives k (fst x) Hk Hkx Fk) as (pk & Hpk & key & Hkey & Es).
      destruct (IHt HC' (snd x) Htx Fv) as (pv0 & Hpv & Rpv). exists (pk, pv0). split; [|split; [exact Rpv|now exists key]].
      eapply gives_bind; [exact Hpk|]. apply (gives_then (pread (rtt (shape t))) (fun y => (pk, y))). exact Hpv. }
    destruct (store_distinct (fun x y => represents t (snd x) (snd y)) l xs k Hk) with (acc := @nil (pkey * pv)) as (q & Eq & Hq).
    { intros x Hx. now apply Hl. }
    { assert (G : NoDup (map vfst (map (fun x : val * val => VP (fst x) (snd x)) l))).
      { apply sorted_keys_distinct; [|apply ascending_sorted; rewrite map_map; exact Ho]. intros x y Hx Hy. apply in_map_iff in Hx as (x0 & <- & Hx), Hy as (y0 & <- & Hy).
        apply (key_kind k); [exact Hk|now apply Hl|now apply Hl]. }
      rewrite map_map in G. exact G. }
    { exact Rxs. }
    { intros x key _ _ []. }
    exists (PArr q). split.
    + cbn [write]. rewrite map_length. eapply gives_bind; [now apply size_gives|]. cbn [size_of]. rewrite Nat2Z.id.
      assert (Ew : flat_map (write_pair (write (wire k)) (write (wire t))) (map (fun p : val * val => VP (fst p) (snd p)) l) = flat_map (fun x : val * val => write (wire k) (fst x) ++ write (wire t) (snd x)) l).
      { clear. induction l as [|x l IHl]; [reflexivity|]. cbn [map flat_map write_pair]. now rewrite IHl. }
      rewrite Ew. rewrite <- (app_nil_r (flat_map _ l)). eapply gives_bind; [exact Hxs|]. apply gives_lift. exact Eq.
    + exists l, q, q. repeat split; [apply Permutation_refl|]. clear - Hq. induction Hq as [|x e l q (K1 & y & R1 & Ey) _ IHq]; constructor; [|exact IHq]. rewrite <- Ey. now split.
  - inversion HC as [| | | | |ops' Ho Hn Hd]; subst. destruct (read_class ops IH Ho Hd v Ht Hf) as (fs & Hg & Hm). rewrite shape_class. cbn [rtt pread].
    exists (PObj (last (nams ops) []) fs). split; [|cbn [represents]; exists (last (nams ops) []), fs; split; [reflexivity|]; exact (Hm [] ltac:(intros n0 _ []))].
    match goal with |- gives (bind ?m _) _ _ => apply (gives_then m (fun fs => PObj (last (nams ops) []) fs)) end. exact Hg.
Qed.
End Reading.

(** ** A call *)
Section Calling.
Context {A : Type} (svc : service A).
Lemma bind_val {X Y} (m : @P A X) (f : X -> @P A Y) s x s' : m s = (Val x, s') -> bind m f s = f x s'.
Proof. intros E. unfold bind. now rewrite E. Qed.
Lemma bind_exn {X Y} (m : @P A X) (f : X -> @P A Y) s e s' : m s = (Exn e, s') -> bind m f s = (Exn e, s').
Proof. intros E. unfold bind. now rewrite E. Qed.
Lemma put_ok (s : @pst A) i p buf a b : has s i p buf a -> exists s', put b s = (Val tt, s') /\ has s' i p (buf ++ b) a.
Proof. intros (H1 & H2 & H3 & H4). eexists. split; [reflexivity|]. repeat split; cbn; congruence. Qed.
Lemma flush_ok ver (s : @pst A) u buf a a' out u' : has s [] (Some u) buf a -> serve (turns (u ++ buf)) false ver svc a (u ++ buf, true) = Ok (a', out, Waits u') ->
  exists s', flush ver svc s = (Val tt, s') /\ has s' out (Some u') [] a'.
Proof.
  intros (H1 & H2 & H3 & H4) E. unfold flush, send. rewrite H4. cbn [pending]. unfold run_worker. rewrite H3, H1, E. cbn [obind]. eexists. split; [reflexivity|].
  repeat split; cbn; assumption.
Qed.
Lemma flush_closed ver (s : @pst A) u buf a a' out : has s [] (Some u) buf a -> serve (turns (u ++ buf)) false ver svc a (u ++ buf, true) = Ok (a', out, Closed) ->
  exists s', flush ver svc s = (Val tt, s') /\ has s' out None [] a'.
Proof.
  intros (H1 & H2 & H3 & H4) E. unfold flush, send. rewrite H4. cbn [pending]. unfold run_worker. rewrite H3, H1, E. cbn [obind]. eexists. split; [reflexivity|].
  repeat split; cbn; assumption.
Qed.
Lemma gives_use {X} (m : @P A X) b x s pend buf a : gives m b x -> has s b pend buf a -> exists s', m s = (Val x, s') /\ has s' [] pend buf a.
Proof. intros H Hs. apply (H s [] pend buf a). now rewrite app_nil_r. Qed.
Lemma differs_same t : differs (PStr t) t = false.
Proof. cbn. now rewrite str_eqb_refl. Qed.
Lemma write_str_bytes s : write_str (PStr s) = Val (wstr s).
Proof. reflexivity. Qed.
Lemma ping_pong_ok ver (s : @pst A) a : has s [] (Some []) [] a -> exists s', ping_pong ver svc s = (Val tt, s') /\ has s' [] (Some []) [] a.
Proof.
  intros H. unfold ping_pong. rewrite write_str_bytes. rewrite (bind_val _ _ s (wstr PING) s) by reflexivity.
  destruct (put_ok s _ _ _ _ (wstr PING) H) as (s1 & E1 & H1). rewrite (bind_val _ _ _ _ _ E1). cbn [app] in H1.
  destruct (flush_ok ver s1 [] (wstr PING) a a (wstr PONG) [] H1 (serve_ping ver svc a)) as (s2 & E2 & H2). rewrite (bind_val _ _ _ _ _ E2).
  destruct (gives_use read_str (wstr PONG) (PStr PONG) s2 (Some []) [] a) as (s3 & E3 & H3); [|exact H2|].
  { apply read_str_gives; [unfold small; vm_compute; reflexivity|discriminate]. }
  rewrite (bind_val _ _ _ _ _ E3). rewrite differs_same. exists s3. now split.
Qed.
Lemma put_args_ok : forall args vs ps, Forall carried args -> stand_for args vs ps -> forall (s : @pst A) i p buf a, has s i p buf a ->
  exists bs s', put_args (map (fun c => rtt (shape c)) args) ps s = (Val tt, s') /\ has s' i p (buf ++ bs) a /\ forall rest, read_args (map wire args) (bs ++ rest, true) = Ok (vs, (rest, true)).
Proof.
  induction args as [|c args IH]; intros vs ps HC (Ht & Hr) s i p buf a H.
  - inversion Ht; subst. exists [], s. split; [reflexivity|]. split; [now rewrite app_nil_r|]. reflexivity.
  - cbn [map] in Ht. inversion Ht as [|t v ts vs' Hv Ht']; subst. cbn [combine] in Hr. inversion Hr as [|x q l ps' Hq Hr']; subst. cbn [fst snd] in Hq.
    destruct (write_ok c (Forall_inv HC) v q Hv Hq) as (b & Eb & Hb). cbn [map put_args hd tl]. rewrite Eb. rewrite (bind_val _ _ s b s) by reflexivity.
    destruct (put_ok s i p buf a b H) as (s1 & E1 & H1). rewrite (bind_val _ _ _ _ _ E1).
    destruct (IH vs' ps' (Forall_inv_tail HC) (conj Ht' Hr') s1 i p (buf ++ b) a H1) as (bs & s2 & E2 & H2 & R2). exists (b ++ bs), s2. split; [exact E2|]. split; [now rewrite app_assoc|].
    intros rest. cbn [read_args]. rewrite <- app_assoc, Hb. cbn [obind]. rewrite R2. reflexivity.
Qed.
Lemma serve_args ver f name g vs a a' x bs : bytes name -> small name -> ~ In name reserved -> lookup svc name = Some g -> int32 ver ->
  (forall rest, read_args (f_args g) (bs ++ rest, true) = Ok (vs, (rest, true))) -> f_body g a vs = (a', Ret x) ->
  serve (S (S f)) false ver svc a (wstr name ++ wint ver ++ bs, true) = Ok (a', wstr (str "OK") ++ write (f_ret g) x, Waits []).
Proof.
  intros Hb Hs Hr Hg Hv Hvs Hf. remember (S f) as f1. cbn [serve]. rewrite serve1_name, Hg, read_wint by assumption. cbn [obind snd negb andb].
  rewrite Z.eqb_refl. cbn [negb]. unfold invoke. specialize (Hvs []). rewrite app_nil_r in Hvs. rewrite Hvs. cbn [obind snd].
  replace (match f_args g with [] => true | _ :: _ => true end) with true by now destruct (f_args g).
  cbn [negb]. rewrite Hf. cbn [obind]. subst f1. rewrite serve_short. cbn [obind]. now rewrite app_nil_r.
Qed.
Lemma ident_name m : ident m -> bytes m /\ ~ In m reserved.
Proof.
  intros (c & r & -> & Hc & Hr). unfold letter in *. split.
  - constructor; [unfold is_byte; lia|]. eapply Forall_impl; [|exact Hr]. cbn beta. unfold is_byte. lia.
  - intros [K|[K|[]]]; injection K as K _; vm_compute in K; subst c; lia.
Qed.
Lemma wint_1 : write_int 4 (PInt 1) = Val (wint 1).
Proof. reflexivity. Qed.
Lemma call_proc_ok (s : @pst A) (c : client) m ret args f vs ps a a' v : procedure m c = Some (m, (rtt (shape ret), map (fun c => rtt (shape c)) args)) -> ident m -> small m ->
  carried ret -> Forall carried args -> stand_for args vs ps -> registered svc m f -> f_args f = map wire args -> f_ret f = wire ret -> f_body f a vs = (a', Ret v) ->
  has_type (wire ret) v -> filled v -> has s [] (Some []) [] a ->
  exists p s', call_proc 1 svc c m ps s = (Val p, s') /\ represents ret v p /\ has s' [] (Some []) [] a' /\ exists s0, pread (rtt (shape ret)) s0 = (Val p, s').
Proof.
  intros Hp Hi Hsm HCr HCa Hst Hreg Hfa Hfr Hbody Htv Hfv H. unfold call_proc. rewrite Hp.
  destruct (ping_pong_ok 1 s a H) as (s1 & E1 & H1). rewrite (bind_val _ _ _ _ _ E1).
  rewrite write_str_bytes. rewrite (bind_val _ _ s1 (wstr m) s1) by reflexivity. destruct (put_ok s1 _ _ _ _ (wstr m) H1) as (s2 & E2 & H2). rewrite (bind_val _ _ _ _ _ E2). cbn [app] in H2.
  rewrite wint_1. rewrite (bind_val _ _ s2 (wint 1) s2) by reflexivity. destruct (put_ok s2 _ _ _ _ (wint 1) H2) as (s3 & E3 & H3). rewrite (bind_val _ _ _ _ _ E3).
  destruct (put_args_ok args vs ps HCa Hst s3 _ _ _ _ H3) as (bs & s4 & E4 & H4 & R4). rewrite (bind_val _ _ _ _ _ E4). rewrite <- app_assoc in H4.
  destruct (ident_name m Hi) as (Hb & Hr). rewrite <- Hfa in R4.
  destruct (flush_ok 1 s4 [] _ a a' (wstr (str "OK") ++ write (f_ret f) v) [] H4) as (s5 & E5 & H5).
  { cbn [app]. unfold turns. apply (serve_args 1 _ m f vs a a' v bs); try assumption; [now apply lookup_registered|unfold int32; lia]. }
  rewrite (bind_val _ _ _ _ _ E5). unfold check_code.
  assert (Gok : gives (A := A) read_str (wstr (str "OK")) (PStr (str "OK"))) by (apply read_str_gives; [unfold small; vm_compute; reflexivity|discriminate]).
  destruct (Gok _ _ _ _ _ H5) as (s6 & E6 & H6). rewrite (bind_val _ _ _ tt s6) by (rewrite (bind_val _ _ _ _ _ E6); now rewrite differs_same).
  destruct (read_ok (A := A) ret HCr v Htv Hfv) as (p & Gp & Rp). rewrite Hfr in H6. destruct (gives_use _ _ _ _ _ _ _ Gp H6) as (s7 & E7 & H7). exists p, s7. split; [exact E7|]. split; [exact Rp|]. split; [exact H7|]. now exists s6.
Qed.
(** A server of another version refuses. *)
Lemma call_version ver (s : @pst A) (c : client) m ret args f vs ps a : ver <> 1 -> int32 ver -> procedure m c = Some (m, (ret, map (fun c => rtt (shape c)) args)) -> ident m -> small m ->
  Forall carried args -> stand_for args vs ps -> registered svc m f -> has s [] (Some []) [] a ->
  exists s', call_proc ver svc c m ps s = (Exn (str "result code is not OK: VersionMismatch " ++ show_int ver ++ str " 1"), s') /\ has s' [] None [] a.
Proof.
  intros Hver Hver32 Hp Hi Hsm HCa Hst Hreg H. unfold call_proc. rewrite Hp.
  destruct (ping_pong_ok ver s a H) as (s1 & E1 & H1). rewrite (bind_val _ _ _ _ _ E1).
  rewrite write_str_bytes. rewrite (bind_val _ _ s1 (wstr m) s1) by reflexivity. destruct (put_ok s1 _ _ _ _ (wstr m) H1) as (s2 & E2 & H2). rewrite (bind_val _ _ _ _ _ E2). cbn [app] in H2.
  rewrite wint_1. rewrite (bind_val _ _ s2 (wint 1) s2) by reflexivity. destruct (put_ok s2 _ _ _ _ (wint 1) H2) as (s3 & E3 & H3). rewrite (bind_val _ _ _ _ _ E3).
  destruct (put_args_ok args vs ps HCa Hst s3 _ _ _ _ H3) as (bs & s4 & E4 & H4 & R4). rewrite (bind_val _ _ _ _ _ E4). rewrite <- app_assoc in H4.
  destruct (ident_name m Hi) as (Hb & Hr).
  destruct (flush_closed ver s4 [] _ a a (wstr (str "VersionMismatch " ++ show_int ver ++ str " " ++ show_int 1)) H4) as (s5 & E5 & H5).
  { cbn [app]. unfold turns. apply (serve_mismatch ver svc a _ false m f 1 bs); try assumption; [now apply lookup_registered|unfold int32; lia|congruence]. }
  rewrite (bind_val _ _ _ _ _ E5). unfold check_code. set (msg := str "VersionMismatch " ++ show_int ver ++ str " " ++ show_int 1) in *.
  assert (Gm : gives (A := A) read_str (wstr msg) (PStr msg)).
  { apply read_str_gives; [|discriminate]. unfold small, msg. rewrite !app_length. pose proof (show_int_len ver Hver32). change (length (str "VersionMismatch ")) with 16%nat. change (length (str " ")) with 1%nat.
    change (length (show_int 1)) with 1%nat. lia. }
  destruct (gives_use _ _ _ _ _ _ _ Gm H5) as (s6 & E6 & H6). exists s6. split; [|exact H6]. apply bind_exn. rewrite (bind_val _ _ _ _ _ E6).
  assert (D : differs (PStr msg) (str "OK") = true) by (cbn; rewrite str_eqb_neq; [reflexivity|discriminate]). rewrite D. reflexivity.
Qed.
End Calling.

(** ** The generator *)
(** std::map *)
Definition ltb {T} (x y : list Z * T) : Prop := bytes_cmp (fst x) (fst y) = Lt.
Lemma mset_in {T} n (x : T) m k y : In (k, y) (mset n x m) -> (k = n /\ y = x) \/ In (k, y) m.
Proof.
  induction m as [|[k1 y1] m IH]; cbn [mset].
  - intros [[= -> ->]|[]]. now left.
  - destruct (bytes_cmp n k1); cbn [In].
    + intros [[= -> ->]|H]; [now left|right; now right].
    + intros [[= -> ->]|[H|H]]; [now left|right; now left|right; now right].
    + intros [H|H]; [right; now left|]. destruct (IH H) as [?|?]; [now left|right; now right].
Qed.
Lemma mset_has {T} n (x : T) m : In (n, x) (mset n x m).
Proof. induction m as [|[k1 y1] m IH]; cbn [mset]; [now left|]. destruct (bytes_cmp n k1); cbn [In]; [now left|now left|now right]. Qed.
Lemma mset_keeps {T} n (x : T) m k y : In (k, y) m -> k <> n -> In (k, y) (mset n x m).
Proof.
  induction m as [|[k1 y1] m IH]; cbn [mset]; [intros []|]. intros [[= -> ->]|H] N; destruct (bytes_cmp n _) eqn:E; cbn [In].
  - apply bytes_cmp_eq in E. congruence.
  - right. now left.
  - now left.
  - now right.
  - right. now right.
  - right. now apply IH.
Qed.
Lemma mset_keeps_key {T} n (x : T) m k : In k (map fst m) -> In k (map fst (mset n x m)).
Proof.
  intros H. apply in_map_iff in H as ([k' y] & <- & H). cbn [fst]. destruct (bytes_cmp k' n) eqn:E.
  - apply bytes_cmp_eq in E. subst. exact (in_map fst _ _ (mset_has n x m)).
  - apply (in_map fst _ (k', y)). apply mset_keeps; [exact H|intros ->]. now rewrite bytes_cmp_refl in E.
  - apply (in_map fst _ (k', y)). apply mset_keeps; [exact H|intros ->]. now rewrite bytes_cmp_refl in E.
Qed.
Lemma mset_sorted {T} n (x : T) m : StronglySorted ltb m -> StronglySorted ltb (mset n x m).
Proof.
  induction m as [|[k1 y1] m IH]; cbn [mset]; intros H; [constructor; constructor|]. inversion H as [|? ? Hs Hf]; subst. destruct (bytes_cmp n k1) eqn:E.
  - apply bytes_cmp_eq in E. subst. constructor; [exact Hs|exact Hf].
  - constructor; [exact H|]. constructor; [exact E|]. eapply Forall_impl; [|exact Hf]. intros [k y]. unfold ltb. cbn [fst]. intros L. now apply (bytes_cmp_trans _ k1).
  - constructor; [now apply IH|]. apply Forall_forall. intros [k y] Hk. apply mset_in in Hk as [(-> & ->)|Hk].
    + unfold ltb. cbn [fst]. rewrite bytes_cmp_anti, E. reflexivity.
    + now apply (proj1 (Forall_forall _ _) Hf).
Qed.
Lemma sorted_nodup {T} (m : list (list Z * T)) : StronglySorted ltb m -> NoDup (map fst m).
Proof.
  induction 1 as [|[k y] m Hs IH Hf]; cbn [map]; constructor; [|exact IH]. cbn [fst]. intros H. apply in_map_iff in H as ([k' y'] & <- & H).
  apply (proj1 (Forall_forall _ _) Hf) in H. unfold ltb in H. cbn [fst] in H. now rewrite bytes_cmp_refl in H.
Qed.

(** Trees that PHP can handle *)
Definition okpart (t : tree) : Prop :=
  match t with
  | TClass n ms => ident n /\ Forall (fun m => ident (fst m)) ms /\ NoDup (map fst ms)
  | Reflect_Spec.TBool | TChar | TStream => False
  | _ => True
  end.
Definition oktree (t : tree) : Prop := Forall okpart (parts t).
Lemma last_in {T} (l : list T) d : l <> [] -> In (last l d) l.
Proof. intros H. destruct (exists_last H) as (l' & x & ->). rewrite last_last. apply in_or_app. right. now left. Qed.
Lemma mems_names ops : Forall carried_op ops -> map fst (mems ops) = names_of ops.
Proof. induction 1 as [|o ops Ho _ IH]; [reflexivity|]. unfold mems, names_of in *. cbn [flat_map]. rewrite map_app, IH. now inversion Ho; subst. Qed.
Lemma oktree_class n ms : oktree (TClass n ms) <-> ident n /\ Forall (fun m => ident (fst m)) ms /\ NoDup (map fst ms) /\ Forall (fun m => oktree (snd m)) ms.
Proof.
  unfold oktree. cbn [parts]. rewrite Forall_cons_iff. cbn [okpart].
  assert (E : Forall okpart (flat_map (fun m => parts (snd m)) ms) <-> Forall (fun m => Forall okpart (parts (snd m))) ms).
  { induction ms as [|m ms IH]; [split; constructor|]. cbn [flat_map]. rewrite Forall_app, IH, Forall_cons_iff. reflexivity. }
  rewrite E. tauto.
Qed.
Lemma carried_oktree c : carried c -> oktree (shape c).
Proof.
  induction c as [c H|t IH|k t IHk IHt|ops IH] using cty_rect'; intros C.
  - inversion C; subst; try contradiction; cbn [shape]; repeat constructor.
  - inversion C; subst. cbn [shape]. unfold oktree. cbn [parts]. constructor; [exact I|]. now apply IH.
  - inversion C as [| | | |k' t' Kk Ct|]; subst. cbn [shape]. unfold oktree. cbn [parts]. constructor; [exact I|]. apply Forall_app. split; [|now apply IHt].
    inversion Kk; subst; cbn [shape parts]; repeat constructor.
  - inversion C as [| | | | |ops' Ho (n & Hn) Nd]; subst. cbn [shape]. fold (nams ops) (mems ops). apply oktree_class. split; [|split; [|split]].
    + assert (In (last (nams ops) []) (nams ops)).
      { apply last_in. intros E. assert (In n (nams ops)); [|now rewrite E in H]. unfold nams. apply in_flat_map. exists (OName n). split; [exact Hn|now left]. }
      unfold nams in H at 2. apply in_flat_map in H as (o & Io & Eo). apply (proj1 (Forall_forall _ _) Ho) in Io. destruct Io as [n' Hi|n' t Hi Ct]; [|destruct Eo].
      destruct Eo as [<-|[]]. exact Hi.
    + clear - Ho. induction Ho as [|o ops Ho _ IHo]; [constructor|]. unfold mems in *. cbn [flat_map]. apply Forall_app. split; [|exact IHo]. destruct Ho; repeat constructor. exact H.
    + now rewrite mems_names.
    + clear - Ho IH. induction Ho as [|o ops Ho _ IHo]; [constructor|]. unfold mems in *. cbn [flat_map]. apply Forall_app. split; [|apply IHo; exact (Forall_inv_tail IH)].
      apply Forall_inv in IH. destruct Ho; repeat constructor. apply IH. exact H0.
Qed.
Lemma ident_nonempty n : ident n -> n <> [].
Proof. intros (c & r & -> & _). discriminate. Qed.
Lemma name_types_id t : oktree t -> forall a, name_types t a = (t, a).
Proof.
  induction t as [c H|t IH|k t IHk IHt|n ms IH] using tree_rect'; intros O a.
  - destruct c; try contradiction; reflexivity.
  - cbn [name_types]. unfold oktree in O. cbn [parts] in O. rewrite IH by exact (Forall_inv_tail O). reflexivity.
  - cbn [name_types]. unfold oktree in O. cbn [parts] in O. apply Forall_inv_tail, Forall_app in O as (Ok & Ot). rewrite IHk by exact Ok. rewrite IHt by exact Ot. reflexivity.
  - apply oktree_class in O as (Hn & _ & _ & Hms). cbn [name_types]. pose proof (ident_nonempty n Hn). destruct n as [|c n]; [congruence|].
    assert (E : forall a, (fix each (ms : list (list Z * tree)) (a : nat) : list (list Z * tree) * nat :=
                         match ms with
                         | [] => ([], a)
                         | (m, t) :: r => let '(t, a) := name_types t a in let '(r, a) := each r a in ((m, t) :: r, a)
                         end) ms a = (ms, a)).
    { clear - IH Hms. induction ms as [|[m t] ms IHm]; intros a; [reflexivity|]. rewrite (Forall_inv IH (Forall_inv Hms)). rewrite IHm; [reflexivity|exact (Forall_inv_tail IH)|exact (Forall_inv_tail Hms)]. }
    now rewrite E.
Qed.
Lemma name_all_id {T} (f : T -> nat -> T * nat) l : Forall (fun x => forall a, f x a = (x, a)) l -> forall a, name_all f l a = (l, a).
Proof. induction 1 as [|x l H _ IH]; intros a; [reflexivity|]. cbn [name_all]. now rewrite H, IH. Qed.

Definition refs_ok (refs : list (list Z * list (list Z * (tree * list tree)))) : Prop := Forall oktree (trees_of refs).
Lemma name_refs refs : refs_ok refs -> forall a, name_all name_service refs a = (refs, a).
Proof.
  intros H. apply name_all_id. apply Forall_forall. intros [n ms] Hs a. unfold name_service. rewrite (name_all_id name_method); [reflexivity|].
  apply Forall_forall. intros [m (t & ts)] Hm b. unfold name_method.
  assert (G : forall x, In x (t :: ts) -> oktree x).
  { intros x Hx. apply (proj1 (Forall_forall _ _) H). unfold trees_of. apply in_flat_map. exists (n, ms). split; [exact Hs|]. cbn [snd]. apply in_flat_map. exists (m, (t, ts)). now split. }
  rewrite name_types_id by (apply G; now left). rewrite (name_all_id name_types); [reflexivity|]. apply Forall_forall. intros x Hx c. apply name_types_id, G. now right.
Qed.
(** What reflect_all gives *)
Lemma types_of_args_ok l : types_of_args l = Ok (map shape l).
Proof. induction l as [|c l IH]; [reflexivity|]. cbn [types_of_args map]. rewrite get_type_shape. cbn [obind]. rewrite IH. reflexivity. Qed.
Definition madd (m : list (list Z * (tree * list tree))) (p : list Z * (cty * list cty)) := mset (fst p) (shape (fst (snd p)), map shape (snd (snd p))) m.
Lemma reflect_members_ok l : forall m, reflect_members l m = Ok (fold_left madd l m).
Proof.
  induction l as [|[n (c & cs)] l IH]; intros m; [reflexivity|]. cbn [reflect_members fold_left]. rewrite get_type_shape. cbn [obind]. rewrite types_of_args_ok. cbn [obind]. now rewrite IH.
Qed.
Definition reflected (s : ssig) : list (list Z * (tree * list tree)) := fold_left madd (s_procs s) [].
Lemma reflect_all_ok l : reflect_all l = Ok (map (fun s => (s_name s, reflected s)) l).
Proof. induction l as [|s l IH]; [reflexivity|]. cbn [reflect_all map]. rewrite reflect_members_ok. cbn [obind]. rewrite IH. reflexivity. Qed.
Lemma fold_madd_sorted l : forall m, StronglySorted ltb m -> StronglySorted ltb (fold_left madd l m).
Proof. induction l as [|p l IH]; intros m H; [exact H|]. cbn [fold_left]. apply IH. now apply mset_sorted. Qed.
Lemma fold_madd_in l : forall m n t ts, In (n, (t, ts)) (fold_left madd l m) -> In (n, (t, ts)) m \/ exists c cs, In (n, (c, cs)) l /\ t = shape c /\ ts = map shape cs.
Proof.
  induction l as [|[k (c & cs)] l IH]; intros m n t ts H; [now left|]. cbn [fold_left] in H. apply IH in H as [H|(c' & cs' & Hc & E)].
  - unfold madd in H. apply mset_in in H as [(-> & [= -> ->])|H]; [|now left]. right. exists c, cs. split; [now left|now split].
  - right. exists c', cs'. split; [now right|exact E].
Qed.
Lemma fold_madd_keeps l : forall m x, In x m -> ~ In (fst x) (map fst l) -> In x (fold_left madd l m).
Proof.
  induction l as [|p l IH]; intros m [k y] H N; [exact H|]. cbn [fold_left]. apply IH.
  - unfold madd. apply mset_keeps; [exact H|]. intros E. apply N. left. now rewrite E.
  - intros I. apply N. now right.
Qed.
Lemma fold_madd_has l : forall m n c cs, NoDup (map fst l) -> In (n, (c, cs)) l -> In (n, (shape c, map shape cs)) (fold_left madd l m).
Proof.
  induction l as [|p l IH]; intros m n c cs Nd H; [destruct H|]. cbn [map] in Nd. inversion Nd as [|? ? Np Nl]; subst. cbn [fold_left]. destruct H as [->|H]; [|now apply IH].
  apply fold_madd_keeps; [|exact Np]. unfold madd. cbn [fst snd]. apply mset_has.
Qed.
Lemma nodup_lower (l : list (list Z)) : NoDup (map lower l) -> NoDup l.
Proof. apply NoDup_map_inv. Qed.
Lemma trees_reflected sigs t : In t (trees_of (map (fun s => (s_name s, reflected s)) sigs)) -> exists c, In c (types_of sigs) /\ t = shape c.
Proof.
  unfold trees_of. intros H. apply in_flat_map in H as (x & Hx & Ht). apply in_map_iff in Hx as (s & <- & Hs). cbn [snd] in Ht. apply in_flat_map in Ht as ([n (r & ts)] & Hp & Ht).
  apply fold_madd_in in Hp as [[]|(c & cs & Hc & -> & ->)]. cbn [fst snd] in Ht.
  assert (exists c', In c' (c :: cs) /\ t = shape c') as (c' & Hc' & ->).
  { destruct Ht as [<-|Ht]; [exists c; split; [now left|reflexivity]|]. apply in_map_iff in Ht as (c' & <- & Hc'). exists c'. split; [now right|reflexivity]. }
  exists c'. split; [|reflexivity]. unfold types_of. apply in_flat_map. exists s. split; [exact Hs|]. apply in_flat_map. exists (n, (c, cs)). now split.
Qed.
(** The classes collected *)
Lemma flat_traverse ts : flat_map traverse ts = flat_map parts ts.
Proof. induction ts as [|t ts IH]; [reflexivity|]. cbn [flat_map]. now rewrite traverse_parts, IH. Qed.
Definition class_step (m : list (list Z * list (list Z * tree))) (t : tree) := class_entry t m.
Lemma fold_class_sorted l : forall m, StronglySorted ltb m -> StronglySorted ltb (fold_left class_step l m).
Proof. induction l as [|p l IH]; intros m H; [exact H|]. cbn [fold_left]. apply IH. destruct p; try exact H. now apply mset_sorted. Qed.
Lemma fold_class_in l : forall m n ms, In (n, ms) (fold_left class_step l m) -> In (n, ms) m \/ In (TClass n ms) l.
Proof.
  induction l as [|p l IH]; intros m n ms H; [now left|]. cbn [fold_left] in H. apply IH in H as [H|H]; [|right; now right].
  destruct p; try (left; exact H). unfold class_step, class_entry in H. apply mset_in in H as [(-> & ->)|H]; [right; now left|now left].
Qed.
Lemma fold_class_key l : forall m n, In n (map fst m) \/ (exists ms, In (TClass n ms) l) -> In n (map fst (fold_left class_step l m)).
Proof.
  induction l as [|p l IH]; intros m n H; [destruct H as [H|(ms & [])]; exact H|]. cbn [fold_left]. apply IH. destruct H as [H|(ms & [->|H])].
  - left. destruct p; try exact H. now apply mset_keeps_key.
  - left. cbn [class_step class_entry]. exact (in_map fst _ _ (mset_has n ms m)).
  - right. now exists ms.
Qed.
Lemma name_members_id ms : Forall (fun m => ident (fst m)) ms -> forall c, name_members ms c = (map (fun m => (fst m, print_typeinfo (snd m))) ms, c).
Proof.
  induction 1 as [|[n t] ms H _ IH]; intros c; [reflexivity|]. cbn [name_members map fst snd]. apply ident_nonempty in H. cbn [fst] in H. destruct n; [congruence|]. now rewrite IH.
Qed.
Definition print_class (x : list Z * list (list Z * tree)) : list Z * list (list Z * texpr) := (fst x, map (fun m => (fst m, print_typeinfo (snd m))) (snd x)).
Lemma define_classes_id l : Forall (fun x => Forall (fun m => ident (fst m)) (snd x)) l -> forall c, define_classes l c = map print_class l.
Proof. induction 1 as [|[n ms] l H _ IH]; intros c; [reflexivity|]. cbn [define_classes map]. rewrite name_members_id by exact H. now rewrite IH. Qed.

Fixpoint height (t : tree) : nat :=
  match t with
  | TArray t => height t
  | Reflect_Spec.TMap k v => Nat.max (height k) (height v)
  | TClass _ ms => S (list_max (map (fun m => height (snd m)) ms))
  | _ => 0%nat
  end.
Lemma letterb_ok c : letter c -> letterb c = true.
Proof. unfold letter, letterb. intros [H|[H|H]]; repeat (apply orb_true_iff; first [left; lia|right]); lia. Qed.
Lemma identb_ok n : ident n -> identb n = true.
Proof.
  intros (c & r & -> & Hc & Hr). cbn [identb]. rewrite letterb_ok by exact Hc. cbn [andb]. apply forallb_forall. intros x Hx. apply (proj1 (Forall_forall _ _) Hr) in Hx as [Hx|Hx].
  - now rewrite letterb_ok.
  - apply orb_true_iff. right. unfold isdigit. lia.
Qed.
Lemma nodupb_ok l : NoDup l -> nodupb l = true.
Proof.
  induction 1 as [|x l H _ IH]; [reflexivity|]. cbn [nodupb]. rewrite IH, andb_true_r. apply negb_true_iff. destruct (existsb (str_eqb x) l) eqn:E; [|reflexivity].
  apply existsb_exists in E as (y & Hy & E). apply str_eqb_eq in E. now subst.
Qed.
Lemma absent l x : ~ In x l -> negb (existsb (str_eqb x) l) = true.
Proof. intros H. apply negb_true_iff. destruct (existsb (str_eqb x) l) eqn:E; [|reflexivity]. apply existsb_exists in E as (y & Hy & E). apply str_eqb_eq in E. now subst. Qed.
Lemma whole_ok t : oktree t -> whole (print_typeinfo t) = true.
Proof.
  induction t as [c H|t IH|k t IHk IHt|n ms IH] using tree_rect'; intros O.
  - unfold oktree in O. destruct c; try contradiction; apply Forall_inv in O; first [contradiction|reflexivity].
  - cbn [print_typeinfo whole]. apply IH. exact (Forall_inv_tail O).
  - cbn [print_typeinfo whole]. unfold oktree in O. cbn [parts] in O. apply Forall_inv_tail, Forall_app in O as (Ok & Ot). now rewrite IHk, IHt.
  - reflexivity.
Qed.
Lemma lower_app a b : lower (a ++ b) = lower a ++ lower b.
Proof. apply map_app. Qed.
Lemma ident_client n : ident n -> ident (n ++ str "_client").
Proof.
  intros (c & r & -> & Hc & Hr). exists c, (r ++ str "_client"). split; [reflexivity|]. split; [exact Hc|]. apply Forall_app. split; [exact Hr|].
  change (str "_client") with [95; 99; 108; 105; 101; 110; 116]. unfold letter. repeat (apply Forall_cons; [left; lia|]). constructor.
Qed.
Lemma nodup_app {T} (a b : list T) : NoDup a -> NoDup b -> (forall x, In x a -> ~ In x b) -> NoDup (a ++ b).
Proof.
  induction 1 as [|x a Hx _ IH]; intros Hb D; [exact Hb|]. cbn [app]. constructor; [|apply IH; [exact Hb|intros y Hy; apply D; now right]].
  intros I. apply in_app_iff in I as [I|I]; [contradiction|]. exact (D x (or_introl eq_refl) I).
Qed.
Lemma nodup_map_on {T U} (f : T -> U) l : NoDup l -> (forall x y, In x l -> In y l -> f x = f y -> x = y) -> NoDup (map f l).
Proof.
  induction 1 as [|x l Hx _ IH]; intros H; [constructor|]. cbn [map]. constructor.
  - intros I. apply in_map_iff in I as (y & E & Hy). assert (y = x) by (apply H; [now right|now left|exact E]). now subst.
  - apply IH. intros a b Ha Hb. apply H; now right.
Qed.
Lemma parts_trans t : forall y z, In y (parts t) -> In z (parts y) -> In z (parts t).
Proof.
  induction t as [c H|t IH|k t IHk IHt|n ms IH] using tree_rect'; intros y z Hy Hz.
  - destruct c; try contradiction; cbn [parts] in Hy; destruct Hy as [<-|[]]; exact Hz.
  - cbn [parts] in Hy. destruct Hy as [<-|Hy]; [exact Hz|]. cbn [parts]. right. now apply (IH y).
  - cbn [parts] in Hy. destruct Hy as [<-|Hy]; [exact Hz|]. cbn [parts]. right. apply in_or_app. apply in_app_iff in Hy as [Hy|Hy]; [left; now apply (IHk y)|right; now apply (IHt y)].
  - cbn [parts] in Hy. destruct Hy as [<-|Hy]; [exact Hz|]. cbn [parts]. right. apply in_flat_map in Hy as (m & Hm & Hy). apply in_flat_map. exists m. split; [exact Hm|].
    exact (proj1 (Forall_forall _ _) IH m Hm y z Hy Hz).
Qed.
(** The generated program *)
Section Program.
Context (taken : list (list Z)) (sigs : list ssig) (S : suitable taken sigs).
Let refs := map (fun s => (s_name s, reflected s)) sigs.
Let cls := collect (trees_of refs).
Lemma refs_good : refs_ok refs.
Proof. apply Forall_forall. intros t Ht. apply trees_reflected in Ht as (c & Hc & ->). apply carried_oktree. exact (proj1 (Forall_forall _ _) (su_types _ _ S) c Hc). Qed.
Lemma cls_mentioned n ms : In (n, ms) cls -> mentioned sigs (TClass n ms).
Proof.
  unfold cls, collect. rewrite flat_traverse. intros H. apply (fold_class_in _ [] n ms) in H as [[]|H]. apply in_flat_map in H as (t & Ht & Hp). apply trees_reflected in Ht as (c & Hc & ->).
  split; [exact I|]. now exists c.
Qed.
Lemma part_ok t n ms : mentioned sigs t -> t = TClass n ms -> ident n /\ Forall (fun m => ident (fst m)) ms /\ NoDup (map fst ms).
Proof.
  intros (_ & c & Hc & Hp) ->. pose proof (carried_oktree c (proj1 (Forall_forall _ _) (su_types _ _ S) c Hc)) as O. exact (proj1 (Forall_forall _ _) O _ Hp).
Qed.
Definition prog : program := {| classes := map print_class cls;
  clients := map (fun s => (fst s, map (fun p => (fst p, (print_typeinfo (fst (snd p)), map print_typeinfo (snd (snd p))))) (snd s))) refs |}.
Lemma generate_ok : generate sigs = Ok prog.
Proof.
  unfold generate. rewrite reflect_all_ok. cbn [obind]. fold refs. rewrite (name_refs refs refs_good). unfold prog. rewrite define_classes_id; [reflexivity|].
  apply Forall_forall. intros [n ms] H. apply cls_mentioned in H. exact (proj1 (proj2 (part_ok _ n ms H eq_refl))).
Qed.
Lemma trees_in t : In t (trees_of refs) -> forall n ms, In (TClass n ms) (parts t) -> In (n, ms) cls.
Proof.
  intros Ht n ms Hp. assert (K : In n (map fst cls)).
  { unfold cls, collect. rewrite flat_traverse. apply (fold_class_key _ [] n). right. exists ms. apply in_flat_map. now exists t. }
  apply in_map_iff in K as ([n' ms'] & E & K). cbn [fst] in E. subst n'. pose proof (cls_mentioned _ _ K) as M1.
  assert (M2 : mentioned sigs (TClass n ms)) by (apply trees_reflected in Ht as (c & Hc & ->); split; [exact I|now exists c]).
  pose proof (su_classes _ _ S _ _ M2 M1 eq_refl) as [= ->]. exact K.
Qed.
Lemma class_named_ok n ms : In (n, ms) cls -> class_named n (map print_class cls) = Some (print_class (n, ms)).
Proof.
  intros H. assert (G : forall l, (forall x, In x l -> In x cls) -> In (n, ms) l -> class_named n (map print_class l) = Some (print_class (n, ms))).
  { induction l as [|[k ks] l IH]; intros Hl Hi; [destruct Hi|]. cbn [map class_named]. cbn [print_class fst].
    destruct (str_eqb (lower k) (lower n)) eqn:E.
    - apply str_eqb_eq in E. assert (M : mentioned sigs (TClass k ks)) by (apply cls_mentioned, Hl; now left). pose proof (su_classes _ _ S _ _ M (cls_mentioned _ _ H) E) as [= -> ->]. reflexivity.
    - destruct Hi as [[= -> ->]|Hi]; [now rewrite str_eqb_refl in E|]. apply IH; [|exact Hi]. intros x Hx. apply Hl. now right. }
  now apply G.
Qed.
Lemma eval_ok t : oktree t -> (forall n ms, In (TClass n ms) (parts t) -> In (n, ms) cls) -> forall d, (height t <= d)%nat -> eval d (map print_class cls) (print_typeinfo t) = Val (rtt t).
Proof.
  unfold eval. induction t as [c H|t IH|k t IHk IHt|n ms IH] using tree_rect'; intros O I d Hd.
  - unfold oktree in O. destruct c; try contradiction; apply Forall_inv in O; first [contradiction|reflexivity].
  - cbn [print_typeinfo eval_with rtt]. rewrite IH; [reflexivity| | |exact Hd].
    + exact (Forall_inv_tail O).
    + intros n ms Hp. apply I. cbn [parts]. now right.
  - cbn [print_typeinfo eval_with rtt]. unfold oktree in O. cbn [parts] in O. apply Forall_inv_tail, Forall_app in O as (Ok & Ot). cbn [height] in Hd.
    rewrite IHk; [|exact Ok| |lia]. 2:{ intros n ms Hp. apply I. cbn [parts]. right. apply in_or_app. now left. }
    cbn [pbind]. rewrite IHt; [reflexivity|exact Ot| |lia]. intros n ms Hp. apply I. cbn [parts]. right. apply in_or_app. now right.
  - cbn [print_typeinfo eval_with]. cbn [height] in Hd. destruct d as [|d]; [lia|]. cbn [typeinfo]. rewrite (class_named_ok n ms) by (apply I; cbn [parts]; now left).
    cbn [print_class fst snd]. rewrite <- (each_map _ (fun m : list Z * tree => (fst m, print_typeinfo (snd m)))).
    assert (E : each (fun m : list Z * tree => let^ t := eval_with (typeinfo d (map print_class cls)) (print_typeinfo (snd m)) in Val (fst m, t)) ms = Val (map (fun m => (fst m, rtt (snd m))) ms)).
    { apply oktree_class in O as (_ & _ & _ & Hms). assert (Hd' : Forall (fun m => (height (snd m) <= d)%nat) ms).
      { assert (Hd2 : (list_max (map (fun m => height (snd m)) ms) <= d)%nat) by lia. apply list_max_le in Hd2. rewrite Forall_map in Hd2. exact Hd2. }
      assert (I' : forall m, In m ms -> forall n' ms', In (TClass n' ms') (parts (snd m)) -> In (n', ms') cls).
      { intros m Hm n' ms' Hp. apply I. cbn [parts]. right. apply in_flat_map. now exists m. }
      clear - IH Hms Hd' I'. induction ms as [|m ms IHm]; [reflexivity|]. cbn [each map].
      rewrite (Forall_inv IH (Forall_inv Hms) (I' m (or_introl eq_refl)) d (Forall_inv Hd')). cbn [pbind].
      rewrite IHm; [reflexivity|exact (Forall_inv_tail IH)|exact (Forall_inv_tail Hms)|exact (Forall_inv_tail Hd')|]. intros m' Hm'. apply I'. now right. }
    cbn [fst snd] in E |- *. rewrite E. reflexivity.
Qed.
Lemma sig_procs s : In s sigs -> Forall (fun p => ident (fst p) /\ small (fst p)) (s_procs s) /\ NoDup (map (fun p => lower (fst p)) (s_procs s)).
Proof. intros H. exact (proj1 (Forall_forall _ _) (su_procs _ _ S) s H). Qed.
Lemma reflected_in s n t ts : In (n, (t, ts)) (reflected s) -> exists c cs, In (n, (c, cs)) (s_procs s) /\ t = shape c /\ ts = map shape cs.
Proof. intros H. apply fold_madd_in in H as [[]|H]. exact H. Qed.
Lemma reflected_oktree s n t ts : In s sigs -> In (n, (t, ts)) (reflected s) -> Forall oktree (t :: ts) /\ forall x, In x (t :: ts) -> In x (trees_of refs).
Proof.
  intros Hs H. assert (G : forall x, In x (t :: ts) -> In x (trees_of refs)).
  { intros x Hx. unfold trees_of. apply in_flat_map. exists (s_name s, reflected s). split; [unfold refs; now apply (in_map (fun s => (s_name s, reflected s)))|]. cbn [snd]. apply in_flat_map. exists (n, (t, ts)). now split. }
  split; [|exact G]. apply Forall_forall. intros x Hx. exact (proj1 (Forall_forall _ _) refs_good x (G x Hx)).
Qed.
Lemma reflected_lower s : In s sigs -> NoDup (map (fun p => lower (fst p)) (reflected s)).
Proof.
  intros Hs. pose proof (sig_procs s Hs) as (_ & Nd). rewrite <- (map_map fst lower). apply nodup_map_on.
  - apply sorted_nodup. apply fold_madd_sorted. constructor.
  - intros x y Hx Hy E. apply in_map_iff in Hx as ([nx (tx & tsx)] & <- & Hx). apply in_map_iff in Hy as ([ny (ty & tsy)] & <- & Hy). cbn [fst] in *.
    apply reflected_in in Hx as (cx & csx & Hx & _). apply reflected_in in Hy as (cy & csy & Hy & _).
    clear - Nd Hx Hy E. induction (s_procs s) as [|p l IH]; [destruct Hx|]. cbn [map] in Nd. inversion Nd as [|? ? Np Nl]; subst. destruct Hx as [->|Hx]; destruct Hy as [Hy|Hy].
    + now injection Hy.
    + exfalso. apply Np. cbn [fst]. rewrite E. exact (in_map (fun p => lower (fst p)) _ _ Hy).
    + subst p. exfalso. apply Np. cbn [fst]. rewrite <- E. exact (in_map (fun p => lower (fst p)) _ _ Hx).
    + now apply IH.
Qed.
Lemma declared_prog : declared prog = map fst cls ++ map (fun s => s_name s ++ str "_client") sigs.
Proof. unfold declared, prog. cbn [classes clients]. rewrite !map_map. unfold refs. now rewrite map_map. Qed.
Lemma loads_ok : loads taken prog = true.
Proof.
  pose proof (su_services _ _ S) as SV. rewrite Forall_forall in SV.
  assert (D : forall n, In n (map fst cls) -> exists ms, In (n, ms) cls) by (intros n H; apply in_map_iff in H as ([n' ms] & <- & H); now exists ms).
  unfold loads. rewrite declared_prog. repeat (apply andb_true_iff; split).
  - apply forallb_forall. intros n H. apply identb_ok. apply in_app_iff in H as [H|H].
    + apply D in H as (ms & H). apply cls_mentioned in H. exact (proj1 (part_ok _ _ _ H eq_refl)).
    + apply in_map_iff in H as (s & <- & H). apply ident_client. exact (proj1 (SV s H)).
  - apply nodupb_ok. rewrite map_app. apply nodup_app.
    + apply nodup_map_on.
      * apply sorted_nodup. unfold cls, collect. rewrite flat_traverse. apply fold_class_sorted. constructor.
      * intros x y Hx Hy E. apply D in Hx as (mx & Hx). apply D in Hy as (my & Hy). pose proof (su_classes _ _ S _ _ (cls_mentioned _ _ Hx) (cls_mentioned _ _ Hy) E) as [= -> _]. reflexivity.
    + rewrite map_map. rewrite (map_ext _ (fun s => lower (s_name s) ++ lower (str "_client"))) by (intros; apply lower_app). rewrite <- (map_map (fun s => lower (s_name s)) (fun x => x ++ lower (str "_client"))).
      apply nodup_map_on; [exact (su_services_distinct _ _ S)|]. intros x y _ _ E. now apply app_inv_tail in E.
    + intros x Hx Hy. apply in_map_iff in Hx as (n & <- & Hn). apply D in Hn as (ms & Hn). apply (su_class_names _ _ S _ (cls_mentioned _ _ Hn)). cbn [cname].
      rewrite map_map in Hy. apply in_or_app. right. apply in_or_app. now right.
  - apply forallb_forall. intros n H. apply absent. apply in_app_iff in H as [H|H].
    + apply D in H as (ms & H). intros I. apply (su_class_names _ _ S _ (cls_mentioned _ _ H)). cbn [cname]. apply in_app_iff in I as [I|I]; apply in_or_app; [now left|]. right. apply in_or_app. now left.
    + apply in_map_iff in H as (s & <- & H). exact (proj2 (SV s H)).
  - apply forallb_forall. intros x H. cbn [prog classes] in H. apply in_map_iff in H as ([n ms] & <- & H). pose proof (cls_mentioned _ _ H) as M.
    destruct (part_ok _ _ _ M eq_refl) as (Hn & Hi & Nd). cbn [print_class snd]. apply andb_true_iff. split.
    + apply forallb_forall. intros m Hm. apply in_map_iff in Hm as (m' & <- & Hm). cbn [fst snd]. rewrite (identb_ok (fst m')) by exact (proj1 (Forall_forall _ _) Hi _ Hm). cbn [andb]. apply whole_ok.
      destruct M as (_ & c & Hc & Hp). pose proof (carried_oktree c (proj1 (Forall_forall _ _) (su_types _ _ S) c Hc)) as O.
      apply Forall_forall. intros y Hy. apply (proj1 (Forall_forall _ _) O). apply (parts_trans _ _ _ Hp). cbn [parts]. right. apply in_flat_map. now exists m'.
    + apply nodupb_ok. rewrite map_map. exact Nd.
  - apply forallb_forall. intros x H. cbn [prog clients] in H. unfold refs in H. rewrite map_map in H. apply in_map_iff in H as (s & <- & H). cbn [fst snd]. apply andb_true_iff. split.
    + apply forallb_forall. intros m Hm. apply in_map_iff in Hm as ([n (t & ts)] & <- & Hm). cbn [fst snd]. pose proof (reflected_oktree s n t ts H Hm) as (O & _).
      rewrite (whole_ok t) by exact (Forall_inv O). rewrite identb_ok.
      * cbn [andb]. apply forallb_forall. intros e He. apply in_map_iff in He as (t' & <- & Ht'). apply whole_ok. exact (proj1 (Forall_forall _ _) (Forall_inv_tail O) _ Ht').
      * apply reflected_in in Hm as (c & cs & Hm & _). exact (proj1 (proj1 (Forall_forall _ _) (proj1 (sig_procs s H)) _ Hm)).
    + apply nodupb_ok. rewrite map_map. cbn [fst]. now apply reflected_lower.
Qed.
Definition depth0 : nat := list_max (map height (trees_of refs)).
Definition objects (s : ssig) : client := map (fun p => (fst p, (rtt (fst (snd p)), map rtt (snd (snd p))))) (reflected s).
Lemma client_named_ok s : In s sigs -> client_named (s_name s ++ str "_client") (clients prog) = Some (map (fun p => (fst p, (print_typeinfo (fst (snd p)), map print_typeinfo (snd (snd p))))) (reflected s)).
Proof.
  intros H. cbn [prog clients]. unfold refs. rewrite map_map. cbn [fst snd]. pose proof (su_services_distinct _ _ S) as Nd. clear - H Nd. induction sigs as [|s' l IH]; [destruct H|].
  cbn [map client_named fst snd]. cbn [map] in Nd. inversion Nd as [|? ? Np Nl]; subst. destruct (str_eqb _ _) eqn:E.
  - apply str_eqb_eq in E. rewrite !lower_app in E. apply app_inv_tail in E. destruct H as [->|H]; [reflexivity|]. exfalso. apply Np. rewrite E. exact (in_map (fun s => lower (s_name s)) _ _ H).
  - destruct H as [->|H]; [now rewrite str_eqb_refl in E|]. now apply IH.
Qed.
Lemma each_eval d l : (depth0 <= d)%nat -> Forall oktree l -> (forall x, In x l -> In x (trees_of refs)) -> each (eval d (map print_class cls)) (map print_typeinfo l) = Val (map rtt l).
Proof.
  intros Hd O H. induction l as [|t l IH]; [reflexivity|]. cbn [map each]. rewrite eval_ok; [|exact (Forall_inv O)|intros n ms; apply trees_in, H; now left|].
  - cbn [pbind]. rewrite IH; [reflexivity|exact (Forall_inv_tail O)|]. intros x Hx. apply H. now right.
  - apply list_max_le in Hd. rewrite Forall_map, Forall_forall in Hd. apply Hd, H. now left.
Qed.
Lemma members_ok s d : In s sigs -> (depth0 <= d)%nat -> members d prog (s_name s ++ str "_client") = Val (objects s).
Proof.
  intros Hs Hd. unfold members. rewrite client_named_ok by exact Hs. unfold objects. change (classes prog) with (map print_class cls). assert (G : forall x, In x (reflected s) -> In x (reflected s)) by auto.
  revert G. generalize (reflected s) at 1 3 4. intros l G. induction l as [|[n (t & ts)] l IH]; [reflexivity|]. cbn [map each fst snd].
  pose proof (reflected_oktree s n t ts Hs (G _ (or_introl eq_refl))) as (O & T).
  rewrite eval_ok; [|exact (Forall_inv O)|intros n' ms'; apply trees_in, T; now left|].
  2:{ pose proof Hd as Hd'. apply list_max_le in Hd'. rewrite Forall_map, Forall_forall in Hd'. apply Hd', T. now left. }
  cbn [pbind]. rewrite each_eval; [|exact Hd|exact (Forall_inv_tail O)|intros x Hx; apply T; now right]. cbn [pbind]. rewrite IH by (intros x Hx; apply G; now right). reflexivity.
Qed.
Lemma procedure_ok s m ret args : In s sigs -> In (m, (ret, args)) (s_procs s) -> procedure m (objects s) = Some (m, (rtt (shape ret), map (fun c => rtt (shape c)) args)).
Proof.
  intros Hs H. pose proof (sig_procs s Hs) as (_ & Nd). assert (Hr : In (m, (shape ret, map shape args)) (reflected s)).
  { apply fold_madd_has; [|exact H]. rewrite <- (map_map fst lower) in Nd. now apply nodup_lower in Nd. }
  pose proof (reflected_lower s Hs) as Nr. unfold objects. clear - Nr Hr. induction (reflected s) as [|x l IH]; [destruct Hr|]. cbn [map procedure fst]. cbn [map] in Nr. inversion Nr as [|? ? Np Nl]; subst.
  destruct (str_eqb _ _) eqn:E.
  - apply str_eqb_eq in E. destruct Hr as [->|Hr]; [cbn [fst snd]; now rewrite map_map|]. exfalso. apply Np. rewrite E. exact (in_map (fun p => lower (fst p)) _ _ Hr).
  - destruct Hr as [->|Hr]; [cbn [fst] in E; now rewrite str_eqb_refl in E|]. now apply IH.
Qed.
End Program.

(** Objects that are read have the classes of their types. *)
Section Made.
Context {A : Type}.
Lemma bind_inv {X Y} (m : @P A X) (f : X -> @P A Y) s y s' : bind m f s = (Val y, s') -> exists x s1, m s = (Val x, s1) /\ f x s1 = (Val y, s').
Proof. unfold bind. destruct (m s) as ([x| | | |] & s1) eqn:E; intros H; try discriminate. now exists x, s1. Qed.
Lemma times_all {X} (m : @P A X) (Q : X -> Prop) : (forall s x s', m s = (Val x, s') -> Q x) -> forall n s l s', times n m s = (Val l, s') -> Forall Q l.
Proof.
  intros H n. induction n as [|n IH]; intros s l s' E; cbn [times] in E; [injection E as <- <-; constructor|].
  apply bind_inv in E as (x & s1 & E1 & E). apply bind_inv in E as (xs & s2 & E2 & E). injection E as <- <-. constructor; [exact (H _ _ _ E1)|exact (IH _ _ _ E2)].
Qed.
Lemma aset_all (Q : pkey * pv -> Prop) k v l : (forall j, Q (j, v)) -> Forall Q l -> Forall Q (aset k v l).
Proof.
  intros Hv. induction 1 as [|[j w] l Hj Hl IH]; cbn [aset]; [repeat constructor; apply Hv|]. destruct (key_eqb j k); constructor; auto.
Qed.
Lemma store_all_made t l : Forall (fun x => made t (snd x)) l -> forall acc p, Forall (fun e => made t (snd e)) acc -> store_all l acc = Val p -> exists q, p = PArr q /\ Forall (fun e => made t (snd e)) q.
Proof.
  induction 1 as [|[k v] l Hv Hl IH]; intros acc p Ha E; cbn [store_all] in E; [injection E as <-; now exists acc|]. cbn [snd] in Hv.
  assert (G : forall k, Forall (fun e => made t (snd e)) (aset k v acc)) by (intros; apply aset_all; auto).
  destruct k; try discriminate; eapply IH; try exact E; auto.
Qed.
Lemma pread_made t : forall s p s', pread (A := A) (rtt t) s = (Val p, s') -> made t p.
Proof.
  induction t as [c H|t IH|k t IHk IHt|n ms IH] using tree_rect'; intros s p s' E.
  - constructor. exact H.
  - cbn [rtt pread] in E. apply bind_inv in E as (x & s1 & _ & E). apply bind_inv in E as (l & s2 & El & E). injection E as <- <-. apply ma_array. apply (times_all _ (made t)) in El; [|exact IH].
    unfold number. clear - El. generalize 0%nat. induction El as [|v l Hv _ IHl]; intros i.
    + constructor.
    + cbn [length seq map combine].
    constructor; [exact Hv|apply IHl].
  - cbn [rtt pread] in E. apply bind_inv in E as (x & s1 & _ & E). apply bind_inv in E as (l & s2 & El & E).
    apply (times_all _ (fun x => made t (snd x))) in El.
    + apply (f_equal fst) in E. cbn [lift fst] in E. destruct (store_all_made t l El [] p (Forall_nil _) E) as (q & -> & Hq). now apply ma_map.
    + clear - IHt. intros s x s' E. apply bind_inv in E as (a & s1 & _ & E). apply bind_inv in E as (b & s2 & E2 & E). injection E as <- <-. exact (IHt _ _ _ E2).
  - cbn [rtt pread] in E. apply bind_inv in E as (fs & s1 & Ef & E). injection E as <- <-. apply ma_class.
    revert s fs s1 Ef. induction ms as [|[m t] ms IHm]; intros s fs s1 Ef; cbn [map fst snd] in Ef; [injection Ef as <- <-; constructor|].
    apply bind_inv in Ef as (v & s2 & Ev & Ef). apply bind_inv in Ef as (fs' & s3 & Ef' & Ef). injection Ef as <- <-. constructor; [split; [reflexivity|exact (Forall_inv IH _ _ _ Ev)]|].
    apply (IHm (Forall_inv_tail IH) _ _ _ Ef').
Qed.
End Made.

Section Session.
Context {A : Type} (svc : service A) (taken : list (list Z)) (sigs : list ssig) (S : suitable taken sigs) (s : ssig) (Hs : In s sigs).
Lemma carried_proc m ret args : In (m, (ret, args)) (s_procs s) -> carried ret /\ Forall carried args.
Proof.
  intros H. pose proof (su_types _ _ S) as T. rewrite Forall_forall in T. assert (G : forall c, In c (ret :: args) -> carried c).
  { intros c Hc. apply T. unfold types_of. apply in_flat_map. exists s. split; [exact Hs|]. apply in_flat_map. exists (m, (ret, args)). now split. }
  split; [apply G; now left|]. apply Forall_forall. intros c Hc. apply G. now right.
Qed.
Lemma ident_proc m ret args : In (m, (ret, args)) (s_procs s) -> ident m /\ small m.
Proof. intros H. exact (proj1 (Forall_forall _ _) (proj1 (sig_procs taken sigs S s Hs)) _ H). Qed.
Lemma call_all_ok : offers svc s -> forall calls, Forall (proper_call s) calls -> forall (st : @pst A) a, has st [] (Some []) [] a ->
  exists rs st' a', call_all 1 svc (objects s) calls st = (Val rs, st') /\ has st' [] (Some []) [] a' /\ answered svc s a calls a' rs.
Proof.
  intros Of. induction calls as [|[m ps] calls IH]; intros HP st a H; [exists [], st, a; split; [reflexivity|]; split; [exact H|constructor]|].
  destruct (Forall_inv HP) as (ret & args & vs & Hp & Hst). cbn [fst snd] in Hp, Hst. destruct (Of m ret args Hp) as (f & Hreg & Hfa & Hfr & Hbody). destruct (carried_proc _ _ _ Hp) as (HCr & HCa).
  destruct (ident_proc _ _ _ Hp) as (Hi & Hsm). destruct (Hbody a vs) as (a1 & v & Eb & Hv & Fv); [rewrite Hfa; exact (proj1 Hst)|]. rewrite Hfr in Hv.
  destruct (call_proc_ok svc st (objects s) m ret args f vs ps a a1 v) as (p & st1 & E1 & Rp & H1 & s0 & Mp); try assumption; [now apply (procedure_ok taken sigs)|]. apply pread_made in Mp.
  destruct (IH (Forall_inv_tail HP) st1 a1 H1) as (rs & st2 & a2 & E2 & H2 & A2). exists (p :: rs), st2, a2. split; [|split; [exact H2|]].
  - cbn [call_all]. rewrite (bind_val _ _ _ _ _ E1). rewrite (bind_val _ _ _ _ _ E2). reflexivity.
  - exact (ad_cons svc s a m ps ret args f vs a1 v p calls a2 rs Hp Hreg Hst Eb Rp Mp A2).
Qed.
Lemma construct_ok d a n : (depth0 sigs <= d)%nat -> exists st, construct d (prog sigs) (s_name s ++ str "_client") {| pbuf := []; wld := start a (Datatypes.S n); cuts := [] |} = (Val (objects s), st) /\ has (A := A) st [] (Some []) [] a.
Proof.
  intros Hd. unfold construct. rewrite (members_ok taken sigs S s d Hs Hd). eexists. split; [reflexivity|]. repeat split.
Qed.
Lemma session a n : offers svc s -> exists d0, forall d, (d0 <= d)%nat -> forall calls, Forall (proper_call s) calls ->
  exists rs a', run 1 svc a (Datatypes.S n) [] d taken sigs (s_name s) calls = (Val rs, a') /\ answered svc s a calls a' rs.
Proof.
  intros Of. exists (depth0 sigs). intros d Hd calls HP. destruct (construct_ok d a n Hd) as (st & E & H). destruct (call_all_ok Of calls HP st a H) as (rs & st' & a' & E' & H' & An).
  exists rs, a'. split; [|exact An]. unfold run, script. rewrite (generate_ok taken sigs S), (loads_ok taken sigs S). rewrite (bind_val _ _ _ _ _ E), E'. f_equal. exact (proj1 (proj2 (proj2 H'))).
Qed.
Lemma session_version ver a n : ver <> 1 -> int32 ver -> offers svc s -> exists d0, forall d, (d0 <= d)%nat -> forall c calls, proper_call s c ->
  run ver svc a (Datatypes.S n) [] d taken sigs (s_name s) (c :: calls) = (Exn (str "result code is not OK: VersionMismatch " ++ show_int ver ++ str " 1"), a).
Proof.
  intros Hver Hv32 Of. exists (depth0 sigs). intros d Hd [m ps] calls (ret & args & vs & Hp & Hst). cbn [fst snd] in *. destruct (construct_ok d a n Hd) as (st & E & H).
  destruct (Of m ret args Hp) as (f & Hreg & _). destruct (carried_proc _ _ _ Hp) as (HCr & HCa). destruct (ident_proc _ _ _ Hp) as (Hi & Hsm).
  destruct (call_version svc ver st (objects s) m (rtt (shape ret)) args f vs ps a) as (st' & E' & H'); try assumption; [now apply (procedure_ok taken sigs)|].
  unfold run, script. rewrite (generate_ok taken sigs S), (loads_ok taken sigs S). rewrite (bind_val _ _ _ _ _ E). cbn [call_all]. rewrite (bind_exn _ _ _ _ _ E'). f_equal. exact (proj1 (proj2 (proj2 H'))).
Qed.
End Session.
