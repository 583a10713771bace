(** Proofs about the Haskell clients. *)
From Verif Require Import Common CommonLemmas NumText_Model NumText_Proof Reflect_Spec Reflect_Model Reflect_Proof Archive_Model Archive_Spec Archive_Proof Rpc_Spec Rpc_Model Rpc_Proof Php_Spec Php_Model Php_Proof Hs_Spec Hs_Model.
From Coq Require Import Lia Permutation Sorted.
Local Open Scope Z_scope.

(** ** Sending *)
Lemma pack_byte c : is_byte c -> pack 1 c = [c].
Proof. intros H. unfold pack. change (2 ^ (8 * Z.of_nat 1)) with 256. rewrite Z.mod_small by exact H. cbn. unfold is_byte in H. now rewrite Z.mod_small by lia. Qed.
Lemma each_chars s : bytes s -> each (fun x => match x with HChar c => Val (pack 1 c) | _ => Unknown end) (map HChar s) = Val (map (fun c => [c]) s).
Proof. induction 1 as [|c s Hc _ IH]; [reflexivity|]. cbn [map each]. rewrite pack_byte by exact Hc. cbn [pbind]. rewrite IH. reflexivity. Qed.
Lemma concat_single (s : list Z) : concat (map (fun c => [c]) s) = s.
Proof. induction s as [|c s IH]; [reflexivity|]. cbn. now rewrite IH. Qed.
Lemma hkey_kind k x y : hkey k -> has_type (wire k) x -> has_type (wire k) y -> same_kind x y.
Proof.
  intros Hk Hx Hy. destruct Hk; cbn [wire has_type] in *.
  - destruct Hx as (_ & a & -> & _), Hy as (_ & b & -> & _). exact I.
  - destruct Hx as (_ & a & -> & _), Hy as (_ & b & -> & _). exact I.
  - destruct Hx as (a & -> & _), Hy as (b & -> & _). exact I.
Qed.
Lemma hkey_carried k : hkey k -> hcarried k.
Proof. destruct 1; constructor. Qed.
Lemma key_in_order k : hkey k -> ordered (shape k) = true.
Proof. destruct 1; reflexivity. Qed.
Section Convert.
Context (conv : Z -> Z) (Conv : conversion conv).
Lemma hsend_text s : bytes s -> hsend conv TString (HList (map HChar s)) = Val (wstr s).
Proof. intros H. cbn [hsend]. rewrite (each_chars s H). cbn [pbind]. rewrite map_length, concat_single. reflexivity. Qed.
(** What the generated code sends for an argument is read by the server as the value that it stands for. *)
Definition hwok (c : cty) : Prop := hcarried c -> forall v p, has_type (wire c) v -> sendable c v -> hrep c v p ->
  exists b, hsend conv (shape c) p = Val b /\ typed (shape c) p = true /\ readable (wire c) v b.
Lemma send_class ops : Forall (fun o => match o with OName _ => True | ONamed _ t | OPlain t => hwok t end) ops -> Forall hcarried_op ops -> forall v vs,
  has_type (wire (CClass ops)) v -> sendable (CClass ops) v ->
  (fix members (ops : list cop) (v : val) (vs : list hv) : Prop :=
         match ops with
         | [] => v = VL [] /\ vs = []
         | OName _ :: r => members r v vs
         | ONamed _ t :: r | OPlain t :: r => exists x y q qs, v = VP x y /\ vs = q :: qs /\ hrep t x q /\ members r y qs
         end) ops v vs ->
  exists b, (fix go (ms : list (list Z * tree)) (vs : list hv) : pres (list Z) :=
         match ms, vs with
         | [], [] => Val []
         | (_, t) :: r, v :: vr => let^ a := hsend conv t v in let^ b := go r vr in Val (a ++ b)
         | _, _ => Unknown
         end) (mems ops) vs = Val b /\
    (fix go (ms : list (list Z * tree)) (vs : list hv) : bool :=
         match ms, vs with
         | [], [] => true
         | (_, t) :: r, v :: vr => typed t v && go r vr
         | _, _ => false
         end) (mems ops) vs = true /\ readable (wire (CClass ops)) v b.
Proof.
  induction ops as [|o ops IH]; intros HI HC v vs Ht Hs Hr.
  - destruct Hr as (-> & ->). exists []. split; [reflexivity|]. split; [reflexivity|]. intros old rest. reflexivity.
  - specialize (IH (Forall_inv_tail HI) (Forall_inv_tail HC)). destruct o as [n|n t|t]; [exact (IH v vs Ht Hs Hr)| |].
    + destruct Hr as (x & y & q & qs & -> & -> & Hq & Hr). destruct Ht as (x' & y' & Exy & Hx & Hy). injection Exy as <- <-. destruct (Hs x y eq_refl) as (Sx & Sy).
      destruct (IH y qs Hy Sy Hr) as (b & E & T & Hb). pose proof (Forall_inv HC) as Hc. inversion Hc as [|? ? _ Hct|]; subst.
      destruct (Forall_inv HI Hct x q Hx Sx Hq) as (bx & Ex & Tx & Hbx). exists (bx ++ b). cbn [mems flat_map app]. fold (mems ops). rewrite Ex, Tx. cbn [pbind andb]. rewrite E. split; [reflexivity|]. split; [exact T|].
      intros old rest. change (wire (CClass (ONamed n t :: ops))) with (TPair (wire t) (wire (CClass ops))).
      change (read (TPair (wire t) (wire (CClass ops)))) with (rd_pair (wire t) (wire (CClass ops))). now apply rd_pair_readable.
    + destruct Hr as (x & y & q & qs & -> & -> & Hq & Hr). destruct Ht as (x' & y' & Exy & Hx & Hy). injection Exy as <- <-. destruct (Hs x y eq_refl) as (Sx & Sy).
      destruct (IH y qs Hy Sy Hr) as (b & E & T & Hb). pose proof (Forall_inv HC) as Hc. inversion Hc as [| |? Hct]; subst.
      destruct (Forall_inv HI Hct x q Hx Sx Hq) as (bx & Ex & Tx & Hbx). exists (bx ++ b). cbn [mems flat_map app]. fold (mems ops). rewrite Ex, Tx. cbn [pbind andb]. rewrite E. split; [reflexivity|]. split; [exact T|].
      intros old rest. change (wire (CClass (OPlain t :: ops))) with (TPair (wire t) (wire (CClass ops))).
      change (read (TPair (wire t) (wire (CClass ops)))) with (rd_pair (wire t) (wire (CClass ops))). now apply rd_pair_readable.
Qed.
Lemma send_ok c : hwok c.
Proof.
  induction c as [c H|t IH|k t IHk IHt|ops IH] using cty_rect'; intros HC v p Ht Hs Hr.
  - inversion HC as [s| | | | | |]; subst; try contradiction; cbn [shape hsend wire hrep typed] in *.
    + destruct Hr as (z & -> & ->). destruct Ht as (_ & z' & E & Hz). injection E as <-. eexists. split; [reflexivity|]. split; [reflexivity|]. intros old rest. apply (read_num_ok 4 s z); [lia|exact Hz].
    + destruct Hr as (z & -> & ->). destruct Ht as (_ & z' & E & Hz). injection E as <-. eexists. split; [reflexivity|]. split; [reflexivity|]. intros old rest.
      rewrite Conv; [apply (read_num_ok 8 false z); [lia|exact Hz]|exact Hz|exact (Hs z eq_refl)].
    + destruct Hr as (z & -> & ->). destruct Ht as (_ & z' & E & Hz). injection E as <-. eexists. split; [reflexivity|]. split; [reflexivity|]. intros old rest.
      assert (Ep : pack 1 (z mod 256) = pack 1 z) by (unfold pack; change (2 ^ (8 * Z.of_nat 1)) with 256; now rewrite Z.mod_mod by lia). rewrite Ep. apply (read_num_ok 1 true z); [lia|exact Hz].
    + destruct Hr as (s & -> & ->). destruct Ht as (s' & E & Hb & Hl). injection E as <-. pose proof (hsend_text s Hb) as Es. cbn [hsend] in Es. rewrite Es. eexists. split; [reflexivity|]. split.
      * clear. induction s; [reflexivity|assumption].
      * intros old rest. apply (archive_roundtrip TStr (VS s)). now exists s.
  - inversion HC as [| | | |t' HC'| |]; subst. cbn [shape hsend wire hrep typed] in *. destruct Hr as (l & q & -> & -> & Hlq). destruct Ht as (l' & E & Hl & Hty). injection E as <-. specialize (Hs l eq_refl). change (Forall (sendable t) l) in Hs.
    assert (G : exists bs, each (hsend conv (shape t)) q = Val bs /\ forallb (typed (shape t)) q = true /\ Forall2 (readable (wire t)) l bs).
    { clear - IH HC' Hlq Hty Hs. induction Hlq as [|x y l q Hxy _ IHl]; [exists []; repeat split; constructor|].
      destruct (IHl (Forall_inv_tail Hs) (Forall_inv_tail Hty)) as (bs & Eb & T & Hbs). destruct (IH HC' x y (Forall_inv Hty) (Forall_inv Hs) Hxy) as (b & E & T' & Hb).
      exists (b :: bs). cbn [each forallb]. rewrite E. cbn [pbind]. rewrite Eb, T', T. repeat split. now constructor. }
    destruct G as (bs & Eb & T & Hbs). rewrite Eb. cbn [pbind]. eexists. split; [reflexivity|]. split; [exact T|].
    rewrite <- (Forall2_len _ _ _ Hlq). rewrite pack_wsize. intros old rest. cbn [read]. rewrite <- app_assoc, read_size_ok by exact Hl. rewrite Nat2Z.id, two_loops.
    rewrite (read_each_readable (wire t) l bs) by (exact Hbs || apply slots_len). reflexivity.
  - inversion HC as [| | | | |k' t' Hk HC'|]; subst. cbn [shape hsend wire hrep typed] in *. destruct Hr as (l & q & q' & -> & -> & HP & Hlq). destruct Ht as (l' & E & Hsm & Hl & Ho).
    injection E as E. apply pairs_inj in E. subst l'. specialize (Hs l eq_refl). change (Forall (fun x => sendable k (fst x) /\ sendable t (snd x)) l) in Hs. destruct (Permutation_Forall2 HP (Forall2_swap _ _ _ Hlq)) as (l' & HPl & Hlq'). apply Forall2_swap in Hlq'.
    assert (Hl' : Forall (fun p => (has_type (wire k) (fst p) /\ has_type (wire t) (snd p)) /\ sendable k (fst p) /\ sendable t (snd p)) l').
    { apply Forall_forall. intros x Hx. rewrite Forall_forall in Hl, Hs. apply (Permutation_in x (Permutation_sym HPl)) in Hx. split; [now apply Hl|now apply Hs]. }
    assert (G : exists bs, each (fun e => let^ a := hsend conv (shape k) (fst e) in let^ b := hsend conv (shape t) (snd e) in Val (a ++ b)) q' = Val bs /\
              forallb (fun x => typed (shape k) (fst x) && typed (shape t) (snd x)) q' = true /\
              Forall2 (fun x b => forall old rest, rd_pair (wire k) (wire t) old (b ++ rest, true) = Ok (VP (fst x) (snd x), (rest, true))) l' bs).
    { clear - Hlq' Hl' Hk HC' IHk IHt. induction Hlq' as [|x e l q (Hf & Hrep) _ IHl]; [exists []; repeat split; constructor|].
      destruct (IHl (Forall_inv_tail Hl')) as (bs & Eb & T & Hbs). destruct (Forall_inv Hl') as ((Hkx & Htx) & Sk & St).
      destruct (IHk (hkey_carried k Hk) (fst x) (fst e) Hkx Sk Hf) as (b1 & E1 & T1 & R1). destruct (IHt HC' (snd x) (snd e) Htx St Hrep) as (b2 & E2 & T2 & R2).
      exists ((b1 ++ b2) :: bs). cbn [each forallb]. rewrite E1, T1, T2, T. cbn [pbind]. rewrite E2. cbn [pbind]. rewrite Eb. split; [reflexivity|]. split; [reflexivity|]. constructor; [|exact Hbs].
      intros old rest. now apply rd_pair_readable. }
    destruct G as (bs & Eb & T & Hbs). rewrite Eb. cbn [pbind]. eexists. split; [reflexivity|]. split; [exact T|].
    assert (Elen : length q' = length l') by (symmetry; eapply Forall2_len; exact Hlq'). rewrite Elen. rewrite pack_wsize.
    assert (Hll : length l' = length l) by (symmetry; now apply Permutation_length).
    intros old rest. cbn [read]. rewrite <- app_assoc, read_size_ok by (rewrite Hll; exact Hsm). rewrite Nat2Z.id. fold (rd_pair (wire k) (wire t)).
    set (enc := combine (map (fun x => VP (fst x) (snd x)) l') bs).
    assert (Lb : length l' = length bs) by (eapply Forall2_len; exact Hbs).
    assert (Ee : length l' = length enc) by (unfold enc; rewrite combine_length, map_length; lia).
    assert (Ef : flat_map snd enc = concat bs /\ map fst enc = map (fun x => VP (fst x) (snd x)) l').
    { unfold enc. clear - Lb. revert bs Lb. induction l' as [|x l' IHl]; intros [|b bs] Lb; try discriminate; [now split|]. cbn in *. destruct (IHl bs ltac:(lia)) as (A1 & A2). split; congruence. }
    destruct Ef as (Ef1 & Ef2). rewrite Ee, <- Ef1. rewrite read_insert_any.
    + rewrite Ef2. cbn [obind]. f_equal. f_equal. f_equal. apply fold_insert_unique.
      * intros x y Hx Hy. apply in_map_iff in Hx as (x0 & <- & Hx), Hy as (y0 & <- & Hy). cbn [vfst]. rewrite Forall_forall in Hl.
        apply (hkey_kind k); [exact Hk|now apply Hl|now apply Hl].
      * rewrite map_map. cbn [vfst]. exact Ho.
      * now apply Permutation_map.
    + intros x b Hx. unfold enc in Hx. assert (K : exists y, In y l' /\ x = VP (fst y) (snd y) /\ forall old rest, rd_pair (wire k) (wire t) old (b ++ rest, true) = Ok (x, (rest, true))).
      { clear - Hbs Hx. induction Hbs as [|y c l' bs Hy _ IHl]; [destruct Hx|]. cbn in Hx. destruct Hx as [E|Hx].
        - injection E as <- <-. exists y. repeat split; [now left|exact Hy].
        - destruct (IHl Hx) as (z & A1 & A2 & A3). exists z. repeat split; [now right|exact A2|exact A3]. }
      destruct K as (y & _ & -> & K). split; [discriminate|]. intros r. apply K.
  - inversion HC as [| | | | | |ops' Ho Hn Hd Hne]; subst. cbn [hrep] in Hr. destruct Hr as (vs & -> & Hm). rewrite shape_class. cbn [hsend typed cname]. rewrite str_eqb_refl. cbn [andb].
    exact (send_class ops IH Ho v vs Ht Hs Hm).
Qed.

(** ** Receiving *)
Section Reading.
Context {A : Type}.
Notation P := (@P A).
Lemma hget_gives b : gives (A := A) (hget (length b)) b b.
Proof.
  intros s rest pend buf a (Hb & Hc & Ha & Hs). unfold hget. rewrite Hs. cbn [inbox pending good].
  destruct (Nat.leb_spec (length b) (length (b ++ rest))) as [_|K]; [|rewrite app_length in K; lia].
  rewrite firstn_app, firstn_all, Nat.sub_diag, skipn_app, skipn_all, Nat.sub_diag. cbn [firstn skipn app]. rewrite app_nil_r. eexists. split; [reflexivity|]. repeat split; assumption.
Qed.
Lemma num_gives n z : 0 <= z < 2 ^ (8 * Z.of_nat n) -> gives (A := A) (get_num n) (pack n z) z.
Proof.
  intros H. unfold get_num. rewrite <- (le_pack n z H) at 2. apply gives_then. rewrite <- (pack_len n z) at 1. apply hget_gives.
Qed.
Lemma hsize_gives {B} (l : list B) : small l -> gives (A := A) (get_num 4) (wsize (length l)) (Z.of_nat (length l)).
Proof. intros H. rewrite <- pack_wsize. apply num_gives. unfold small in H. change (8 * Z.of_nat 4) with 32. lia. Qed.
Lemma byte_gives c : is_byte c -> gives (A := A) (get_num 1) [c] c.
Proof. intros H. rewrite <- (pack_byte c H) at 1. apply num_gives. exact H. Qed.
Lemma flat_single (s : list Z) : flat_map (fun c => [c]) s = s.
Proof. rewrite flat_map_concat_map. apply concat_single. Qed.
Lemma Forall2_eq {X} (l m : list X) : Forall2 eq l m -> m = l.
Proof. induction 1; congruence. Qed.
Lemma Forall2_map_r {X Y} (f : X -> Y) l m : Forall2 (fun x y => y = f x) l m -> m = map f l.
Proof. induction 1; cbn; congruence. Qed.
Lemma text_gives s : bytes s -> small s -> gives (A := A) recv_text (wstr s) s.
Proof.
  intros Hb Hs. unfold recv_text, wstr. cbn [write]. eapply gives_bind; [now apply hsize_gives|]. cbn beta. rewrite Nat2Z.id.
  destruct (times_gives (get_num (A := A) 1) (fun c => [c]) eq s) as (xs & G & E).
  { intros c Hc. exists c. split; [|reflexivity]. apply byte_gives. exact (proj1 (Forall_forall _ _) Hb c Hc). }
  apply Forall2_eq in E. subst xs. now rewrite flat_single in G.
Qed.
(** Keys that are different stay so. *)
Lemma hcmp_chars : forall s s', (exists r, hcmp (HList (map HChar s)) (HList (map HChar s')) = Some r) /\ (hcmp (HList (map HChar s)) (HList (map HChar s')) = Some Eq -> s = s').
Proof.
  induction s as [|c s IH]; intros [|c' s']; cbn [map hcmp].
  - split; [now eexists|reflexivity].
  - split; [now eexists|discriminate].
  - split; [now eexists|discriminate].
  - destruct (IH s') as (E & H). cbn [hcmp] in E, H. destruct (Z.compare_spec c c') as [->| |]; [|split; [now eexists|discriminate]|split; [now eexists|discriminate]].
    split; [exact E|]. intros K. now rewrite (H K).
Qed.
Lemma hcmp_key k x y p q : hkey k -> has_type (wire k) x -> has_type (wire k) y -> hrep k x p -> hrep k y q -> exists r, hcmp p q = Some r /\ (r = Eq -> x = y).
Proof.
  intros Hk Hx Hy Hp Hq. destruct Hk; cbn [hrep wire has_type] in *.
  - destruct Hp as (z & -> & ->), Hq as (w & -> & ->). exists (z ?= w). split; [reflexivity|]. intros E. apply Z.compare_eq in E. now subst.
  - destruct Hp as (z & -> & ->), Hq as (w & -> & ->). eexists. split; [reflexivity|]. intros E. apply Z.compare_eq in E.
    destruct Hx as (_ & z' & E1 & H1), Hy as (_ & w' & E2 & H2). injection E1 as <-. injection E2 as <-. cbn in H1, H2. f_equal.
    pose proof (Z.div_mod z 256 ltac:(lia)). pose proof (Z.div_mod w 256 ltac:(lia)). lia.
  - destruct Hp as (z & -> & ->), Hq as (w & -> & ->). destruct (hcmp_chars z w) as ((r & E) & H). exists r. split; [exact E|]. intros ->. now rewrite (H E).
Qed.
Lemma hinsert_new k x p v : hkey k -> has_type (wire k) x -> hrep k x p -> forall l (xs : list val), Forall2 (fun y e => has_type (wire k) y /\ hrep k y (fst e) /\ y <> x) xs l ->
  exists l', hinsert p v l = Val l' /\ Permutation ((p, v) :: l) l'.
Proof.
  intros Hk Hx Hp. induction 1 as [|y [j w] xs l (Hy & Hj & Ne) Hr IH] using Forall2_ind; [eexists; split; [reflexivity|apply Permutation_refl]|]. cbn [fst] in Hj. cbn [hinsert].
  destruct (hcmp_key k x y p j Hk Hx Hy Hp Hj) as (r & E & Eq). rewrite E. destruct r.
  - exfalso. apply Ne. symmetry. now apply Eq.
  - eexists. split; [reflexivity|apply Permutation_refl].
  - destruct IH as (l' & El & Hl'). rewrite El. cbn [pbind]. eexists. split; [reflexivity|]. rewrite perm_swap. now constructor.
Qed.
Lemma from_list_ok k : hkey k -> forall (l : list (val * val)) xs, (forall x, In x l -> has_type (wire k) (fst x)) -> NoDup (map fst l) -> Forall2 (fun x e => hrep k (fst x) (fst e)) l xs ->
  forall (pre : list val) acc, Forall2 (fun y e => has_type (wire k) y /\ hrep k y (fst e)) pre acc -> (forall y, In y pre -> ~ In y (map fst l)) ->
  exists q, from_list xs acc = Val (HMap q) /\ Permutation (acc ++ xs) q.
Proof.
  intros Hk l xs Ht Nd H. induction H as [|x [p v] l xs Hx _ IH]; intros pre acc Hacc Hpre; [exists acc; split; [reflexivity|now rewrite app_nil_r]|].
  cbn [fst] in Hx. cbn [from_list]. cbn [map] in Nd. inversion Nd as [|? ? Nin Nd']; subst.
  destruct (hinsert_new k (fst x) p v Hk (Ht x (or_introl eq_refl)) Hx acc pre) as (acc' & E & HP).
  { revert Hpre. clear - Hacc. induction Hacc as [|y e pre acc (H1 & H2) _ IHa]; intros Hpre; constructor; [|apply IHa; intros z Hz; apply Hpre; now right].
    repeat split; [exact H1|exact H2|]. intros ->. apply (Hpre (fst x)); now left. }
  rewrite E. cbn [pbind].
  destruct (Permutation_Forall2 HP (Forall2_cons (R := fun e y => has_type (wire k) y /\ hrep k y (fst e)) (p, v) (fst x) (conj (Ht x (or_introl eq_refl)) Hx) (Forall2_swap _ _ _ Hacc))) as (pre' & HPp & Hacc').
  apply Forall2_swap in Hacc'. destruct (IH (fun y Hy => Ht y (or_intror Hy)) Nd' pre' acc' Hacc') as (q & Eq & HQ).
  { intros y Hy K. apply (Permutation_in y (Permutation_sym HPp)) in Hy. destruct Hy as [<-|Hy]; [contradiction|]. apply (Hpre y Hy). now right. }
  exists q. split; [exact Eq|]. rewrite <- HQ. rewrite <- HP. cbn [app]. apply Permutation_sym, Permutation_middle.
Qed.
Definition hrok (c : cty) : Prop := hcarried c -> forall v, has_type (wire c) v -> receivable c v -> exists p, gives (A := A) (hrecv conv (shape c)) (write (wire c) v) p /\ hrep c v p.
Lemma recv_class ops : Forall (fun o => match o with OName _ => True | ONamed _ t | OPlain t => hrok t end) ops -> Forall hcarried_op ops ->
  forall v, has_type (wire (CClass ops)) v -> receivable (CClass ops) v -> exists vs,
  gives ((fix go (ms : list (list Z * tree)) : P (list hv) :=
                    match ms with [] => ret [] | (_, t) :: r => bind (hrecv conv t) (fun v => bind (go r) (fun vs => ret (v :: vs))) end) (mems ops)) (write (wire (CClass ops)) v) vs /\
  (fix members (ops : list cop) (v : val) (vs : list hv) : Prop :=
         match ops with
         | [] => v = VL [] /\ vs = []
         | OName _ :: r => members r v vs
         | ONamed _ t :: r | OPlain t :: r => exists x y q qs, v = VP x y /\ vs = q :: qs /\ hrep t x q /\ members r y qs
         end) ops v vs.
Proof.
  induction ops as [|o ops IH]; intros HI HC v Ht Hf.
  - destruct Ht as (l & -> & Hl & _). destruct l; [|discriminate]. exists []. split; [apply gives_ret|]. now split.
  - specialize (IH (Forall_inv_tail HI) (Forall_inv_tail HC)). pose proof (Forall_inv HC) as Hc. pose proof (Forall_inv HI) as Hi. destruct o as [n|n t|t]; [exact (IH v Ht Hf)| |]; inversion Hc as [|? ? _ Hct|? Hct]; subst.
    + destruct Ht as (x & y & -> & Hx & Hy). destruct (Hf x y eq_refl) as (Fx & Fy). destruct (IH y Hy Fy) as (vs & Hg & Hm). destruct (Hi Hct x Hx Fx) as (p & Hp & Rp).
      exists (p :: vs). split; [|now exists x, y, p, vs]. cbn [mems flat_map app]. fold (mems ops). change (wire (CClass (ONamed n t :: ops))) with (TPair (wire t) (wire (CClass ops))). cbn [write write_pair].
      eapply gives_bind; [exact Hp|]. match goal with |- gives (bind ?m _) _ _ => apply (gives_then m (fun fs => p :: fs)) end. exact Hg.
    + destruct Ht as (x & y & -> & Hx & Hy). destruct (Hf x y eq_refl) as (Fx & Fy). destruct (IH y Hy Fy) as (vs & Hg & Hm). destruct (Hi Hct x Hx Fx) as (p & Hp & Rp).
      exists (p :: vs). split; [|now exists x, y, p, vs]. cbn [mems flat_map app]. fold (mems ops). change (wire (CClass (OPlain t :: ops))) with (TPair (wire t) (wire (CClass ops))). cbn [write write_pair].
      eapply gives_bind; [exact Hp|]. match goal with |- gives (bind ?m _) _ _ => apply (gives_then m (fun fs => p :: fs)) end. exact Hg.
Qed.
Lemma recv_ok c : hrok c.
Proof.
  induction c as [c H|t IH|k t IHk IHt|ops IH] using cty_rect'; intros HC v Ht Hf.
  - inversion HC as [s| | | | | |]; subst; try contradiction; cbn [shape hrecv wire hrep] in *.
    + destruct Ht as (_ & z & -> & Hz). exists (HInt z). split; [|now exists z]. apply (gives_then (get_num 4) HInt). apply num_gives. specialize (Hf z eq_refl). unfold in_range in Hz. change (8 * Z.of_nat (Z.to_nat 4)) with 32 in Hz. change (8 * Z.of_nat (Z.to_nat 4)) with 32.
      cbn in Hf. destruct s; lia.
    + destruct Ht as (_ & z & -> & Hz). exists (HDouble z). split; [|now exists z]. rewrite <- (Conv z Hz (Hf z eq_refl)) at 2. apply (gives_then (get_num 8) (fun z => HDouble (conv z))). apply num_gives. exact Hz.
    + destruct Ht as (_ & z & -> & Hz). exists (HChar (z mod 256)). split; [|now exists z]. apply (gives_then (get_num 1) HChar).
      assert (Ep : write (TNum 1 true) (VN z) = pack 1 (z mod 256)) by (change (pack 1 z = pack 1 (z mod 256)); unfold pack; change (2 ^ (8 * Z.of_nat 1)) with 256; now rewrite Z.mod_mod by lia). rewrite Ep.
      apply num_gives. exact (Z.mod_pos_bound z 256 ltac:(lia)).
    + destruct Ht as (s & -> & Hb & Hs). exists (HList (map HChar s)). split; [|now exists s]. cbn [write]. eapply gives_bind; [now apply hsize_gives|]. cbn beta. rewrite Nat2Z.id.
      destruct (times_gives (A := A) (bind (get_num 1) (fun z => ret (HChar z))) (fun c => [c]) (fun c x => x = HChar c) s) as (xs & G & E).
      { intros c Hc. exists (HChar c). split; [|reflexivity]. apply (gives_then (get_num 1) HChar). apply byte_gives. exact (proj1 (Forall_forall _ _) Hb c Hc). }
      apply (Forall2_map_r HChar) in E. subst xs. rewrite flat_single in G. match goal with |- gives (bind ?m _) _ _ => apply (gives_then m HList) end. exact G.
  - inversion HC as [| | | |t' HC'| |]; subst. cbn [shape hrecv wire hrep] in *. destruct Ht as (l & -> & Hs & Hl). specialize (Hf l eq_refl). change (Forall (receivable t) l) in Hf.
    destruct (times_gives (A := A) (hrecv conv (shape t)) (write (wire t)) (hrep t) l) as (xs & Hxs & Rxs).
    { intros w Hw. rewrite Forall_forall in Hl, Hf. apply (IH HC'); [now apply Hl|now apply Hf]. }
    exists (HList xs). split; [|exists l, xs; repeat split; exact Rxs]. cbn [write]. eapply gives_bind; [now apply hsize_gives|]. cbn beta. rewrite Nat2Z.id.
    apply (gives_then (times (length l) (hrecv conv (shape t))) HList). exact Hxs.
  - inversion HC as [| | | | |k' t' Hk HC'|]; subst. cbn [shape hrecv wire hrep] in *. destruct Ht as (l & -> & Hs & Hl & Ho). specialize (Hf l eq_refl). change (Forall (fun x => receivable k (fst x) /\ receivable t (snd x)) l) in Hf. rewrite Forall_forall in Hl, Hf.
    destruct (times_gives (A := A) (bind (hrecv conv (shape k)) (fun x => bind (hrecv conv (shape t)) (fun y => ret (x, y)))) (fun x : val * val => write (wire k) (fst x) ++ write (wire t) (snd x))
      (fun x y => hrep k (fst x) (fst y) /\ hrep t (snd x) (snd y)) l) as (xs & Hxs & Rxs).
    { intros x Hx. destruct (Hl x Hx) as (Hkx & Htx). destruct (Hf x Hx) as (Fk & Fv). destruct (IHk (hkey_carried k Hk) (fst x) Hkx Fk) as (pk & Hpk & Rpk).
      destruct (IHt HC' (snd x) Htx Fv) as (pv0 & Hpv & Rpv). exists (pk, pv0). split; [|split; [exact Rpk|exact Rpv]].
      eapply gives_bind; [exact Hpk|]. apply (gives_then (hrecv conv (shape t)) (fun y => (pk, y))). exact Hpv. }
    destruct (from_list_ok k Hk l xs) with (pre := @nil val) (acc := @nil (hv * hv)) as (q & Eq & HQ).
    { intros x Hx. now apply Hl. }
    { assert (G : NoDup (map vfst (map (fun x : val * val => VP (fst x) (snd x)) l))).
      { apply sorted_keys_distinct; [|apply ascending_sorted; rewrite map_map; exact Ho]. intros x y Hx Hy. apply in_map_iff in Hx as (x0 & <- & Hx), Hy as (y0 & <- & Hy).
        apply (hkey_kind k); [exact Hk|now apply Hl|now apply Hl]. }
      rewrite map_map in G. exact G. }
    { clear - Rxs. induction Rxs as [|x y l xs (H & _) _ IHx]; constructor; assumption. }
    { constructor. }
    { intros y []. }
    exists (HMap q). split.
    + cbn [write]. rewrite map_length. eapply gives_bind; [now apply hsize_gives|]. cbn beta. rewrite Nat2Z.id.
      assert (Ew : flat_map (write_pair (write (wire k)) (write (wire t))) (map (fun p : val * val => VP (fst p) (snd p)) l) = flat_map (fun x : val * val => write (wire k) (fst x) ++ write (wire t) (snd x)) l).
      { clear. induction l as [|x l IHl]; [reflexivity|]. cbn [map flat_map write_pair]. now rewrite IHl. }
      rewrite Ew. rewrite <- (app_nil_r (flat_map _ l)). eapply gives_bind; [exact Hxs|]. apply gives_lift. exact Eq.
    + exists l, xs, q. repeat split; [exact HQ|exact Rxs].
  - inversion HC as [| | | | | |ops' Ho Hn Hd Hne]; subst. destruct (recv_class ops IH Ho v Ht Hf) as (vs & Hg & Hm). rewrite shape_class. cbn [hrecv].
    exists (HObj (capital (last (nams ops) [])) vs). split; [|cbn [hrep]; rewrite shape_class; cbn [cname]; exists vs; split; [reflexivity|exact Hm]].
    match goal with |- gives (bind ?m _) _ _ => apply (gives_then m (fun fs => HObj (capital (last (nams ops) [])) fs)) end. exact Hg.
Qed.
End Reading.
End Convert.

(** ** A call *)
Section Calling.
Context (conv : Z -> Z) (Conv : conversion conv) {A : Type} (svc : service A).
Lemma send_text_ok s (st : @pst A) i p buf a : bytes s -> has st i p buf a -> exists st', send_text conv s st = (Val tt, st') /\ has st' i p (buf ++ wstr s) a.
Proof.
  intros Hb H. unfold send_text. rewrite (hsend_text conv s Hb). rewrite (bind_val _ _ st (wstr s) st) by reflexivity. now apply put_ok.
Qed.
Lemma bytes_check l : forallb (fun c => (0 <=? c) && (c <? 256)) l = true -> bytes l.
Proof. intros H. apply Forall_forall. intros c Hc. apply (proj1 (forallb_forall _ _) H) in Hc. unfold is_byte. lia. Qed.
Lemma bytes_ping : bytes PING.
Proof. apply bytes_check. vm_compute. reflexivity. Qed.
Lemma bytes_pong : bytes PONG.
Proof. apply bytes_check. vm_compute. reflexivity. Qed.
Lemma bytes_ok : bytes (str "OK").
Proof. apply bytes_check. vm_compute. reflexivity. Qed.
Lemma hping_ok ver (s : @pst A) a : has s [] (Some []) [] a -> exists s', hping conv ver svc s = (Val tt, s') /\ has s' [] (Some []) [] a.
Proof.
  intros H. unfold hping. destruct (send_text_ok PING s _ _ _ _ bytes_ping H) as (s1 & E1 & H1). rewrite (bind_val _ _ _ _ _ E1). cbn [app] in H1.
  destruct (flush_ok svc ver s1 [] (wstr PING) a a (wstr PONG) [] H1 (serve_ping ver svc a)) as (s2 & E2 & H2). rewrite (bind_val _ _ _ _ _ E2).
  destruct (gives_use recv_text (wstr PONG) PONG s2 (Some []) [] a) as (s3 & E3 & H3); [|exact H2|].
  { apply text_gives; [exact bytes_pong|unfold small; vm_compute; reflexivity]. }
  rewrite (bind_val _ _ _ _ _ E3). rewrite str_eqb_refl. exists s3. now split.
Qed.
Lemma hargs_ok : forall args vs ps, Forall hcarried args -> hstand args vs ps -> all_typed (map shape args) ps = true /\ forall (s : @pst A) i p buf a, has s i p buf a ->
  exists bs s', hargs conv (map shape args) ps s = (Val tt, s') /\ has s' i p (buf ++ bs) a /\ forall rest, read_args (map wire args) (bs ++ rest, true) = Ok (vs, (rest, true)).
Proof.
  induction args as [|c args IH]; intros vs ps HC (Ht & Hr).
  - inversion Ht; subst. inversion Hr; subst. split; [reflexivity|]. intros s i p buf a H. exists [], s. split; [reflexivity|]. split; [now rewrite app_nil_r|]. reflexivity.
  - cbn [map] in Ht. inversion Ht as [|t v ts vs' Hv Ht']; subst. cbn [combine] in Hr. inversion Hr as [|x q l ps' (Sq & Hq) Hr']; subst. cbn [fst snd] in Sq, Hq.
    destruct (send_ok conv Conv c (Forall_inv HC) v q Hv Sq Hq) as (b & Eb & T & Hb). destruct (IH vs' ps' (Forall_inv_tail HC) (conj Ht' Hr')) as (T' & IH').
    cbn [map all_typed]. rewrite T, T'. split; [reflexivity|]. intros s i p buf a H. cbn [hargs]. rewrite Eb. rewrite (bind_val _ _ s b s) by reflexivity.
    destruct (put_ok s i p buf a b H) as (s1 & E1 & H1). rewrite (bind_val _ _ _ _ _ E1).
    destruct (IH' s1 i p (buf ++ b) a H1) as (bs & s2 & E2 & H2 & R2). exists (b ++ bs), s2. split; [exact E2|]. split; [now rewrite app_assoc|].
    intros rest. cbn [read_args]. rewrite <- app_assoc, Hb. cbn [obind]. rewrite R2. reflexivity.
Qed.
Lemma hcall_ok (s : @pst A) m ret args f vs ps a a' v : ident m -> small m ->
  hcarried ret -> Forall hcarried args -> hstand args vs ps -> registered svc m f -> f_args f = map wire args -> f_ret f = wire ret -> f_body f a vs = (a', Ret v) ->
  has_type (wire ret) v -> receivable ret v -> has s [] (Some []) [] a ->
  exists p s', hcall conv 1 svc m (shape ret) (map shape args) ps s = (Val p, s') /\ hrep ret v p /\ has s' [] (Some []) [] a'.
Proof.
  intros Hi Hsm HCr HCa Hst Hreg Hfa Hfr Hbody Htv Hfv H. unfold hcall. destruct (ident_name m Hi) as (Hb & Hr).
  destruct (hping_ok 1 s a H) as (s1 & E1 & H1). rewrite (bind_val _ _ _ _ _ E1).
  destruct (send_text_ok m s1 _ _ _ _ Hb H1) as (s2 & E2 & H2). rewrite (bind_val _ _ _ _ _ E2). cbn [app] in H2.
  rewrite (bind_val _ _ s2 (wint 1) s2) by reflexivity. destruct (put_ok s2 _ _ _ _ (wint 1) H2) as (s3 & E3 & H3). rewrite (bind_val _ _ _ _ _ E3).
  destruct (proj2 (hargs_ok args vs ps HCa Hst) s3 _ _ _ _ H3) as (bs & s4 & E4 & H4 & R4). rewrite (bind_val _ _ _ _ _ E4). rewrite <- app_assoc in H4. rewrite <- Hfa in R4.
  destruct (flush_ok svc 1 s4 [] _ a a' (wstr (str "OK") ++ write (f_ret f) v) [] H4) as (s5 & E5 & H5).
  { cbn [app]. unfold turns. apply (serve_args svc 1 _ m f vs a a' v bs); try assumption; [now apply lookup_registered|unfold int32; lia]. }
  rewrite (bind_val _ _ _ _ _ E5). unfold hcheck.
  assert (Gok : gives (A := A) recv_text (wstr (str "OK")) (str "OK")) by (apply text_gives; [exact bytes_ok|unfold small; vm_compute; reflexivity]).
  destruct (Gok _ _ _ _ _ H5) as (s6 & E6 & H6). rewrite (bind_val _ _ _ tt s6) by (rewrite (bind_val _ _ _ _ _ E6); now rewrite str_eqb_refl).
  destruct (recv_ok conv Conv (A := A) ret HCr v Htv Hfv) as (p & Gp & Rp). rewrite Hfr in H6. destruct (gives_use _ _ _ _ _ _ _ Gp H6) as (s7 & E7 & H7). exists p, s7. split; [exact E7|]. split; [exact Rp|]. exact H7.
Qed.
(** A server of another version refuses. *)
Lemma hcall_version ver (s : @pst A) m ret args f vs ps a : ver <> 1 -> int32 ver -> ident m -> small m ->
  Forall hcarried args -> hstand args vs ps -> registered svc m f -> has s [] (Some []) [] a ->
  exists s', hcall conv ver svc m ret (map shape args) ps s = (Exn (str "wrong result code: VersionMismatch " ++ show_int ver ++ str " 1"), s') /\ has s' [] None [] a.
Proof.
  intros Hver Hver32 Hi Hsm HCa Hst Hreg H. unfold hcall. destruct (ident_name m Hi) as (Hb & Hr).
  destruct (hping_ok ver s a H) as (s1 & E1 & H1). rewrite (bind_val _ _ _ _ _ E1).
  destruct (send_text_ok m s1 _ _ _ _ Hb H1) as (s2 & E2 & H2). rewrite (bind_val _ _ _ _ _ E2). cbn [app] in H2.
  rewrite (bind_val _ _ s2 (wint 1) s2) by reflexivity. destruct (put_ok s2 _ _ _ _ (wint 1) H2) as (s3 & E3 & H3). rewrite (bind_val _ _ _ _ _ E3).
  destruct (proj2 (hargs_ok args vs ps HCa Hst) s3 _ _ _ _ H3) as (bs & s4 & E4 & H4 & R4). rewrite (bind_val _ _ _ _ _ E4). rewrite <- app_assoc in H4.
  destruct (flush_closed svc ver s4 [] _ a a (wstr (str "VersionMismatch " ++ show_int ver ++ str " " ++ show_int 1)) H4) as (s5 & E5 & H5).
  { cbn [app]. unfold turns. apply (serve_mismatch ver svc a _ false m f 1 bs); try assumption; [now apply lookup_registered|unfold int32; lia|congruence]. }
  rewrite (bind_val _ _ _ _ _ E5). unfold hcheck. set (msg := str "VersionMismatch " ++ show_int ver ++ str " " ++ show_int 1) in *.
  assert (Gm : gives (A := A) recv_text (wstr msg) msg).
  { apply text_gives.
    - unfold msg. apply Forall_app. split; [apply bytes_check; vm_compute; reflexivity|]. apply Forall_app. split; [apply show_int_bytes|]. apply bytes_check. vm_compute. reflexivity.
    - unfold small, msg. rewrite !app_length. pose proof (show_int_len ver Hver32). change (length (str "VersionMismatch ")) with 16%nat. change (length (str " ")) with 1%nat.
    change (length (show_int 1)) with 1%nat. lia. }
  destruct (gives_use _ _ _ _ _ _ _ Gm H5) as (s6 & E6 & H6). exists s6. split; [|exact H6]. apply bind_exn. rewrite (bind_val _ _ _ _ _ E6).
  assert (D : str_eqb msg (str "OK") = false) by (apply str_eqb_neq; discriminate). rewrite D. reflexivity.
Qed.
End Calling.

(** ** The generated module *)
Definition hpart (t : tree) : Prop :=
  match t with
  | TClass n ms => (ident n /\ hd 0 n <> 95) /\ ms <> [] /\ Forall (fun m => rest_of_name (fst m) /\ instance (snd m) = true) ms /\ NoDup (map fst ms)
  | _ => True
  end.
Definition hok (t : tree) : Prop := Forall hpart (parts t).
Lemma hok_class n ms : hok (TClass n ms) <-> hpart (TClass n ms) /\ Forall (fun m => hok (snd m)) ms.
Proof.
  unfold hok. cbn [parts]. rewrite Forall_cons_iff.
  assert (E : Forall hpart (flat_map (fun m => parts (snd m)) ms) <-> Forall (fun m => Forall hpart (parts (snd m))) ms).
  { induction ms as [|m ms IH]; [split; constructor|]. cbn [flat_map]. rewrite Forall_app, IH, Forall_cons_iff. reflexivity. }
  rewrite E. reflexivity.
Qed.
Lemma hmems_names ops : map fst (mems ops) = names_of ops.
Proof. induction ops as [|o ops IH]; [reflexivity|]. unfold mems, names_of in *. cbn [flat_map]. rewrite map_app, IH. now destruct o. Qed.
Lemma hcarried_ok c : hcarried c -> hok (shape c) /\ instance (shape c) = true.
Proof.
  induction c as [c H|t IH|k t IHk IHt|ops IH] using cty_rect'; intros C.
  - inversion C; subst; try contradiction; split; try reflexivity; repeat constructor.
  - inversion C as [| | | |t' C'| |]; subst. destruct (IH C') as (O & I). split; [|exact I]. unfold hok. cbn [shape parts]. now constructor.
  - inversion C as [| | | | |k' t' Kk Ct|]; subst. destruct (IHt Ct) as (O & I). destruct (IHk (hkey_carried k Kk)) as (O' & I'). split.
    + unfold hok. cbn [shape parts]. constructor; [exact Logic.I|]. apply Forall_app. now split.
    + cbn [shape instance]. now rewrite (key_in_order k Kk), I, I'.
  - inversion C as [| | | | | |ops' Ho (n & Hn) Nd Ne]; subst. split; [|reflexivity]. cbn [shape]. fold (nams ops) (mems ops). apply hok_class. split; [split; [|split; [|split]]|].
    + assert (In (last (nams ops) []) (nams ops)).
      { apply last_in. intros E. assert (In n (nams ops)); [|now rewrite E in H]. unfold nams. apply in_flat_map. exists (OName n). split; [exact Hn|now left]. }
      unfold nams in H at 2. apply in_flat_map in H as (o & Io & Eo). apply (proj1 (Forall_forall _ _) Ho) in Io. destruct Io as [n' Hi H95|n' t Hi Ct|t Ct]; [|destruct Eo|destruct Eo].
      destruct Eo as [<-|[]]. now split.
    + intros E. apply Ne. rewrite <- hmems_names, E. reflexivity.
    + clear - Ho IH. induction Ho as [|o ops Ho _ IHo]; [constructor|]. unfold mems in *. cbn [flat_map]. apply Forall_app. split; [|apply IHo; exact (Forall_inv_tail IH)].
      apply Forall_inv in IH. destruct Ho as [| n t Hr Ct|t Ct]; [constructor| |]; (constructor; [|constructor]); cbn [fst snd]; (split; [first [exact Hr|constructor]|apply IH; exact Ct]).
    + now rewrite hmems_names.
    + clear - Ho IH. induction Ho as [|o ops Ho _ IHo]; [constructor|]. unfold mems in *. cbn [flat_map]. apply Forall_app. split; [|apply IHo; exact (Forall_inv_tail IH)].
      apply Forall_inv in IH. destruct Ho as [| n t Hr Ct|t Ct]; [constructor| |]; (constructor; [|constructor]); cbn [snd]; apply IH; exact Ct.
Qed.
Lemma hname_types_id t : hok t -> forall a, name_types t a = (t, a).
Proof.
  induction t as [c H|t IH|k t IHk IHt|n ms IH] using tree_rect'; intros O a.
  - destruct c; try contradiction; reflexivity.
  - cbn [name_types]. unfold hok in O. cbn [parts] in O. rewrite IH by exact (Forall_inv_tail O). reflexivity.
  - cbn [name_types]. unfold hok in O. cbn [parts] in O. apply Forall_inv_tail, Forall_app in O as (Ok & Ot). rewrite IHk by exact Ok. rewrite IHt by exact Ot. reflexivity.
  - apply hok_class in O as (((Hn & _) & _) & Hms). cbn [name_types]. pose proof (ident_nonempty n Hn). destruct n as [|c n]; [congruence|].
    assert (E : forall a, (fix each (ms : list (list Z * tree)) (a : nat) : list (list Z * tree) * nat :=
                         match ms with
                         | [] => ([], a)
                         | (m, t) :: r => let '(t, a) := name_types t a in let '(r, a) := each r a in ((m, t) :: r, a)
                         end) ms a = (ms, a)).
    { clear - IH Hms. induction ms as [|[m t] ms IHm]; intros a; [reflexivity|]. rewrite (Forall_inv IH (Forall_inv Hms)). rewrite IHm; [reflexivity|exact (Forall_inv_tail IH)|exact (Forall_inv_tail Hms)]. }
    now rewrite E.
Qed.
Lemma tree_eqb_refl t : tree_eqb t t = true.
Proof.
  induction t as [c H|t IH|k t IHk IHt|n ms IH] using tree_rect'.
  - destruct c; try contradiction; cbn; try reflexivity. now rewrite Bool.eqb_reflx, Z.eqb_refl.
  - exact IH.
  - cbn [tree_eqb]. now rewrite IHk, IHt.
  - cbn [tree_eqb]. rewrite str_eqb_refl. cbn [andb]. induction ms as [|[m t] ms IHm]; [reflexivity|]. rewrite str_eqb_refl. rewrite (Forall_inv IH : tree_eqb t t = true). cbn [andb]. apply IHm. exact (Forall_inv_tail IH).
Qed.
Lemma idchar_ok c : letter c \/ 48 <= c <= 57 -> idcharb c = true /\ c < 128.
Proof.
  intros [H|H]; unfold idcharb.
  - rewrite letterb_ok by exact H. split; [reflexivity|]. unfold letter in H. lia.
  - split; [|lia]. rewrite orb_true_iff. left. apply orb_true_iff. right. unfold isdigit. lia.
Qed.
Lemma rest_chars n : rest_of_name n -> forallb idcharb n = true /\ ascii n = true.
Proof.
  intros H. split; apply forallb_forall; intros c Hc; apply (proj1 (Forall_forall _ _) H) in Hc; [now apply idchar_ok|]. apply Z.ltb_lt. now apply idchar_ok.
Qed.
Lemma ident_rest n : ident n -> rest_of_name n.
Proof. intros (c & r & -> & Hc & Hr). constructor; [now left|exact Hr]. Qed.
Lemma conid_ok n : ident n -> hd 0 n <> 95 -> conid (capital n) = true.
Proof.
  intros (c & r & -> & Hc & Hr) H. cbn [hd] in H. cbn [capital conid]. apply andb_true_iff. split; [|now apply rest_chars].
  unfold letter in Hc. destruct ((97 <=? c) && (c <=? 122)) eqn:E; lia.
Qed.
Lemma uncapital_capital n : uncapital (capital n) = uncapital n.
Proof.
  destruct n as [|c n]; [reflexivity|]. cbn [capital uncapital]. destruct ((97 <=? c) && (c <=? 122)) eqn:E; [|reflexivity].
  f_equal. destruct ((65 <=? c - 32) && (c - 32 <=? 90)) eqn:E1; destruct ((65 <=? c) && (c <=? 90)) eqn:E2; lia.
Qed.
Lemma fields_spec n ms : fields (n, ms) = map (field n) (map fst ms).
Proof. unfold fields, field. cbn [fst snd]. rewrite uncapital_capital, map_map. reflexivity. Qed.
Lemma ascii_app a b : ascii (a ++ b) = ascii a && ascii b.
Proof. apply forallb_app. Qed.
Lemma uncapital_ascii n : ident n -> ascii (uncapital n) = true.
Proof.
  intros (c & r & -> & Hc & Hr). cbn [uncapital ascii forallb]. apply andb_true_iff. split; [|now apply (rest_chars r)].
  unfold letter in Hc. destruct ((65 <=? c) && (c <=? 90)) eqn:E; lia.
Qed.
Lemma field_ascii n m : ident n -> rest_of_name m -> ascii (field n m) = true.
Proof. intros Hn Hm. unfold field. rewrite !ascii_app. rewrite uncapital_ascii by exact Hn. now rewrite (proj2 (rest_chars m Hm)). Qed.
Lemma field_inj n a b : field n a = field n b -> a = b.
Proof. unfold field. intros H. apply app_inv_head in H. now apply app_inv_head in H. Qed.
Lemma nodup_flat_map {T U} (f : T -> list U) l : NoDup l -> (forall x, In x l -> NoDup (f x)) -> (forall x y z, In x l -> In y l -> In z (f x) -> In z (f y) -> x = y) -> NoDup (flat_map f l).
Proof.
  induction 1 as [|x l Hx _ IH]; intros H1 H2; [constructor|]. cbn [flat_map]. apply nodup_app.
  - apply H1. now left.
  - apply IH; [intros y Hy; apply H1; now right|]. intros y z u Hy Hz. apply H2; now right.
  - intros u Hu K. apply in_flat_map in K as (y & Hy & K). assert (x = y) by (apply (H2 x y u); [now left|now right|exact Hu|exact K]). now subst.
Qed.
Section Module.
Context (taken : list (list Z)) (file : list Z) (s : ssig) (S : hsuitable taken file s).
Let ts := flat_map (fun p : list Z * (tree * list tree) => fst (snd p) :: snd (snd p)) (reflected s).
Let cls := collect ts.
Definition modl : hmodule := {| hclasses := cls; hprocs := reflected s |}.
Lemma ts_trees : ts = trees_of (map (fun s => (s_name s, reflected s)) [s]).
Proof. unfold trees_of. cbn [map flat_map snd]. now rewrite app_nil_r. Qed.
Lemma ts_shape t : In t ts -> exists c, In c (types_of [s]) /\ t = shape c.
Proof. rewrite ts_trees. apply trees_reflected. Qed.
Lemma ts_ok t : In t ts -> hok t /\ instance t = true.
Proof. intros H. apply ts_shape in H as (c & Hc & ->). apply hcarried_ok. exact (proj1 (Forall_forall _ _) (hs_types _ _ _ S) c Hc). Qed.
Lemma hgenerate_ok r : hgenerate (s :: r) = Ok modl.
Proof.
  unfold hgenerate. rewrite reflect_members_ok. cbn [obind]. fold (reflected s). rewrite (name_all_id name_method); [reflexivity|].
  apply Forall_forall. intros [m (t & l)] Hm a. unfold name_method.
  assert (G : forall x, In x (t :: l) -> hok x) by (intros x Hx; apply ts_ok; unfold ts; apply in_flat_map; exists (m, (t, l)); now split).
  rewrite hname_types_id by (apply G; now left). rewrite (name_all_id name_types); [reflexivity|]. apply Forall_forall. intros x Hx b. apply hname_types_id, G. now right.
Qed.
Lemma hcls_mentioned n ms : In (n, ms) cls -> mentioned [s] (TClass n ms).
Proof.
  unfold cls, collect. rewrite flat_traverse. intros H. apply (fold_class_in _ [] n ms) in H as [[]|H]. apply in_flat_map in H as (t & Ht & Hp). apply ts_shape in Ht as (c & Hc & ->).
  split; [exact I|]. now exists c.
Qed.
Lemma mentioned_ok t : mentioned [s] t -> hpart t.
Proof.
  intros (_ & c & Hc & Hp). destruct (hcarried_ok c (proj1 (Forall_forall _ _) (hs_types _ _ _ S) c Hc)) as (O & _). exact (proj1 (Forall_forall _ _) O _ Hp).
Qed.
Lemma cls_nodup : NoDup (map fst cls).
Proof. apply sorted_nodup. unfold cls, collect. apply fold_class_sorted. constructor. Qed.
Lemma cls_same n ms n' ms' : In (n, ms) cls -> In (n', ms') cls -> capital n = capital n' -> (n, ms) = (n', ms').
Proof. intros H H' E. pose proof (hs_classes _ _ _ S _ _ (hcls_mentioned _ _ H) (hcls_mentioned _ _ H') E) as [= -> ->]. reflexivity. Qed.
Lemma find_ok n ms : In (n, ms) cls -> find_class n cls = Some ms.
Proof.
  intros H. pose proof cls_nodup as Nd. clear - H Nd. induction cls as [|[m l] r IH]; [destruct H|]. cbn [find_class]. cbn [map fst] in Nd. inversion Nd as [|? ? Nin Nd']; subst.
  destruct (str_eqb m n) eqn:E.
  - apply str_eqb_eq in E. subst m. destruct H as [[= ->]|H]; [reflexivity|]. exfalso. apply Nin. exact (in_map fst _ _ H).
  - destruct H as [[= -> ->]|H]; [now rewrite str_eqb_refl in E|]. now apply IH.
Qed.
Lemma hprocs_in n t l : In (n, (t, l)) (reflected s) -> ident n /\ (forall x, In x (t :: l) -> In x ts).
Proof.
  intros H. split.
  - apply fold_madd_in in H as [[]|(c & cs & Hc & _)]. exact (proj1 (proj1 (Forall_forall _ _) (proj1 (hs_procs _ _ _ S)) _ Hc)).
  - intros x Hx. unfold ts. apply in_flat_map. exists (n, (t, l)). now split.
Qed.
Lemma compile_ok : compile taken file modl = Accepted.
Proof.
  unfold compile. destruct (hs_file _ _ _ S) as (If & N95).
  assert (E1 : forallb ascii (file :: map fst (hclasses modl) ++ flat_map fields (hclasses modl) ++ map fst (hprocs modl)) = true).
  { cbn [forallb modl hclasses hprocs]. rewrite (proj2 (rest_chars file (ident_rest _ If))). cbn [andb]. apply forallb_forall. intros x Hx. apply in_app_iff in Hx as [Hx|Hx]; [|apply in_app_iff in Hx as [Hx|Hx]].
    - apply in_map_iff in Hx as ([n ms] & <- & Hx). apply hcls_mentioned, mentioned_ok in Hx as ((Hi & _) & _). exact (proj2 (rest_chars _ (ident_rest _ Hi))).
    - apply in_flat_map in Hx as ([n ms] & Hc & Hx). rewrite fields_spec in Hx. apply in_map_iff in Hx as (m & <- & Hx). apply in_map_iff in Hx as (e & <- & Hx).
      apply hcls_mentioned, mentioned_ok in Hc as ((Hi & _) & _ & Hm & _). apply field_ascii; [exact Hi|]. exact (proj1 (proj1 (Forall_forall _ _) Hm e Hx)).
    - apply in_map_iff in Hx as ([n (t & l)] & <- & Hx). apply hprocs_in in Hx as (Hi & _). exact (proj2 (rest_chars _ (ident_rest _ Hi))). }
  assert (E2 : existsb (Z.eqb 46) file = false).
  { destruct (existsb (Z.eqb 46) file) eqn:E; [|reflexivity]. apply existsb_exists in E as (c & Hc & E). apply Z.eqb_eq in E. subst c. apply ident_rest in If. apply (proj1 (Forall_forall _ _) If) in Hc. unfold letter in Hc. lia. }
  rewrite E1, E2. cbn [negb andb].
  assert (E3 : fits_in taken file modl = true).
  { unfold fits_in. cbn [modl hclasses hprocs]. rewrite conid_ok by assumption. cbn [andb]. repeat (apply andb_true_iff; split).
    - apply forallb_forall. intros [n ms] Hc. apply hcls_mentioned in Hc. pose proof (mentioned_ok _ Hc) as ((Hi & H95) & Hne & Hm & _). cbn [fst snd]. rewrite conid_ok by assumption.
      rewrite (absent _ _ (hs_names _ _ _ S _ Hc) : negb (existsb (str_eqb (capital n)) (taken ++ hlibrary)) = true). destruct ms as [|e ms]; [congruence|]. cbn [negb andb]. apply forallb_forall. intros x Hx. apply (proj1 (Forall_forall _ _) Hm) in Hx as (Hr & Hx). rewrite Hx.
      now rewrite (proj1 (rest_chars _ Hr)).
    - apply nodupb_ok. assert (G : NoDup cls) by exact (NoDup_map_inv fst cls cls_nodup). apply (nodup_map_on _ _ G). intros [n ms] [n' ms'] H H' E. now apply cls_same.
    - apply nodupb_ok. apply nodup_app.
      + apply nodup_flat_map; [exact (NoDup_map_inv fst cls cls_nodup)| |].
        * intros [n ms] H. rewrite fields_spec. apply hcls_mentioned, mentioned_ok in H as (_ & _ & _ & Nd). apply (nodup_map_on _ _ Nd). intros a b _ _. apply field_inj.
        * intros [n ms] [n' ms'] z H H' Hz Hz'. rewrite fields_spec in Hz, Hz'. apply in_map_iff in Hz as (m & <- & Hm). apply in_map_iff in Hz' as (m' & E & Hm').
          pose proof (hs_fields _ _ _ S _ _ _ _ (hcls_mentioned _ _ H) (hcls_mentioned _ _ H') Hm Hm' (eq_sym E)) as [= -> ->]. reflexivity.
      + assert (G : NoDup (map fst (reflected s))) by (apply sorted_nodup; apply fold_madd_sorted; constructor).
        rewrite <- (map_map fst (fun m => str "call_" ++ m)). apply (nodup_map_on _ _ G). intros a b _ _ E. now apply app_inv_head in E.
      + intros z Hz K. apply in_flat_map in Hz as ([n ms] & Hc & Hz). rewrite fields_spec in Hz. apply in_map_iff in Hz as (m & <- & Hm). apply in_map_iff in K as ([p (t & l)] & E & Hp).
        apply fold_madd_in in Hp as [[]|(c & cs & Hp & _)]. apply (hs_calls _ _ _ S _ m (p, (c, cs)) (hcls_mentioned _ _ Hc) Hm Hp). symmetry. exact E.
    - apply forallb_forall. intros [n (t & l)] Hp. apply hprocs_in in Hp as (Hi & Ht). cbn [fst snd]. rewrite (proj1 (rest_chars _ (ident_rest _ Hi))). rewrite (proj2 (ts_ok t (Ht t (or_introl eq_refl)))). cbn [andb].
      apply forallb_forall. intros x Hx. exact (proj2 (ts_ok x (Ht x (or_intror Hx)))). }
  rewrite E3. cbn [negb].
  assert (E4 : forallb (as_defined (hclasses modl)) (flat_map (fun p => flat_map traverse (fst (snd p) :: snd (snd p))) (hprocs modl)) = true); [|now rewrite E4].
  apply forallb_forall. intros t Ht. apply in_flat_map in Ht as ([n (r & l)] & Hp & Ht). rewrite flat_traverse in Ht. apply in_flat_map in Ht as (u & Hu & Ht). apply hprocs_in in Hp as (_ & Hp). apply Hp in Hu.
  cbn [modl hclasses]. destruct t as [| | | | | | | |k ks]; try reflexivity. cbn [as_defined].
  assert (K : In k (map fst cls)).
  { unfold cls, collect. rewrite flat_traverse. apply (fold_class_key _ [] k). right. exists ks. apply in_flat_map. now exists u. }
  apply in_map_iff in K as ([k' ks'] & E & K). cbn [fst] in E. subst k'. rewrite (find_ok _ _ K).
  assert (M2 : mentioned [s] (TClass k ks)) by (apply ts_shape in Hu as (c & Hc & ->); split; [exact I|now exists c]).
  pose proof (hs_classes _ _ _ S _ _ M2 (hcls_mentioned _ _ K) eq_refl) as E. rewrite E. apply tree_eqb_refl.
Qed.
Lemma hproc_ok m ret args : In (m, (ret, args)) (s_procs s) -> hproc m (hprocs modl) = Some (shape ret, map shape args).
Proof.
  intros H. destruct (hs_procs _ _ _ S) as (_ & Nd). assert (Hr : In (m, (shape ret, map shape args)) (reflected s)) by (apply fold_madd_has; assumption).
  assert (Nr : NoDup (map fst (reflected s))) by (apply sorted_nodup; apply fold_madd_sorted; constructor). cbn [modl hprocs]. clear - Nr Hr.
  induction (reflected s) as [|[n x] l IH]; [destruct Hr|]. cbn [hproc]. cbn [map fst] in Nr. inversion Nr as [|? ? Np Nl]; subst.
  destruct (str_eqb n m) eqn:E.
  - apply str_eqb_eq in E. subst n. destruct Hr as [[= ->]|Hr]; [reflexivity|]. exfalso. apply Np. exact (in_map fst _ _ Hr).
  - destruct Hr as [[= -> ->]|Hr]; [now rewrite str_eqb_refl in E|]. now apply IH.
Qed.
Lemma hcarried_proc m ret args : In (m, (ret, args)) (s_procs s) -> hcarried ret /\ Forall hcarried args.
Proof.
  intros H. pose proof (hs_types _ _ _ S) as T. rewrite Forall_forall in T. assert (G : forall c, In c (ret :: args) -> hcarried c).
  { intros c Hc. apply T. unfold types_of. apply in_flat_map. exists s. split; [now left|]. apply in_flat_map. exists (m, (ret, args)). now split. }
  split; [apply G; now left|]. apply Forall_forall. intros c Hc. apply G. now right.
Qed.
Lemma hident_proc m ret args : In (m, (ret, args)) (s_procs s) -> ident m /\ small m.
Proof. intros H. exact (proj1 (Forall_forall _ _) (proj1 (hs_procs _ _ _ S)) _ H). Qed.
Context (conv : Z -> Z) (Conv : conversion conv) {A : Type} (svc : service A).
Lemma hcalls_ok : hoffers svc s -> forall calls, Forall (hproper s) calls -> forall (st : @pst A) a, has st [] (Some []) [] a ->
  exists rs st' a', hcalls conv 1 svc modl calls st = (Val rs, st') /\ has st' [] (Some []) [] a' /\ hanswered svc s a calls a' rs.
Proof.
  intros Of. induction calls as [|[m ps] calls IH]; intros HP st a H; [exists [], st, a; split; [reflexivity|]; split; [exact H|constructor]|].
  destruct (Forall_inv HP) as (ret & args & vs & Hp & Hst). cbn [fst snd] in Hp, Hst. destruct (Of m ret args Hp) as (f & Hreg & Hfa & Hfr & Hbody). destruct (hcarried_proc _ _ _ Hp) as (HCr & HCa).
  destruct (hident_proc _ _ _ Hp) as (Hi & Hsm). destruct (Hbody a vs) as (a1 & v & Eb & Hv & Fv); [rewrite Hfa; exact (proj1 Hst)|]. rewrite Hfr in Hv.
  destruct (hcall_ok conv Conv svc st m ret args f vs ps a a1 v) as (p & st1 & E1 & Rp & H1); try assumption.
  destruct (IH (Forall_inv_tail HP) st1 a1 H1) as (rs & st2 & a2 & E2 & H2 & A2). exists (p :: rs), st2, a2. split; [|split; [exact H2|]].
  - cbn [hcalls]. rewrite (hproc_ok _ _ _ Hp). rewrite (bind_val _ _ _ _ _ E1). rewrite (bind_val _ _ _ _ _ E2). reflexivity.
  - exact (ha_cons svc s a m ps ret args f vs a1 v p calls a2 rs Hp Hreg Hst Eb Rp A2).
Qed.
Lemma calls_typed calls : Forall (hproper s) calls -> forallb (call_typed modl) calls = true.
Proof.
  intros H. apply forallb_forall. intros [m ps] Hc. apply (proj1 (Forall_forall _ _) H) in Hc as (ret & args & vs & Hp & Hst). cbn [fst snd] in Hp, Hst. unfold call_typed. cbn [fst snd]. rewrite (hproc_ok _ _ _ Hp).
  exact (proj1 (hargs_ok conv Conv (A := unit) args vs ps (proj2 (hcarried_proc _ _ _ Hp)) Hst)).
Qed.
Lemma hconnect_ok a n : exists st, hconnect {| pbuf := []; wld := start a (Datatypes.S n); cuts := [] |} = (Val tt, st) /\ has (A := A) st [] (Some []) [] a.
Proof. eexists. split; [reflexivity|]. repeat split. Qed.
Lemma hsession r a n : hoffers svc s -> forall calls, Forall (hproper s) calls ->
  exists rs a', hrun conv 1 svc a (Datatypes.S n) taken file (s :: r) calls = (Ran (Val rs), a') /\ hanswered svc s a calls a' rs.
Proof.
  intros Of calls HP. destruct (hconnect_ok a n) as (st & E & H). destruct (hcalls_ok Of calls HP st a H) as (rs & st' & a' & E' & H' & An).
  exists rs, a'. split; [|exact An]. unfold hrun, hprogram. rewrite hgenerate_ok, compile_ok, (calls_typed calls HP). rewrite (bind_val _ _ _ _ _ E), E'. f_equal. exact (proj1 (proj2 (proj2 H'))).
Qed.
Lemma hsession_version r ver a n : ver <> 1 -> int32 ver -> hoffers svc s -> forall c calls, Forall (hproper s) (c :: calls) ->
  hrun conv ver svc a (Datatypes.S n) taken file (s :: r) (c :: calls) = (Ran (Exn (str "wrong result code: VersionMismatch " ++ show_int ver ++ str " 1")), a).
Proof.
  intros Hver Hv32 Of [m ps] calls HP. pose proof (calls_typed _ HP) as T. destruct (Forall_inv HP) as (ret & args & vs & Hp & Hst). cbn [fst snd] in *. destruct (hconnect_ok a n) as (st & E & H).
  destruct (Of m ret args Hp) as (f & Hreg & _). destruct (hcarried_proc _ _ _ Hp) as (HCr & HCa). destruct (hident_proc _ _ _ Hp) as (Hi & Hsm).
  destruct (hcall_version conv Conv svc ver st m (shape ret) args f vs ps a) as (st' & E' & H'); try assumption.
  unfold hrun, hprogram. rewrite hgenerate_ok, compile_ok, T. rewrite (bind_val _ _ _ _ _ E). cbn [hcalls]. rewrite (hproc_ok _ _ _ Hp). rewrite (bind_exn _ _ _ _ _ E'). f_equal. exact (proj1 (proj2 (proj2 H'))).
Qed.
End Module.
