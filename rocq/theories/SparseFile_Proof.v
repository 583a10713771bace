(** Proofs about files of sparse matrices. *)
From Verif Require Import Common CommonLemmas Code_Model Sparse_Spec Sparse_Model Sparse_Proof SparseFile_Model SparseFile_Spec.
Local Open Scope Z_scope.

Lemma same_refl n : same_name n n = true.
Proof. unfold same_name. destruct (list_eq_dec Z.eq_dec n n); congruence. Qed.
Lemma same_ne a b : a <> b -> same_name a b = false.
Proof. unfold same_name. destruct (list_eq_dec Z.eq_dec a b); congruence. Qed.
Lemma eqn_refl n : eqn n n = true.
Proof. exact (same_refl n). Qed.
Lemma eqn_ne a b : a <> b -> eqn a b = false.
Proof. exact (same_ne a b). Qed.
Lemma put_same f n c : put f n c n = Some c.
Proof. unfold put. now rewrite same_refl. Qed.
Lemma put_other f n c k : k <> n -> put f n c k = f k.
Proof. intros H. unfold put. now rewrite same_ne. Qed.
Lemma set_same m n x : set m n x n = x.
Proof. unfold set. now rewrite eqn_refl. Qed.
Lemma set_other m n x k : k <> n -> set m n x k = m k.
Proof. intros H. unfold set. now rewrite eqn_ne. Qed.
Lemma offset_inj a b : offset_name a = offset_name b -> a = b.
Proof. apply app_inv_tail. Qed.

(** * Files that are not named are not touched, whatever the system does *)
Definition named (l : list (env * op)) (k : name) : Prop := exists n, In (WOpen n) (map snd l) /\ (k = n \/ k = offset_name n).
Definition mine (w : wobj) (k : name) : Prop := match w with None => False | Some (n, _) => k = n \/ k = offset_name n end.
Lemma close_frame e f w k : ~ mine w k -> close_writer e f w k = f k.
Proof.
  destruct w as [[n w]|]; cbn [mine close_writer]; [|reflexivity]. intros H. destruct (close_w w) as [d o]. destruct (can_open_offset e).
  - rewrite !put_other by tauto. reflexivity.
  - now rewrite put_other by tauto.
Qed.
Lemma destroy_frame e f w k : ~ mine w k -> destroy_writer e f w k = f k.
Proof. destruct w as [[n w]|]; cbn [mine destroy_writer]; [|reflexivity]. intros H. now rewrite put_other by tauto. Qed.
Lemma frame l : forall s s' xs k, run l s = Ok (s', xs) -> ~ named l k -> ~ mine (wtr s) k -> disk s' k = disk s k /\ ~ mine (wtr s') k.
Proof.
  induction l as [|[e o] l IH]; intros s s' xs k H Hn Hm; cbn [run] in H; [injection H as <- <-; auto|].
  destruct (step e o s) as [[s1 x]| | |] eqn:E; cbn [obind] in H; try discriminate.
  destruct (run l s1) as [[s2 ys]| | |] eqn:E2; cbn [obind] in H; try discriminate. injection H as <- <-.
  assert (Hl : ~ named l k). { intros [n [H1 H2]]. apply Hn. exists n. split; [right; exact H1|exact H2]. }
  assert (HS : disk s1 k = disk s k /\ ~ mine (wtr s1) k).
  { destruct o as [n|r| | | |n| | |i|i]; cbn [step] in E.
    - unfold open_writer in E. assert (Hk : ~ (k = n \/ k = offset_name n)). { intros H. apply Hn. exists n. split; [now left|exact H]. }
      destruct (can_open e); injection E as <- <-; cbn [disk wtr mine].
      + rewrite put_other by tauto. now rewrite close_frame.
      + rewrite close_frame by assumption. tauto.
    - destruct (wtr s) as [[n w]|] eqn:Ew; cbn [append] in E.
      + destruct (append_row r w) as [w2| | |]; cbn [obind] in E; try discriminate. injection E as <- <-. cbn [disk wtr mine]. auto.
      + cbn [obind] in E. injection E as <- <-. cbn [disk wtr mine]. auto.
    - injection E as <- <-. cbn [disk wtr mine]. rewrite close_frame by assumption. tauto.
    - injection E as <- <-. cbn [disk wtr mine]. rewrite destroy_frame by assumption. tauto.
    - destruct (writer_row_num (wtr s)); cbn [obind] in E; try discriminate. injection E as <- <-. auto.
    - destruct (open_reader e (disk s) (wtr s) n) as [[r z]| | |]; cbn [obind] in E; try discriminate. injection E as <- <-. auto.
    - injection E as <- <-. auto.
    - injection E as <- <-. auto.
    - destruct (reader_row_size (rdr s) i); cbn [obind] in E; try discriminate. injection E as <- <-. auto.
    - destruct (reader_row (rdr s) i); cbn [obind] in E; try discriminate. injection E as <- <-. auto. }
  destruct HS as [H1 H2]. destruct (IH _ _ _ _ E2 Hl H2) as [H3 H4]. split; [congruence|exact H4].
Qed.

(** * With a system that does what it is asked *)
Definition stored (f : fs) (n : name) (m : list row) : Prop :=
  simple n /\ Forall row_ok m /\ fits m /\ f n = Some (fst (files_of m)) /\ f (offset_name n) = Some (snd (files_of m)).
Definition loaded (m : list row) : robj := RObj (Some (attach_stream (all_data m))) (Some (infos_of m, offs 0 m)).
Record inv (s : state) (h : shop) : Prop := Inv {
  i_mats : forall n m, mats h n = Some m -> stored (disk s) n m;
  i_cur : match cur h with
          | None => wtr s = None
          | Some (n, m) => simple n /\ Forall row_ok m /\ fits m /\ mats h n = None /\ exists o, wtr s = Some (n, mkW (all_data m) (infos_of m) o) /\ offs_ok m o
          end;
  i_rd : match rd h with None => rdr s = rclosed | Some m => rdr s = loaded m /\ Forall row_ok m /\ fits m end }.
Lemma close_mk m o : close_w (mkW (all_data m) (infos_of m) o) = files_of m.
Proof. unfold close_w, files_of. cbn [data infos]. unfold infos_of at 1. now rewrite map_length. Qed.
Lemma stored_put2 f n m : simple n -> Forall row_ok m -> fits m -> stored (put (put f n (fst (files_of m))) (offset_name n) (snd (files_of m))) n m.
Proof.
  intros H1 H2 H3. split; [exact H1|]. split; [exact H2|]. split; [exact H3|]. split; [|apply put_same].
  rewrite put_other by apply (H1 n). apply put_same.
Qed.
Lemma stored_put f n m k c : stored f n m -> k <> n -> k <> offset_name n -> stored (put f k c) n m.
Proof. intros [H1 [H2 [H3 [H4 H5]]]] A B. split; [exact H1|]. split; [exact H2|]. split; [exact H3|]. rewrite !put_other by congruence. auto. Qed.
Lemma closed_mats e s h : good e -> inv s h -> forall n m, save h n = Some m -> stored (close_writer e (disk s) (wtr s)) n m.
Proof.
  intros [G1 [G2 [G3 G4]]] [I1 I2 I3] n m H. unfold save in H. destruct (cur h) as [[c x]|].
  - destruct I2 as [J1 [J2 [J3 [J4 [o [J5 J6]]]]]]. rewrite J5. cbn [close_writer]. rewrite close_mk. destruct (files_of x) as [d b] eqn:E. rewrite G2, G3, G4. cbn [cut].
    destruct (list_eq_dec Z.eq_dec n c) as [->|Hn].
    + rewrite set_same in H. injection H as <-. assert (K := stored_put2 (disk s) c x J1 J2 J3). now rewrite E in K.
    + rewrite set_other in H by assumption. apply I1 in H. assert (S := proj1 H).
      apply stored_put; [apply stored_put; [exact H|congruence|apply J1]| |].
      * intros Q. exact (S c (eq_sym Q)).
      * intros Q. apply offset_inj in Q. congruence.
  - rewrite I2. cbn [close_writer]. auto.
Qed.
Lemma read_size m i : 0 <= i -> reader_row_size (loaded m) i = Ok match find_row m i with Some r => Z.of_nat (length r) | None => -1 end.
Proof.
  intros Hi. unfold reader_row_size, loaded. cbn [r_offs]. unfold get_row_size. change (num (as_reader no_dec (infos_of m, offs 0 m)) i) with (num (reader_of m) i).
  unfold find_row. destruct (nth_error m (Z.to_nat i)) as [r|] eqn:E; [now apply num_ok|].
  apply nth_error_None in E. unfold num. rewrite row_num_ok, (proj2 (Z.leb_le _ _)) by lia. reflexivity.
Qed.
Lemma read_row_at m i : Forall row_ok m -> 0 <= i -> reader_row (loaded m) i = Ok (find_row m i).
Proof.
  intros Hm Hi. unfold reader_row, loaded. cbn [r_offs r_dc]. change (as_reader (attach_stream (all_data m)) (infos_of m, offs 0 m)) with (reader_of m).
  unfold find_row. destruct (nth_error m (Z.to_nat i)) as [r|] eqn:E; [now apply get_row_ok|].
  apply nth_error_None in E. apply get_row_past. lia.
Qed.
Lemma open_stored e f w n m : can_open e = true -> can_open_offset e = true -> stored f n m -> match w with Some (c, _) => c <> n /\ simple c | None => True end ->
  open_reader e f w n = Ok (loaded m, 0).
Proof.
  intros G1 G2 [S1 [S2 [S3 [S4 S5]]]] Hw. unfold open_reader. rewrite G1, G2.
  assert (D : on_disk e f w n = f n). { unfold on_disk. destruct w as [[c w]|]; [|reflexivity]. now rewrite same_ne by (intro; apply (proj1 Hw); congruence). }
  assert (O : on_disk e f w (offset_name n) = f (offset_name n)).
  { unfold on_disk. destruct w as [[c w]|]; [|reflexivity]. rewrite same_ne; [reflexivity|]. intros Q. exact (proj2 Hw n (eq_sym Q)). }
  rewrite D, O, S4, S5. cbn [option_map]. assert (K := open_ok m S3). destruct (files_of m) as [d o] eqn:E.
  assert (K2 : open_r ([], o) = Ok (mkR (attach_stream []) (infos_of m) (offs 0 m))).
  { unfold open_r in K |- *. cbn [fst snd] in *. destruct (Nat.ltb (length o) 4); [discriminate|]. destruct (rd4 o <? 0); [discriminate|].
    generalize dependent (read_infos (Z.to_nat (rd4 o)) (skipn 4 o)). intros is K. destruct (sum_up 0 is) as [os| | |]; cbn [obind] in *; try discriminate. unfold reader_of in K. injection K as K1 K2 K3. now rewrite K2, K3. }
  cbn [snd fst]. rewrite K2. cbn [obind r_infos r_offsets]. replace d with (all_data m) by (unfold files_of in E; congruence). reflexivity.
Qed.
Lemma step_ok e o s h h' x : good e -> op_ok o -> inv s h -> expect o h = Some (h', x) -> match cur h' with Some (_, m) => fits m | None => True end ->
  exists s', step e o s = Ok (s', x) /\ inv s' h'.
Proof.
  intros G Ho I E Hf. assert (C := closed_mats e s h G I). destruct I as [I1 I2 I3]. destruct G as [G1 [G2 [G3 G4]]].
  destruct o as [n|r| | | |n| | |i|i]; cbn [step expect op_ok] in *.
  - injection E as <- <-. unfold open_writer. rewrite G1. eexists. split; [reflexivity|]. split; cbn [mats cur rd disk wtr rdr] in *.
    + intros k m H. destruct (list_eq_dec Z.eq_dec k n) as [->|Hk]; [rewrite set_same in H; discriminate|]. rewrite set_other in H by assumption. apply C in H.
      apply stored_put; [exact H|congruence|apply Ho].
    + split; [exact Ho|]. split; [constructor|]. split; [exact Hf|]. split; [apply set_same|]. exists None. split; [reflexivity|exact Logic.I].
    + exact I3.
  - injection E as <- <-. destruct (cur h) as [[n m]|] eqn:Ec.
    + cbn [cur] in Hf. destruct I2 as [J1 [J2 [J3 [J4 [o [J5 J6]]]]]]. rewrite J5. cbn [append].
      destruct (append_rows_ok [r] m (mkW (all_data m) (infos_of m) o)) as [o' [K1 K2]]; [repeat constructor; exact Ho|exact (proj1 Hf)|reflexivity|reflexivity|exact J6|].
      cbn [append_rows] in K1. destruct (append_row r (mkW (all_data m) (infos_of m) o)) as [w| | |]; cbn [obind] in K1; try discriminate. injection K1 as ->. cbn [obind].
      eexists. split; [reflexivity|]. split; cbn [mats cur rd disk wtr rdr]; [exact I1| |exact I3].
      split; [exact J1|]. split; [apply Forall_app; split; [exact J2|repeat constructor; exact Ho]|]. split; [exact Hf|]. split; [exact J4|]. eauto.
    + rewrite I2. cbn [append obind]. eexists. split; [reflexivity|]. split; cbn [mats cur rd disk wtr rdr]; auto.
  - injection E as <- <-. eexists. split; [reflexivity|]. split; cbn [mats cur rd disk wtr rdr]; auto.
  - destruct (cur h) as [[n m]|] eqn:Ec; [discriminate|]. injection E as <- <-. rewrite I2. cbn [destroy_writer]. eexists. split; [reflexivity|]. split; cbn [mats cur rd disk wtr rdr]; auto. now rewrite Ec.
  - destruct (cur h) as [[n m]|] eqn:Ec; [|discriminate]. injection E as <- <-. assert (I2' := I2). destruct I2 as [J1 [J2 [J3 [J4 [o [J5 J6]]]]]]. rewrite J5. cbn [writer_row_num obind infos].
    unfold infos_of at 1. rewrite map_length, int_of_id by (destruct J3; lia). eexists. split; [reflexivity|]. split; [exact I1|now rewrite Ec|exact I3].
  - destruct (mats h n) as [m|] eqn:Em; [|discriminate]. injection E as <- <-. rewrite (open_stored e (disk s) (wtr s) n m G1 G2 (I1 _ _ Em)).
    + cbn [obind]. eexists. split; [reflexivity|]. split; cbn [mats cur rd disk wtr rdr]; [exact I1|exact I2|]. destruct (I1 _ _ Em) as [_ [A [B _]]]. auto.
    + destruct (cur h) as [[c x]|]; [|now rewrite I2]. destruct I2 as [J1 [J2 [J3 [J4 [o [J5 J6]]]]]]. rewrite J5. split; [congruence|exact J1].
  - injection E as <- <-. eexists. split; [reflexivity|]. split; cbn [mats cur rd disk wtr rdr]; auto.
  - injection E as <- <-. exists s. split; [|split; assumption]. f_equal. f_equal. f_equal. destruct (rd h) as [m|].
    + destruct I3 as [-> _]. exact (row_num_ok m).
    + now rewrite I3.
  - destruct (Z.ltb_spec i 0); [discriminate|]. injection E as <- <-. exists s. split; [|split; assumption]. destruct (rd h) as [m|].
    + destruct I3 as [-> _]. now rewrite read_size.
    + now rewrite I3.
  - destruct (Z.ltb_spec i 0); [discriminate|]. injection E as <- <-. exists s. split; [|split; assumption]. destruct (rd h) as [m|].
    + destruct I3 as [-> [H1 _]]. now rewrite read_row_at.
    + now rewrite I3.
Qed.
Lemma run_ok l : forall s h h' xs, Forall (fun p => good (fst p) /\ op_ok (snd p)) l -> inv s h -> all_fit (map snd l) h -> expected (map snd l) h = Some (h', xs) ->
  exists s', run l s = Ok (s', xs) /\ inv s' h'.
Proof.
  induction l as [|[e o] l IH]; intros s h h' xs Hl I Hf E; cbn [map snd expected all_fit run] in *; [injection E as <- <-; eauto|].
  destruct (expect o h) as [[h1 x]|] eqn:E1; [|discriminate]. destruct Hf as [F1 F2]. destruct (expected (map snd l) h1) as [[h2 ys]|] eqn:E2; [|discriminate]. injection E as <- <-.
  apply Forall_cons_iff in Hl as [[A B] Hl]. destruct (step_ok e o s h h1 x A B I E1 F1) as [s1 [K1 K2]]. rewrite K1. cbn [obind].
  destruct (IH _ _ _ _ Hl K2 F2 E2) as [s2 [L1 L2]]. rewrite L1. cbn [obind]. eauto.
Qed.

(** * Transposing *)
Lemma transpose_named ea eb free f a b m : good ea -> good eb -> simple b -> stored f a m -> matrix m ->
  exists f' t, matrix_transpose ea eb (Some free) f a b = Ok (f', 0) /\ stored f' b t /\ matrix t /\ trimmed t /\ (forall r c v, entry t c r v <-> entry m r c v) /\
    (forall k, k <> b -> k <> offset_name b -> f' k = f k).
Proof.
  intros [G1 [G2 [G3 G4]]] [B1 [B2 [B3 B4]]] Hb S Hm. assert (S' := S). destruct S' as [_ [Hr [Hf _]]]. destruct (transpose_ok m free Hm Hf) as [t [E [Ht [Hft [Htr He]]]]].
  unfold matrix_transpose. rewrite (open_stored ea f None a m G1 G2 S I). cbn [obind Z.ltb Z.compare]. unfold open_writer. rewrite B1. cbn [Z.ltb Z.compare].
  unfold transpose in E. rewrite (open_ok m Hf) in E. cbn [obind] in E.
  unfold all_rows, loaded, reader_row_num. cbn [r_dc r_offs]. change (as_reader (attach_stream (all_data m)) (infos_of m, offs 0 m)) with (reader_of m).
  change (row_num (as_reader no_dec (infos_of m, offs 0 m))) with (row_num (reader_of m)).
  destruct (get_rows (reader_of m) 0 (Z.to_nat (row_num (reader_of m)))) as [ls| | |]; cbn [obind] in E |- *; try discriminate.
  destruct (count_rows ls []) as [t0| | |]; cbn [obind] in E |- *; try discriminate.
  destruct (parts (reader_of m) 0 (bounds (free / 20) t0 0 0) open_w) as [w| | |]; cbn [obind] in E |- *; try discriminate. assert (E' : close_w w = files_of t) by congruence. clear E. rename E' into E.
  assert (Htt : Forall row_ok t) by apply (matrix_split t Ht).
  cbn [close_writer]. rewrite E. destruct (files_of t) as [d o] eqn:Et. rewrite B2, B3, B4. cbn [cut].
  eexists. exists t. split; [reflexivity|]. split; [|split; [exact Ht|split; [exact Htr|split; [exact He|]]]].
  - assert (K := stored_put2 (put f b []) b t Hb Htt Hft). now rewrite Et in K.
  - intros k K1 K2. now rewrite !put_other by assumption.
Qed.
