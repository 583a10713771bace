(** Property C121: programs with a sparse_matrix_writer and a sparse_matrix_reader find the matrices that were stored. *)
From Verif Require Import Common CommonLemmas Code_Model Sparse_Spec Sparse_Model Sparse_Proof SparseFile_Model SparseFile_Spec SparseFile_Proof.
Local Open Scope Z_scope.

(** Both files of a matrix are on the disk. *)
Definition on (f : fs) (n : name) (m : list row) : Prop :=
  simple n /\ Forall row_ok m /\ fits m /\ exists d o, write m = Ok (d, o) /\ f n = Some d /\ f (offset_name n) = Some o.
Lemma on_stored f n m : on f n m <-> stored f n m.
Proof.
  split.
  - intros [H1 [H2 [H3 [d [o [H4 [H5 H6]]]]]]]. rewrite (write_ok m H2 (proj1 H3)) in H4. injection H4 as <- <-. split; [exact H1|]. split; [exact H2|]. split; [exact H3|]. split; [exact H5|exact H6].
  - intros [H1 [H2 [H3 [H4 H5]]]]. split; [exact H1|]. split; [exact H2|]. split; [exact H3|]. exists (fst (files_of m)), (snd (files_of m)). split; [|auto].
    rewrite (write_ok m H2 (proj1 H3)). now destruct (files_of m).
Qed.

(** If the system does what it is asked, a program of any length gets what it expects from the matrices stored by name: writing to a new
    name or over an old one, while reading another or the old one; the matrices closed by then are on the disk.
    Missing for the full claim: failures of the system, a writer destroyed while it is open, reading what is being written, names that end in .offset; see below. *)
Theorem C121_history_partial : forall f m0 l h xs,
  (forall n m, m0 n = Some m -> on f n m) ->
  Forall (fun p => good (fst p) /\ op_ok (snd p)) l ->
  all_fit (map snd l) (Shop m0 None None) -> expected (map snd l) (Shop m0 None None) = Some (h, xs) ->
  exists s, run l (start f) = Ok (s, xs) /\ forall n m, mats h n = Some m -> on (disk s) n m.
Proof.
  intros f m0 l h xs H0 Hl Hf E. destruct (run_ok l (start f) (Shop m0 None None) h xs Hl) as [s [H1 H2]]; [|exact Hf|exact E|].
  - split; cbn; [|reflexivity|reflexivity]. intros n m H. now apply on_stored, H0.
  - exists s. split; [exact H1|]. intros n m H. apply on_stored. now apply (i_mats _ _ H2).
Qed.
Definition fine : env := Env true true None None 0.
Definition none : fs := fun _ => None.
Definition prog1 : list op :=
  [WOpen (str "a"); WAppend [(0, 7); (3, 255)]; WAppend []; WNum; WClose; WNew; ROpen (str "a"); RNum; WOpen (str "a"); WAppend [(2, 2)]; WOpen (str "b"); RRow 0; ROpen (str "a"); RNum; RRow 0; RRow 1; RSize 0; RSize 5; RClose; RNum; RSize 3; RRow 0].
Definition res1 : list res :=
  [Int 0; Done; Done; Int 2; Done; Done; Int 0; Int 2; Int 0; Done; Int 0; Row (Some [(0, 7); (3, 255)]); Int 0; Int 1; Row (Some [(2, 2)]); Row None; Int 1; Int (-1); Done; Int 0; Int 0; Row None].
Lemma simple1 c : simple [c].
Proof. intros x H. apply (f_equal (@length Z)) in H. rewrite app_length in H. cbn in H. lia. Qed.
Example C121_history_nonvacuous :
  Forall (fun p => good (fst p) /\ op_ok (snd p)) (map (fun o => (fine, o)) prog1) /\ all_fit prog1 empty_shop /\
  option_map snd (expected prog1 empty_shop) = Some res1 /\
  omap snd (run (map (fun o => (fine, o)) prog1) (start none)) = Ok res1.
Proof.
  split; [|split; [|split; vm_compute; reflexivity]].
  - unfold prog1. cbn [map]. repeat (constructor; [split; [repeat split|]; cbn [op_ok snd]; try exact I; try apply simple1; repeat constructor; cbn [fst snd]; lia|]). constructor.
  - cbn. unfold fits. cbn. repeat split; lia.
Qed.

(** Whatever the system does, no files but those opened for writing and their .offset files change. *)
Theorem C121_others : forall f l s xs k, run l (start f) = Ok (s, xs) ->
  (forall n, In (WOpen n) (map snd l) -> k <> n /\ k <> n ++ str ".offset") -> disk s k = f k.
Proof.
  intros f l s xs k H Hk. destruct (frame l (start f) s xs k H) as [E _]; [|intros []|exact E].
  intros [n [H1 H2]]. destruct (Hk n H1) as [A B]. destruct H2; [now apply A|now apply B].
Qed.
Example C121_others_nonvacuous :
  match run [(fine, WOpen (str "a")); (Env true false (Some 1%nat) None 0, WClose)] (start (put none (str "c") [1; 2])) with
  | Ok (s, _) => disk s (str "c") = Some [1; 2] /\ disk s (str "a") = Some [] /\ disk s (str "a.offset") = None
  | _ => False
  end.
Proof. vm_compute. repeat split. Qed.

(** A file that cannot be opened: -1; all rows appended from there on are lost without a word. *)
Theorem C121_open_failed_refuted : forall e n l s, can_open e = false -> Forall (fun p => match snd p with WAppend _ | WClose => True | _ => False end) l ->
  exists s1, step e (WOpen n) s = Ok (s1, Int (-1)) /\ disk s1 = close_writer e (disk s) (wtr s) /\ wtr s1 = None /\ run l s1 = Ok (s1, map (fun _ => Done) l).
Proof.
  intros e n l s H Hl. cbn [step]. unfold open_writer. rewrite H. eexists. split; [reflexivity|]. split; [reflexivity|]. split; [reflexivity|].
  induction l as [|[e' o] l IH]; [reflexivity|]. apply Forall_cons_iff in Hl as [H1 H2]. destruct o; cbn [snd] in H1; try contradiction; cbn [run step wtr append obind close_writer disk rdr] in *;
    rewrite (IH H2); reflexivity.
Qed.
Example C121_open_failed_nonvacuous : can_open (Env false true None None 0) = false /\
  omap snd (run [(Env false true None None 0, WOpen (str "a")); (fine, WAppend [(1, 1)]); (fine, WClose); (fine, ROpen (str "a"))] (start none)) = Ok [Int (-1); Done; Done; Int (-1)].
Proof. vm_compute. split; reflexivity. Qed.

(** row_num() of a writer that is not open dereferences a null pointer. *)
Theorem C121_row_num_refuted : forall e s, wtr s = None <-> step e WNum s = UB.
Proof. intros e s. cbn [step]. destruct (wtr s) as [[n w]|]; cbn; split; congruence. Qed.

(** A writer destroyed while it is open leaves the offset file as it was: rows are not found, *)
Theorem C121_destructor_refuted : forall f n rs s xs, n <> offset_name n ->
  run ((fine, WOpen n) :: map (fun r => (fine, WAppend r)) rs ++ [(fine, WNew)]) (start f) = Ok (s, xs) ->
  disk s (offset_name n) = f (offset_name n) /\ wtr s = None.
Proof.
  intros f n rs s xs Hn H. cbn [run step] in H. unfold open_writer in H. cbn [can_open fine close_writer start disk wtr obind rdr] in H.
  assert (K : forall rs w s0 s xs, wtr s0 = Some (n, w) -> run (map (fun r => (fine, WAppend r)) rs ++ [(fine, WNew)]) s0 = Ok (s, xs) -> disk s (offset_name n) = disk s0 (offset_name n) /\ wtr s = None).
  { clear - Hn. induction rs as [|r rs IH]; intros w s0 s xs Hw H; cbn [map app run step] in H.
    - rewrite Hw in H. cbn [destroy_writer obind] in H. injection H as <- <-. cbn [disk wtr]. now rewrite put_other by congruence.
    - rewrite Hw in H. cbn [append] in H. destruct (append_row r w) as [w2| | |]; cbn [obind] in H; try discriminate.
      destruct (run (map (fun r => (fine, WAppend r)) rs ++ [(fine, WNew)]) (State (disk s0) (Some (n, w2)) (rdr s0))) as [[s2 ys]| | |] eqn:E; cbn [obind] in H; try discriminate.
      injection H as <- <-. apply (IH w2 (State (disk s0) (Some (n, w2)) (rdr s0)) s2 ys); [reflexivity|exact E]. }
  match type of H with context[run ?l ?s0] => destruct (run l s0) as [[s2 ys]| | |] eqn:E; cbn [obind] in H; try discriminate end.
  injection H as <- <-. destruct (K rs open_w (State (put f n []) (Some (n, open_w)) rclosed) s2 ys eq_refl E) as [K1 K2]. split; [|exact K2]. rewrite K1. cbn [disk]. now rewrite put_other by congruence.
Qed.
(** or others are found in their place: here the two rows that were there have become one of another matrix and none of the last one *)
Example C121_destructor_nonvacuous :
  (let l := [WOpen (str "a"); WAppend [(1, 1)]; WNew; ROpen (str "a"); RNum] in
   omap snd (run (map (fun o => (fine, o)) l) (start none)) = Ok [Int 0; Done; Done; Int (-1); Int 0]) /\
  let l := [WOpen (str "a"); WAppend [(1, 1)]; WAppend [(2, 5)]; WClose; WOpen (str "a"); WAppend [(1, 1); (2, 5); (4, 7)]; WNew; ROpen (str "a"); RNum; RRow 0; RRow 1] in
  omap snd (run (map (fun o => (fine, o)) l) (start none)) = Ok [Int 0; Done; Done; Done; Int 0; Done; Done; Int 0; Int 2; Row (Some [(1, 1)]); Row (Some [(0, 5)])].
Proof. vm_compute. split; reflexivity. Qed.

(** Opening a matrix whose data file is missing: 0, as if all was well; there are rows of the right size, but get_row leaves its vector as it was. *)
Theorem C121_missing_data_refuted : forall e f n m, on f n m -> can_open_offset e = true -> can_open e = false ->
  exists r, open_reader e f None n = Ok (r, 0) /\ reader_row_num r = Z.of_nat (length m) /\
    forall i l, 0 <= i -> nth_error m (Z.to_nat i) = Some l -> reader_row_size r i = Ok (Z.of_nat (length l)) /\ reader_row r i = Ok None.
Proof.
  intros e f n m H Ho Hd. apply on_stored in H. assert (K := open_stored fine f None n m eq_refl eq_refl H I).
  unfold open_reader in *. rewrite Ho, Hd. cbn [fine can_open can_open_offset] in K. cbn [on_disk] in *. destruct (f (offset_name n)) as [o|]; [|discriminate].
  destruct (open_r ([], o)) as [r| | |]; cbn [obind] in *; try discriminate. injection K as K1 K2 K3. eexists. split; [reflexivity|]. rewrite K2, K3.
  split; [exact (row_num_ok m)|]. intros i l Hi Hl. split; [|reflexivity]. assert (Q := read_size m i Hi). unfold find_row in Q. rewrite Hl in Q. exact Q.
Qed.
Example C121_missing_data_nonvacuous :
  let l := [(fine, WOpen (str "a")); (fine, WAppend [(1, 1)]); (fine, WClose); (Env false true None None 0, ROpen (str "a")); (fine, RNum); (fine, RSize 0); (fine, RRow 0)] in
  omap snd (run l (start none)) = Ok [Int 0; Done; Done; Int 0; Int 1; Int 1; Row None].
Proof. vm_compute. reflexivity. Qed.

(** A full disk is not noticed: no operation of the writer fails, and what is read back is other rows, or reading is undefined. *)
Theorem C121_full_disk_refuted :
  (exists l, omap snd (run l (start none)) = Ok [Int 0; Done; Done; Int 0; Int 1; Row (Some [(1, 1); (5, 0)])] /\
     map snd l = [WOpen (str "a"); WAppend [(1, 1); (5, 9)]; WClose; ROpen (str "a"); RNum; RRow 0] /\ Forall (fun p => can_open (fst p) = true /\ can_open_offset (fst p) = true) l) /\
  (exists l, run l (start none) = UB /\
     map snd l = [WOpen (str "a"); WAppend [(1, 1); (5, 9)]; WClose; ROpen (str "a")] /\ Forall (fun p => can_open (fst p) = true /\ can_open_offset (fst p) = true) l).
Proof.
  split.
  - exists [(fine, WOpen (str "a")); (fine, WAppend [(1, 1); (5, 9)]); (Env true true (Some 3%nat) None 0, WClose); (fine, ROpen (str "a")); (fine, RNum); (fine, RRow 0)].
    split; [vm_compute; reflexivity|]. split; [reflexivity|]. repeat constructor.
  - exists [(fine, WOpen (str "a")); (fine, WAppend [(1, 1); (5, 9)]); (Env true true None (Some 3%nat) 0, WClose); (fine, ROpen (str "a"))].
    split; [vm_compute; reflexivity|]. split; [reflexivity|]. repeat constructor.
Qed.

(** matrix_transpose from one name to another, or to the same one: the transposed matrix (C41) is stored, nothing else is touched. *)
Theorem C121_transpose_partial : forall ea eb free f a b m, good ea -> good eb -> simple b -> on f a m -> matrix m ->
  exists f' t, matrix_transpose ea eb (Some free) f a b = Ok (f', 0) /\ on f' b t /\ matrix t /\ last t [(0, 0)] <> [] /\
    (forall r c v, entry t c r v <-> entry m r c v) /\ forall k, k <> b -> k <> b ++ str ".offset" -> f' k = f k.
Proof.
  intros ea eb free f a b m G1 G2 Hb H Hm. apply on_stored in H. destruct (transpose_named ea eb free f a b m G1 G2 Hb H Hm) as [f' [t [E1 [E2 [E3 [E4 [E5 E6]]]]]]].
  exists f', t. split; [exact E1|]. split; [now apply on_stored|]. auto.
Qed.
Definition stored1 : fs := match run (map (fun o => (fine, o)) [WOpen (str "a"); WAppend [(0, 1); (3, 255)]; WAppend []; WAppend [(1, 5)]; WClose]) (start none) with Ok (s, _) => disk s | _ => none end.
Example C121_transpose_nonvacuous :
  match matrix_transpose fine fine (Some 40) stored1 (str "a") (str "a") with
  | Ok (f, 0) => match open_reader fine f None (str "a") with
                 | Ok (r, 0) => reader_row_num r = 4 /\ reader_row r 0 = Ok (Some [(0, 1)]) /\ reader_row r 1 = Ok (Some [(2, 5)]) /\ reader_row r 2 = Ok (Some []) /\ reader_row r 3 = Ok (Some [(0, 255)])
                 | _ => False
                 end
  | _ => False
  end.
Proof. vm_compute. repeat split. Qed.

(** When the free memory cannot be found out, -1 is returned, but the destination has been emptied: here the source itself. *)
Theorem C121_statistics_refuted : forall ea eb f a b m, good ea -> good eb -> on f a m -> matrix m ->
  exists f', matrix_transpose ea eb None f a b = Ok (f', -1) /\ f' b = Some [] /\ forall k, k <> b -> f' k = f k.
Proof.
  intros ea eb f a b m G1 G2 H Hm. apply on_stored in H. assert (G := G1). destruct G as [A1 [A2 _]]. destruct G2 as [B1 [B2 [B3 B4]]].
  assert (T := transpose_named ea eb 0 f a (str "b") m G1 (conj B1 (conj B2 (conj B3 B4))) (simple1 98) H Hm). destruct T as [f' [t [E _]]].
  unfold matrix_transpose in *. rewrite (open_stored ea f None a m A1 A2 H I) in *. cbn [obind Z.ltb Z.compare] in *. unfold open_writer in *. rewrite B1 in *. cbn [Z.ltb Z.compare] in *.
  destruct (all_rows (loaded m)) as [ls| | |]; cbn [obind] in *; try discriminate. destruct (count_rows ls []) as [t0| | |]; cbn [obind] in *; try discriminate.
  eexists. split; [reflexivity|]. cbn [destroy_writer close_writer]. rewrite B3. cbn [cut data open_w]. split; [apply put_same|]. intros k Hk. now rewrite !put_other by assumption.
Qed.
Example C121_statistics_nonvacuous :
  match matrix_transpose fine fine None stored1 (str "a") (str "a") with
  | Ok (f, z) => z = -1 /\ f (str "a") = Some [] /\ match open_reader fine f None (str "a") with Ok (r, 0) => reader_row_num r = 3 | _ => False end
  | _ => False
  end.
Proof. vm_compute. repeat split. Qed.

(** A source whose data file cannot be read is taken for a matrix of empty rows: 0 is returned and the destination has no rows. *)
Theorem C121_transpose_refuted : forall free ea f a b m, on f a m -> can_open_offset ea = true -> can_open ea = false -> simple b ->
  exists f', matrix_transpose ea fine (Some free) f a b = Ok (f', 0) /\ on f' b [].
Proof.
  intros free ea f a b m H Ho Hd Hb. destruct (C121_missing_data_refuted ea f a m H Ho Hd) as [r [E [_ K]]].
  unfold matrix_transpose. rewrite E. cbn [obind Z.ltb Z.compare]. cbn [open_writer close_writer can_open fine Z.ltb Z.compare].
  assert (R : r_dc r = None). { unfold open_reader in E. rewrite Hd, Ho in E. destruct (on_disk ea f None (offset_name a)); [|discriminate]. destruct (open_r ([], l)) as [r0| | |]; cbn [obind] in E; try discriminate. injection E as <-. reflexivity. }
  unfold all_rows. rewrite R. cbn [obind].
  assert (C : forall n, count_rows (repeat [] n) [] = Ok []) by (induction n; cbn in *; auto). rewrite C. cbn [obind close_writer]. eexists. split; [reflexivity|].
  apply on_stored. exact (stored_put2 (put f b []) b [] Hb (Forall_nil _) (conj eq_refl eq_refl)).
Qed.
Example C121_transpose_refuted_nonvacuous :
  match matrix_transpose (Env false true None None 0) fine (Some 40) stored1 (str "a") (str "b") with
  | Ok (f, z) => z = 0 /\ f (str "b") = Some [] /\ f (str "b.offset") = Some [0; 0; 0; 0]
  | _ => False
  end.
Proof. vm_compute. repeat split. Qed.

Print Assumptions C121_history_partial.
Print Assumptions C121_others.
Print Assumptions C121_open_failed_refuted.
Print Assumptions C121_row_num_refuted.
Print Assumptions C121_destructor_refuted.
Print Assumptions C121_missing_data_refuted.
Print Assumptions C121_full_disk_refuted.
Print Assumptions C121_transpose_partial.
Print Assumptions C121_statistics_refuted.
Print Assumptions C121_transpose_refuted.
