(** C126: archives read from any bytes. *)
From Verif Require Import Common Archive_Model Archive_Spec ArchiveAny_Spec ArchiveAny_Proof.
Local Open Scope Z_scope.

(** Whatever bytes are read, in whatever state the stream is: the variable holds a value of its type afterwards, numbers in
    range, strings of bytes, sets and maps with their keys in increasing order or distinct, sizes below 2^32.
    Missing are types with a bool in them and sets of numbers, see below. *)
Theorem C126_any_bytes_partial t old bs ok : proper t -> no_bool t -> no_arith_set t = true -> has_type t old -> bytes bs ->
  exists v s', read t old (bs, ok) = Ok (v, s') /\ has_type t v.
Proof. intros P B N H Hb. destruct (read_any t P B N old (bs, ok) H Hb) as (v & s' & E & T & _). now exists v, s'. Qed.
(** The same for a variable that was value-initialised. *)
Theorem C126_fresh_partial t bs ok : proper t -> no_bool t -> no_arith_set t = true -> bytes bs ->
  exists v s', read t (dflt t) (bs, ok) = Ok (v, s') /\ has_type t v.
Proof. intros P B N Hb. apply C126_any_bytes_partial; auto. now apply dflt_typed. Qed.

(** What [has_type] says of containers: sets and maps are in the order of operator<, and in the unordered ones nothing is twice. *)
Theorem C126_containers t a b :
  (forall l, has_type (TSet t) (VL l) <-> small l /\ Forall (has_type t) l /\ ForallOrdPairs less l) /\
  (forall l, has_type (TUSet t) (VL l) <-> small l /\ Forall (has_type t) l /\ NoDup l) /\
  (forall l, has_type (TMap a b) (VL (map entry l)) <-> small l /\ Forall (fun p => has_type a (fst p) /\ has_type b (snd p)) l /\ ForallOrdPairs less (map fst l)) /\
  (forall l, has_type (TUMap a b) (VL (map entry l)) <-> small l /\ Forall (fun p => has_type a (fst p) /\ has_type b (snd p)) l /\ NoDup (map fst l)).
Proof.
  assert (I : forall l m : list (val * val), VL (map entry l) = VL (map (fun p => VP (fst p) (snd p)) m) -> m = l).
  { intros l m E. assert (E' : map entry l = map (fun p => VP (fst p) (snd p)) m) by congruence. clear E. revert m E'. induction l as [|[x y] l IH]; intros [|[x' y'] m] E; cbn [map] in E; try discriminate; [reflexivity|].
    assert (map entry l = map (fun p => VP (fst p) (snd p)) m) by congruence. unfold entry in E. cbn [fst snd] in E. rewrite (IH m) by assumption. congruence. }
  assert (K : forall l : list (val * val), Forall (fun p => has_type a (fst p) /\ has_type b (snd p)) l -> Forall (has_type a) (map fst l)).
  { intros l H. apply Forall_forall. intros x Hx. apply in_map_iff in Hx as (p & <- & Hp). rewrite Forall_forall in H. now apply H. }
  split; [|split; [|split]]; intros l; cbn [has_type]; split.
  - intros (m & E & S & F & A). replace m with l in * by congruence. split; [exact S|]. split; [exact F|]. now apply (ascending_less t).
  - intros (S & F & A). exists l. split; [reflexivity|]. split; [exact S|]. split; [exact F|]. now apply (ascending_less t).
  - intros (m & E & S & F & A). replace m with l in * by congruence. split; [exact S|]. split; [exact F|]. now apply (distinct_nodup t).
  - intros (S & F & A). exists l. split; [reflexivity|]. split; [exact S|]. split; [exact F|]. now apply (distinct_nodup t).
  - intros (m & E & S & F & A). apply I in E as ->. split; [exact S|]. split; [exact F|]. apply (ascending_less a); auto.
  - intros (S & F & A). exists l. split; [reflexivity|]. split; [exact S|]. split; [exact F|]. apply (ascending_less a); auto.
  - intros (m & E & S & F & A). apply I in E as ->. split; [exact S|]. split; [exact F|]. apply (distinct_nodup a); auto.
  - intros (S & F & A). exists l. split; [reflexivity|]. split; [exact S|]. split; [exact F|]. apply (distinct_nodup a); auto.
Qed.
Example C126_containers_nonvacuous : has_type (TSet TBool) (VL [VB false; VB true]) /\ ~ has_type (TSet TStr) (VL [VS (str "b"); VS (str "a")]) /\ less (VS (str "a")) (VS (str "a0")).
Proof.
  split; [|split].
  - apply (proj1 (C126_containers TBool TBool TBool)). split; [reflexivity|]. split; [repeat constructor; eexists; reflexivity|]. repeat constructor.
  - intros H. apply (proj1 (C126_containers TStr TBool TBool)) in H as (_ & _ & H). inversion H as [|? ? A _]; subst. inversion A as [|? ? L _]; subst. apply bytes_cmp_less in L. discriminate L.
  - exact (less_str_end (str "a") 48 []).
Qed.
(** Elements of a set in any order, some of them more than once, give the set of them, *)
Theorem C126_any_order t vs old rest : Forall (has_type t) vs -> small vs -> Forall (fun set => exists l,
    read (set t) old (wsize (length vs) ++ flat_map (write t) vs ++ rest, true) = Ok (VL l, (rest, true)) /\ has_type (set t) (VL l) /\
    forall v, In v l <-> In v vs) [TSet; TUSet].
Proof. intros H S. constructor; [exact (read_set_any true t vs old rest H S)|]. constructor; [exact (read_set_any false t vs old rest H S)|constructor]. Qed.
(** and of the entries of a map with the same key the first stays. *)
Theorem C126_first_stays a b vs old rest : Forall (fun p => has_type a (fst p) /\ has_type b (snd p)) vs -> small vs -> Forall (fun assoc => exists l,
    read (assoc a b) old (wsize (length vs) ++ flat_map (fun p => write a (fst p) ++ write b (snd p)) vs ++ rest, true) = Ok (VL (map entry l), (rest, true)) /\
    has_type (assoc a b) (VL (map entry l)) /\ forall p, In p l <-> first_entry vs p) [TMap; TUMap].
Proof.
  intros H S. assert (W : flat_map (write_pair (write a) (write b)) (map entry vs) = flat_map (fun p => write a (fst p) ++ write b (snd p)) vs)
    by (clear; induction vs as [|p vs IH]; cbn; [reflexivity|now rewrite IH]).
  pose proof (read_map_any true a b vs old rest H S) as M1. pose proof (read_map_any false a b vs old rest H S) as M2. rewrite W in M1, M2.
  constructor; [exact M1|]. constructor; [exact M2|constructor].
Qed.

(** A byte other than 0 and 1 is stored into a bool as it is. *)
Theorem C126_bool_refuted c rest old : 2 <= c < 256 -> read TBool old (c :: rest, true) = UB.
Proof.
  intros H. cbn [read]. unfold read_bool, sread. cbn [length Nat.leb firstn skipn le_num].
  destruct (Z.eqb_spec (c + 256 * 0) 0); [lia|]. destruct (Z.eqb_spec (c + 256 * 0) 1); [lia|reflexivity].
Qed.
(** A set of numbers said to have elements, from a stream that has ended: an uninitialised number is inserted. *)
Theorem C126_set_refuted n sg old c rest : (n > 0)%nat -> 0 < c < 256 -> (length rest < n)%nat ->
  read (TSet (TNum n sg)) old (c :: 0 :: 0 :: 0 :: rest, true) = UB.
Proof.
  intros Hn Hc Hl. cbn [read]. unfold read_size, sread. cbn [length Nat.leb firstn skipn le_num].
  replace (Z.to_nat (c + 256 * (0 + 256 * (0 + 256 * (0 + 256 * 0))))) with (S (Z.to_nat (c - 1))) by lia. cbn [read_insert read uninit].
  unfold read_num, sread. destruct (Nat.leb_spec n (length rest)); [lia|]. reflexivity.
Qed.

(** A map with its keys out of order and one of them twice: the first stays. *)
Example C126_nonvacuous : let t := TMap TStr (TNum 2 true) in proper t /\ no_bool t /\ no_arith_set t = true /\
  read t (dflt t) ([3;0;0;0; 1;0;0;0;98; 1;0; 1;0;0;0;97; 254;255; 1;0;0;0;98; 7;0], true) =
  Ok (VL [VP (VS (str "a")) (VN (-2)); VP (VS (str "b")) (VN 1)], ([], true)).
Proof. cbv zeta. split; [cbn; auto|]. split; [cbn; auto|]. split; reflexivity. Qed.
Example C126_unordered : let t := TUSet TStr in
  read t (dflt t) ([2;0;0;0; 1;0;0;0;98; 1;0;0;0;98], true) = Ok (VL [VS (str "b")], ([], true)).
Proof. reflexivity. Qed.

Print Assumptions C126_any_bytes_partial.
Print Assumptions C126_fresh_partial.
Print Assumptions C126_any_order.
Print Assumptions C126_first_stays.
Print Assumptions C126_bool_refuted.
Print Assumptions C126_set_refuted.
Print Assumptions C126_containers.
