(** C61: addresses round-trip through text. *)
From Verif Require Import Common CommonLemmas NumText_Model Cast_Spec Cast_Model Cast_Proof Ipv4_Spec Ipv4_Model Ipv4_Proof.
Local Open Scope Z_scope.

(** Every address prints within the 16 bytes of the buffer, and the text parses to it. *)
Theorem C61_round_trip a : is_addr a -> exists t, to_string a = Ok t /\ parse t = a.
Proof.
  destruct a as [[[w x] y] z]. intros (Hw & Hx & Hy & Hz). unfold to_string.
  pose proof (show_short w Hw). pose proof (show_short x Hx). pose proof (show_short y Hy). pose proof (show_short z Hz).
  pose proof (show_dotted w x y z) as D. set (t := show_int w ++ [46] ++ _) in *.
  assert (Hl : Z.of_nat (length t) + 1 <= 16).
  { unfold t. repeat rewrite app_length. cbn [length]. lia. }
  rewrite (proj2 (Z.leb_le _ _) Hl). exists t. split; [reflexivity|].
  apply (parse_dotted t w x y z []); auto using byte_int.
  - unfold t. intros I. repeat (apply in_app_or in I as [I|I]); try (now apply show_no_nul in I); destruct I as [E|[]]; discriminate.
  - cbn [is_addr]. auto.
Qed.
(** Two addresses with one text are equal, for == and as values; < is a strict total order on addresses. *)
Theorem C61_text_injective a b : is_addr a -> is_addr b -> to_string a = to_string b -> a = b.
Proof.
  intros Ha Hb E. destruct (C61_round_trip a Ha) as (t & Ht & <-). destruct (C61_round_trip b Hb) as (u & Hu & <-).
  rewrite Ht, Hu in E. injection E as ->. reflexivity.
Qed.
Theorem C61_equality a b : eq a b = true <-> a = b.
Proof.
  destruct a as [[[w x] y] z], b as [[[w' x'] y'] z']. unfold eq. rewrite !andb_true_iff, !Z.eqb_eq. split.
  - intros (((-> & ->) & ->) & ->). reflexivity.
  - intros [= -> -> -> ->]. auto.
Qed.
(** The order of the 32-bit big-endian numbers. *)
Theorem C61_order a b : is_addr a -> is_addr b ->
  let num (p : addr) := let '(w, x, y, z) := p in w * 2 ^ 24 + x * 2 ^ 16 + y * 2 ^ 8 + z in
  lt a b = true <-> num a < num b.
Proof.
  destruct a as [[[w x] y] z], b as [[[w' x'] y'] z']. unfold is_addr, byte. intros Ha Hb. cbv zeta. unfold lt, lex.
  destruct (Z.ltb_spec w w'); [split; [lia|reflexivity]|]. destruct (Z.ltb_spec w' w); [split; [discriminate|lia]|].
  destruct (Z.ltb_spec x x'); [split; [lia|reflexivity]|]. destruct (Z.ltb_spec x' x); [split; [discriminate|lia]|].
  destruct (Z.ltb_spec y y'); [split; [lia|reflexivity]|]. destruct (Z.ltb_spec y' y); [split; [discriminate|lia]|].
  destruct (Z.ltb_spec z z'); [split; [lia|reflexivity]|]. destruct (Z.ltb_spec z' z); [split; [discriminate|lia]|].
  split; [discriminate|lia].
Qed.

(** What text gives 'none': any text that does not start with four integers separated by points; and, if the integers fit an int, any with one
    outside 0..255.  Everything else that fits is the address. *)
Theorem C61_malformed_gives_none_partial s : ~ In 0 s ->
  (forall w x y z rest, ~ dotted s w x y z rest) -> parse s = no_addr.
Proof.
  intros H0 H. unfold parse. rewrite c_str_id by exact H0.
  destruct (scan_ds 4 s) as [|a [|b [|c [|d [|e l]]]]] eqn:E; try reflexivity.
  exfalso. destruct (scan_ds_full s a b c d E) as (w & x & y & z & rest & D). now apply H in D.
Qed.
Theorem C61_range_partial s w x y z rest : ~ In 0 s -> dotted s w x y z rest -> is_int w -> is_int x -> is_int y -> is_int z ->
  (is_addr (w, x, y, z) -> parse s = (w, x, y, z)) /\ (~ is_addr (w, x, y, z) -> parse s = no_addr).
Proof. apply parse_dotted. Qed.
(** 'none' is not given for text after the address, for blanks and signs, or for numbers that are out of range of an int and come
    back into 0..255 when cut to one. *)
Theorem C61_malformed_refuted :
  parse (str "1.2.3.4.5") = (1, 2, 3, 4) /\ parse (str "1.2.3.4 and more") = (1, 2, 3, 4) /\
  parse (str " 1. +2.3. 4") = (1, 2, 3, 4) /\ parse ([49; 46; 50; 46; 51; 46; 52; 0; 55]) = (1, 2, 3, 4) /\
  parse (str "4294967297.0.0.1") = (1, 0, 0, 1).
Proof. vm_compute. repeat split; reflexivity. Qed.
(** The out-of-range texts that are taken for an address: exactly those cut to 0..255 by saturating to 64 bits and dropping all but 32. *)
Theorem C61_any_number_partial s w x y z rest : ~ In 0 s -> dotted s w x y z rest ->
  let cut v := (Z.max (- 2 ^ 63) (Z.min (2 ^ 63 - 1) v)) mod 2 ^ 32 in
  (is_addr (cut w, cut x, cut y, cut z) -> parse s = (cut w, cut x, cut y, cut z)) /\
  (~ is_addr (cut w, cut x, cut y, cut z) -> parse s = no_addr).
Proof.
  intros H0 D cut. apply scan_ds_dotted in D. unfold parse. rewrite c_str_id, D by exact H0.
  assert (G : forall v, (bad (wrap32 (sat64 v)) = false <-> byte (cut v)) /\ (byte (cut v) -> wrap32 (sat64 v) = cut v)).
  { intros v. unfold bad, wrap32, sat64, byte, cut.
    replace (Z.max (- 2 ^ 63) (Z.min (2 ^ 63 - 1) v)) with (Z.min (2 ^ 63 - 1) (Z.max (- 2 ^ 63) v)) by lia.
    generalize (Z.min (2 ^ 63 - 1) (Z.max (- 2 ^ 63) v)). clear. intros v. change (2 ^ 32) with (2 * 2 ^ 31).
    pose proof (Z.mod_pos_bound v (2 * 2 ^ 31) ltac:(lia)). 
    assert (E : (v + 2 ^ 31) mod (2 * 2 ^ 31) = if v mod (2 * 2 ^ 31) <? 2 ^ 31 then v mod (2 * 2 ^ 31) + 2 ^ 31 else v mod (2 * 2 ^ 31) - 2 ^ 31).
    { rewrite (Z.div_mod v (2 * 2 ^ 31)) at 1 by lia. destruct (Z.ltb_spec (v mod (2 * 2 ^ 31)) (2 ^ 31)).
      - symmetry. apply (Z.mod_unique_pos _ _ (v / (2 * 2 ^ 31))); lia.
      - symmetry. apply (Z.mod_unique_pos _ _ (v / (2 * 2 ^ 31) + 1)); lia. }
    rewrite E. set (u := v mod (2 * 2 ^ 31)) in *. clearbody u. destruct (Z.ltb_spec u (2 ^ 31)); split; lia. }
  cbn [is_addr]. rewrite <- !(fun v => proj1 (G v)).
  destruct (bad (wrap32 (sat64 w))) eqn:E1, (bad (wrap32 (sat64 x))) eqn:E2, (bad (wrap32 (sat64 y))) eqn:E3, (bad (wrap32 (sat64 z))) eqn:E4;
    cbn [orb]; split; intros K; try reflexivity; try (exfalso; intuition congruence).
  apply G in E1, E2, E3, E4. apply G in E1, E2, E3, E4. now rewrite E1, E2, E3, E4.
Qed.

Example C61_round_trip_nonvacuous : is_addr (192, 168, 0, 1) /\ to_string (192, 168, 0, 1) = Ok (str "192.168.0.1") /\
  parse (str "192.168.0.1") = (192, 168, 0, 1) /\ parse (str "255.255.255.255") = none /\ lt (10, 0, 0, 9) (10, 0, 1, 0) = true.
Proof. split; [unfold is_addr, byte; lia|]. vm_compute. repeat split; reflexivity. Qed.
Example C61_none_nonvacuous : parse (str "256.0.0.1") = none /\ parse (str "1.2.-3.4") = none /\ parse (str "1.2.3") = none /\ parse [] = none /\
  parse (str "1 .2.3.4") = none /\ (forall w x y z rest, ~ dotted (str "1.2.3") w x y z rest).
Proof.
  do 5 (split; [vm_compute; reflexivity|]). intros w x y z rest D%scan_ds_dotted.
  assert (H : length (scan_ds 4 (str "1.2.3")) = 3%nat) by (vm_compute; reflexivity). rewrite D in H. discriminate.
Qed.
Print Assumptions C61_round_trip.
Print Assumptions C61_text_injective.
Print Assumptions C61_equality.
Print Assumptions C61_order.
Print Assumptions C61_malformed_gives_none_partial.
Print Assumptions C61_range_partial.
Print Assumptions C61_malformed_refuted.
Print Assumptions C61_any_number_partial.
