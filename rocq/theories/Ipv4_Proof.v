(** Parsing and printing addresses. *)
From Verif Require Import Common CommonLemmas NumText_Model NumText_Proof Cast_Spec Cast_Model Cast_Proof Ipv4_Spec Ipv4_Model.
Local Open Scope Z_scope.
Ltac Zify.zify_post_hook ::= Z.div_mod_to_equations.

Lemma wrap_int x : is_int x -> wrap32 (sat64 x) = x.
Proof. unfold is_int, wrap32, sat64. intros H. rewrite Z.max_r, Z.min_r by lia. lia. Qed.
Lemma c_str_id s : ~ In 0 s -> c_str s = s.
Proof.
  induction s as [|c s IH]; intros H; [reflexivity|]. cbn [c_str]. cbn [In] in H. destruct (Z.eqb_spec c 0) as [E|_]; [tauto|].
  now rewrite IH by tauto.
Qed.
Lemma scan_d_leading s neg m rest : leading s neg m rest -> scan_d s = Some (wrap32 (sat64 (value neg m)), rest).
Proof. intros H%scan_leading. unfold scan_d. now rewrite H. Qed.
Lemma scan_ds_dotted s w x y z rest : dotted s w x y z rest ->
  scan_ds 4 s = [wrap32 (sat64 w); wrap32 (sat64 x); wrap32 (sat64 y); wrap32 (sat64 z)].
Proof.
  intros (s1 & s2 & s3 & n1 & n2 & n3 & n4 & m1 & m2 & m3 & m4 & H1 & H2 & H3 & H4 & -> & -> & -> & ->).
  apply scan_d_leading in H1, H2, H3, H4. unfold scan_ds. rewrite H1. cbn [point]. change (46 =? 46) with true. cbv iota.
  rewrite H2. cbn [point]. change (46 =? 46) with true. cbv iota. rewrite H3. cbn [point]. change (46 =? 46) with true. cbv iota.
  rewrite H4. now destruct (point rest).
Qed.
Lemma scan_ds_full s w x y z : scan_ds 4 s = [w; x; y; z] -> exists w' x' y' z' rest, dotted s w' x' y' z' rest.
Proof.
  unfold scan_ds, scan_d. intros H.
  destruct (scan s) as [[[n1 m1] r1]|] eqn:E1; [|discriminate]. destruct r1 as [|c1 s1]; [discriminate|]. cbn [point] in H.
  destruct (Z.eqb_spec c1 46) as [->|_]; [|discriminate].
  destruct (scan s1) as [[[n2 m2] r2]|] eqn:E2; [|discriminate]. destruct r2 as [|c2 s2]; [discriminate|]. cbn [point] in H.
  destruct (Z.eqb_spec c2 46) as [->|_]; [|discriminate].
  destruct (scan s2) as [[[n3 m3] r3]|] eqn:E3; [|discriminate]. destruct r3 as [|c3 s3]; [discriminate|]. cbn [point] in H.
  destruct (Z.eqb_spec c3 46) as [->|_]; [|discriminate].
  destruct (scan s3) as [[[n4 m4] r4]|] eqn:E4; [|discriminate].
  apply leading_scan in E1, E2, E3, E4. exists (value n1 m1), (value n2 m2), (value n3 m3), (value n4 m4), r4.
  exists s1, s2, s3, n1, n2, n3, n4, m1, m2, m3, m4. auto 10.
Qed.
Lemma scan_ds_length k : forall s, (length (scan_ds k s) <= k)%nat.
Proof.
  induction k as [|k IH]; intros s; cbn [scan_ds]; [auto|]. destruct (scan_d s) as [[v r]|]; [|cbn; lia]. cbn [length].
  destruct (point r) as [r'|]; [|cbn; lia]. pose proof (IH r'). lia.
Qed.

Lemma show_dotted w x y z :
  dotted (show_int w ++ [46] ++ show_int x ++ [46] ++ show_int y ++ [46] ++ show_int z) w x y z [].
Proof.
  cbn [app]. do 3 eexists.
  exists (w <? 0), (x <? 0), (y <? 0), (z <? 0), (Z.abs w), (Z.abs x), (Z.abs y), (Z.abs z).
  split.
  { apply leading_show; cbv beta iota; unfold digit; lia. }
  split.
  {  apply leading_show; cbv beta iota; unfold digit; lia. }
  split; [apply leading_show; cbv beta iota; unfold digit; lia|].
  split; [pose proof (leading_show z [] I) as H; rewrite app_nil_r in H; exact H|].
  unfold value. split; [destruct (Z.ltb_spec w 0); lia|]. split; [destruct (Z.ltb_spec x 0); lia|].
  split; [destruct (Z.ltb_spec y 0); lia|destruct (Z.ltb_spec z 0); lia].
Qed.
Lemma show_no_nul n : ~ In 0 (show_int n).
Proof.
  assert (G : forall m, 0 <= m -> ~ In 0 (dec_text m)).
  { intros m Hm H. pose proof (dec_text_digits m Hm) as F. rewrite Forall_forall in F. specialize (F 0 H). discriminate. }
  unfold show_int. destruct (Z.ltb_spec n 0); [|now apply G]. cbn [In app]. intros [E|E]; [discriminate|]. apply (G (- n)) in E; [exact E|lia].
Qed.
Lemma show_short n : byte n -> (1 <= length (show_int n) <= 3)%nat.
Proof.
  intros H.
  assert (G : forallb (fun k => let l := length (show_int (Z.of_nat k)) in Nat.leb 1 l && Nat.leb l 3) (seq 0 256) = true) by (vm_compute; reflexivity).
  rewrite forallb_forall in G. specialize (G (Z.to_nat n)). unfold byte in H. rewrite Z2Nat.id in G by lia.
  assert (I : In (Z.to_nat n) (seq 0 256)) by (apply in_seq; lia). apply G in I. cbv zeta in I.
  apply andb_prop in I as [I1 I2]. apply Nat.leb_le in I1, I2. lia.
Qed.
Lemma byte_int x : byte x -> is_int x.
Proof. unfold byte, is_int. lia. Qed.
Lemma bad_byte x : bad x = false <-> byte x.
Proof. unfold bad, byte. lia. Qed.

Lemma parse_dotted s w x y z rest : ~ In 0 s -> dotted s w x y z rest -> is_int w -> is_int x -> is_int y -> is_int z ->
  (is_addr (w, x, y, z) -> parse s = (w, x, y, z)) /\ (~ is_addr (w, x, y, z) -> parse s = no_addr).
Proof.
  intros H0 H Hw Hx Hy Hz. apply scan_ds_dotted in H. rewrite !wrap_int in H by assumption.
  unfold parse. rewrite c_str_id, H by exact H0. cbn [is_addr].
  destruct (bad w) eqn:E1, (bad x) eqn:E2, (bad y) eqn:E3, (bad z) eqn:E4; cbn [orb]; split; intros G; try reflexivity;
    try (exfalso; destruct G as (G1 & G2 & G3 & G4); apply bad_byte in G1, G2, G3, G4; congruence).
  exfalso. apply G. rewrite <- !bad_byte. auto.
Qed.
