(** C64: character-width conversion. *)
From Verif Require Import Common Kana_Model Kana_Spec Kana_Proof.
Local Open Scope Z_scope.

(** Always succeeds (no table is read outside its bounds) and leaves no
    half-width katakana behind. *)
Theorem C64_hankaku_total : forall u, Forall (fun c => 0 <= c <= 0x10ffff) u ->
  exists out, hankaku_to_zenkaku u = Ok out /\
    Forall (fun c => 0 <= c <= 0x10ffff /\ ~ (0xff60 <= c <= 0xff9f)) out.
Proof. exact h2z_total. Qed.

(** A half-width voiced mark composes with the preceding character exactly as
    in the Unicode composition table. *)
Theorem C64_voiced_mark : forall u out c, Forall (fun c => 0 <= c <= 0x10ffff) u ->
  hankaku_to_zenkaku u = Ok (out ++ [c]) ->
  hankaku_to_zenkaku (u ++ [0xff9e]) = Ok (out ++ compose voiced 0x3099 c).
Proof. exact h2z_dakuten. Qed.

(** The same is false for the semi-voiced mark (full statement as above with
    [semivoiced], 0xff9f and 0x309a): after KI it produces KU. *)
Theorem C64_semivoiced_mark_refuted : exists u out c, Forall (fun c => 0 <= c <= 0x10ffff) u /\
  hankaku_to_zenkaku u = Ok (out ++ [c]) /\
  hankaku_to_zenkaku (u ++ [0xff9f]) = Ok (out ++ [0x30af]) /\ compose semivoiced 0x309a c = [0x30ad; 0x309a].
Proof.
  exists [0xff77], [], 0x30ad. split; [repeat constructor; lia|]. repeat split; vm_compute; reflexivity.
Qed.

Theorem C64_semivoiced_mark_partial : forall u out c, Forall (fun c => 0 <= c <= 0x10ffff) u ->
  hankaku_to_zenkaku u = Ok (out ++ [c]) -> ~ (0x30ad <= c <= 0x30c8) ->
  hankaku_to_zenkaku (u ++ [0xff9f]) = Ok (out ++ compose semivoiced 0x309a c).
Proof. exact h2z_handakuten. Qed.

(** Every other half-width mark or letter becomes the one that Unicode gives for it, wherever it is ... *)
Theorem C64_letters_partial : forall u out x, Forall (fun c => 0 <= c <= 0x10ffff) u -> hankaku_to_zenkaku u = Ok out -> 0xff61 <= x <= 0xff9d ->
  exists w, nth_error wide (Z.to_nat (x - 0xff61)) = Some w /\ hankaku_to_zenkaku (u ++ [x]) = Ok (out ++ [w]).
Proof.
  intros u out x Hu E Hx. unfold hankaku_to_zenkaku in *. rewrite (loop_snoc u x [] out E).
  pose (P := fun x => match tbl hankaku_zenkaku_tbl (x - 0xff60), nth_error wide (Z.to_nat (x - 0xff61)) with Some v, Some w => (v =? w) || (x =? 0xff60)
    | _, _ => (x =? 0xff60) || (0xff9d <? x) end).
  assert (H : P x = true) by (apply han_sweep; [vm_compute; reflexivity|unfold is_hankaku; lia]).
  assert (Q : is_hankaku x = true) by (unfold is_hankaku; lia).
  unfold P in H. unfold h2z_step. rewrite Q. replace (x =? 0xff9e) with false by lia. replace (x =? 0xff9f) with false by lia. cbv iota.
  destruct (tbl hankaku_zenkaku_tbl (x - 0xff60)) as [v|]; destruct (nth_error wide (Z.to_nat (x - 0xff61))) as [w|]; try lia.
  exists w. split; [reflexivity|]. replace v with w by lia. cbn [omap rev]. now rewrite rev_involutive.
Qed.
(** ... but U+FF60, a parenthesis, becomes a NUL. *)
Theorem C64_parenthesis_refuted : forall u out, hankaku_to_zenkaku u = Ok out -> hankaku_to_zenkaku (u ++ [0xff60]) = Ok (out ++ [0]).
Proof. intros u out E. unfold hankaku_to_zenkaku in *. rewrite (loop_snoc u _ [] out E). cbv [h2z_step is_hankaku]. cbn. now rewrite rev_involutive. Qed.
(** A hyphen after anything that is not ASCII is taken for the sign of a long vowel; everything else is left as it is. *)
Theorem C64_hyphen : forall u out c, Forall (fun c => 0 <= c <= 0x10ffff) u -> hankaku_to_zenkaku u = Ok (out ++ [c]) ->
  hankaku_to_zenkaku (u ++ [0x2d]) = Ok (out ++ [c; if c <? 128 then 0x2d else 0x30fc]).
Proof.
  intros u out c Hu E. destruct (h2z_total u Hu) as (o & Ho & Hg). rewrite E in Ho. injection Ho as <-.
  apply Forall_app in Hg as [_ Hg]. inversion Hg as [|? ? Hc _]; subst. unfold good in Hc.
  unfold hankaku_to_zenkaku in *. rewrite (loop_snoc u _ [] _ E). rewrite rev_app_distr. cbn [rev app].
  unfold h2z_step. change (is_hankaku 0x2d) with false. change (0x2d =? 0x2d) with true. cbv iota. unfold is_basic_latin.
  replace (c =? 0xFFFFFFFF) with false by lia. cbn [negb andb]. destruct (Z.leb_spec c 0x7f); cbn [negb].
  - replace (c <? 128) with true by lia. cbn [omap rev]. rewrite rev_involutive, <- app_assoc. reflexivity.
  - replace (c <? 128) with false by lia. cbn [omap rev]. rewrite rev_involutive, <- app_assoc. reflexivity.
Qed.
Theorem C64_others : forall u out x, hankaku_to_zenkaku u = Ok out -> ~ (0xff60 <= x <= 0xff9f) -> x <> 0x2d ->
  hankaku_to_zenkaku (u ++ [x]) = Ok (out ++ [x]).
Proof.
  intros u out x E Hx Hb. unfold hankaku_to_zenkaku in *. rewrite (loop_snoc u x [] out E). unfold h2z_step, is_hankaku.
  replace ((0xff60 <=? x) && (x <=? 0xff9f)) with false by lia. replace (x =? 0x2d) with false by lia. cbn [omap rev]. now rewrite rev_involutive.
Qed.
(** At the beginning: marks stay marks, a hyphen a hyphen. *)
Theorem C64_first : hankaku_to_zenkaku [0xff9e] = Ok [0x3099] /\ hankaku_to_zenkaku [0xff9f] = Ok [0x309a] /\ hankaku_to_zenkaku [0x2d] = Ok [0x2d].
Proof. vm_compute. auto. Qed.
Example C64_letters_nonvacuous : hankaku_to_zenkaku [0xff7a; 0x2d; 0x2d; 0xff60; 0x2d] = Ok [0x30b3; 0x30fc; 0x30fc; 0; 0x2d].
Proof. vm_compute. reflexivity. Qed.

(** Basic Latin <-> full-width Latin are mutually inverse. *)
Theorem C64_latin_roundtrip : forall u, Forall (fun c => ~ (0xff01 <= c <= 0xff5e) /\ c <> 0x3000) u ->
  zenkaku_latin_to_basic_latin (basic_latin_to_zenkaku_latin u) = u.
Proof. exact width_rt. Qed.
Theorem C64_latin_roundtrip_back : forall u, Forall (fun c => ~ (0x20 <= c <= 0x7e)) u ->
  basic_latin_to_zenkaku_latin (zenkaku_latin_to_basic_latin u) = u.
Proof. exact width_rt2. Qed.

Example C64_case : hankaku_to_zenkaku [0xff76; 0xff9e; 0xff8a; 0xff9f; 0x2d; 0x41; 0x2d] = Ok [0x30ac; 0x30d1; 0x30fc; 0x41; 0x2d].
Proof. vm_compute. reflexivity. Qed.

Print Assumptions C64_hankaku_total.
Print Assumptions C64_voiced_mark.
Print Assumptions C64_semivoiced_mark_refuted.
Print Assumptions C64_semivoiced_mark_partial.
Print Assumptions C64_latin_roundtrip.
Print Assumptions C64_latin_roundtrip_back.
Print Assumptions C64_letters_partial.
Print Assumptions C64_parenthesis_refuted.
Print Assumptions C64_hyphen.
Print Assumptions C64_others.
Print Assumptions C64_first.
