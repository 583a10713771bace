(** C116: ustrings through streams. *)
From Verif Require Import Common Utf8_Spec UStream_Spec UStream_Model UStream_Proof.
Local Open Scope Z_scope.

(** What is written is the UTF-8 of the characters. *)
Theorem C116_written : forall u, Forall scalar u -> utf8 u (write u).
Proof. exact write_utf8. Qed.
(** One word is read, after any blanks, up to the next blank or the end. *)
Theorem C116_word : forall b w r, Forall blank b -> w <> [] -> Forall scalar w -> Forall (fun c => ~ blank c) w -> apart r ->
  exists i, read {| left := b ++ write w ++ r; atend := false; bad := false |} = Ok (w, i) /\ left i = r /\ bad i = false /\ (atend i = true <-> r = []).
Proof. intros b w r Hb N S F Hr. exists (after r). split; [ now apply read_one | ]. split; [ reflexivity | ]. split; [ reflexivity | ]. destruct r; cbn; split; congruence. Qed.
(** Reading until the stream fails gives the words of what was written, whatever was written. *)
Theorem C116_words : forall u, Forall scalar u -> exists ws i, words_of u ws /\ read_all (S (length ws)) {| left := write u; atend := false; bad := false |} = Ok (ws, i) /\ left i = [].
Proof. intros u S. destruct (words_total u) as (ws & H). destruct (words_read u ws H S) as (i & E). exists ws, i. auto. Qed.
(** With no word left the ustring is emptied and the stream fails. *)
Theorem C116_none : forall b, Forall blank b -> exists i, read {| left := b; atend := false; bad := false |} = Ok ([], i) /\ bad i = true.
Proof. intros b Hb. eexists. split; [ exact (read_none b Hb) | reflexivity ]. Qed.
(** Hence a ustring with a blank in it, or an empty one, does not come back. *)
Theorem C116_blank_lost : forall u i, Forall scalar u -> read {| left := write u; atend := false; bad := false |} = Ok (u, i) -> bad i = false -> u <> [] /\ Forall (fun c => ~ blank c) u.
Proof.
  intros u i S E B. destruct (words_total u) as (ws & H). inversion H as [ b Hb | b w r ws' Hb N F Hr HW ]; subst.
  - destruct (write_blank u Hb) as (Eu & _). rewrite Eu, (read_none u Hb) in E. injection E as <- <-. discriminate.
  - apply Forall_app in S as [ Sb S ]. apply Forall_app in S as [ Sw Sr ]. destruct (write_blank b Hb) as (Eb & _).
    rewrite !write_app, Eb, (read_one b w (write r) Hb N Sw F (write_apart r Sr Hr)) in E. injection E as E _.
    apply (f_equal (@length Z)) in E. rewrite !app_length in E. assert (b = []) as -> by (destruct b; [ reflexivity | cbn in E; lia ]). assert (r = []) as -> by (destruct r; [ reflexivity | cbn in E; lia ]).
    cbn [app]. rewrite app_nil_r. auto.
Qed.
Example C116_nonvacuous : Forall scalar [0x20; 0x3042; 0x41; 0x0A; 0x1F600; 0x3000] /\ words_of [0x20; 0x3042; 0x41; 0x0A; 0x1F600; 0x3000] [[0x3042; 0x41]; [0x1F600; 0x3000]] /\
  (exists i, read_all 3 {| left := write [0x20; 0x3042; 0x41; 0x0A; 0x1F600; 0x3000]; atend := false; bad := false |} = Ok ([[0x3042; 0x41]; [0x1F600; 0x3000]], i)).
Proof.
  split; [ repeat constructor; unfold scalar; lia | ]. split; [ | vm_compute; eexists; reflexivity ].
  apply (w_word [0x20] [0x3042; 0x41] [0x0A; 0x1F600; 0x3000]); [ repeat constructor; unfold blank; lia | discriminate | repeat constructor; unfold blank; lia | cbn; unfold blank; lia | ].
  apply (w_word [0x0A] [0x1F600; 0x3000] []); [ repeat constructor; unfold blank; lia | discriminate | repeat constructor; unfold blank; lia | exact I | repeat constructor ].
Qed.

Print Assumptions C116_written.
Print Assumptions C116_word.
Print Assumptions C116_words.
Print Assumptions C116_none.
Print Assumptions C116_blank_lost.
