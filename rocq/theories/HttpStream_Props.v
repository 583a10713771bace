(** C97: reading a document by HTTP. *)
From Verif Require Import Common CommonLemmas NumText_Model Socket_Spec Socket_Model Socket_Proof Http_Spec Http_Model Http_Proof HttpMsg_Spec HttpMsg_Model HttpMsg_Proof.
From Verif Require Import Uri_Spec Base64_Spec HttpStream_Spec HttpStream_Model HttpStream_Proof.
From Verif Require Uri_Model UriParse_Proof.
Local Open Scope Z_scope.

(** Opening a stream connects to the host and port of the URL and sends the request for it.  Missing for the full claim: a URL with
    a fragment, another port than 80, a port above 65535, no scheme, what [ok_parts] excludes (C24), a kernel that fails. *)
Theorem C97_request_partial rc sc net junk p a c : (forall i, 0 < sc i) -> ok_parts p -> p_scheme p = Some (str "http") -> p_auth p = Some a ->
  p_fragment p = None -> port_of a = 80 -> (forall h o inb, net h o = Some inb -> bytes inb) ->
  open_url rc sc net junk (compose p) = Ok c -> peer c = (a_host a, 80) /\ net (a_host a) 80 <> None /\ sent c = get_request p a.
Proof.
  intros Hsc Hp Es Ea Ef E80 Hb Ho. pose proof (opened_upto rc sc net Hsc junk p a Hp Es Ea ltac:(lia)) as H. rewrite E80 in H. change (80 mod 2 ^ 16) with 80 in H.
  destruct (net (a_host a) 80) as [inb|] eqn:En; [|rewrite H in Ho; discriminate Ho]. destruct (H (Hb _ _ _ En)) as (x & _ & _ & _ & E). rewrite E in Ho.
  destruct (recv_response rc junk x) as [[r x']| | |]; cbn [obind] in Ho; try discriminate Ho. injection Ho as <-. cbn [peer sent]. split; [reflexivity|]. split; [discriminate|].
  unfold get_request, full, target, host_field. rewrite Ef. unfold port_of in E80. destruct (names (a_port a)) as [d|]; [rewrite E80, Z.eqb_refl|]; now rewrite app_nil_r.
Qed.
(** With another port the stream is connected to it. *)
Theorem C97_port rc sc net junk p a c : (forall i, 0 < sc i) -> ok_parts p -> p_scheme p = Some (str "http") -> p_auth p = Some a -> port_of a < 2 ^ 16 ->
  (forall h o inb, net h o = Some inb -> bytes inb) -> 
  open_url rc sc net junk (compose p) = Ok c -> peer c = (a_host a, port_of a) /\ net (a_host a) (port_of a) <> None.
Proof.
  intros Hsc Hp Es Ea Hl Hb Ho. assert (Ha : ok_auth a) by (destruct Hp as (_ & H & _); auto).
  assert (P : 0 <= port_of a).
  { unfold port_of. destruct (names (a_port a)) as [d|] eqn:En; [|lia]. destruct (names_some _ _ En) as [E _]. destruct Ha as (_ & _ & Hd). rewrite E in Hd. cbn [ok_opt] in Hd.
    apply decimal_acc; [lia|]. eapply Forall_impl; [|exact Hd]. exact DIGIT_digit. }
  pose proof (opened_upto rc sc net Hsc junk p a Hp Es Ea ltac:(lia)) as H. rewrite Z.mod_small in H by lia.
  destruct (net (a_host a) (port_of a)) as [inb|] eqn:En; [|rewrite H in Ho; discriminate Ho]. destruct (H (Hb _ _ _ En)) as (x & _ & _ & _ & E). rewrite E in Ho.
  destruct (recv_response rc junk x) as [[r x']| | |]; cbn [obind] in Ho; try discriminate Ho. injection Ho as <-. cbn [peer]. split; [reflexivity|discriminate].
Qed.
(** The stream delivers the body of the response, whichever way its end is marked, for every way of reading; then the end of the
    file.  The header of the response is there.  Missing for the full claim: as in C80; the byte 255 in chunks; the length 0. *)
Theorem C97_body_partial rc sc net junk p a inb ma mi code reason h w body : (forall i, 0 < rc i) -> (forall i, 0 < sc i) ->
  ok_parts p -> p_scheme p = Some (str "http") -> p_auth p = Some a -> port_of a < 2 ^ 16 ->
  net (a_host a) (port_of a) = Some inb -> bytes inb -> inb = message (status_line ma mi code reason) h w -> framed h w body ->
  int ma -> int mi -> int code -> reason_ok reason -> (length (status_line ma mi code reason) <= 4094)%nat ->
  exists c, open_url rc sc net junk (compose p) = Ok c /\ start (resp c) = ((ma, mi), code, reason) /\ incl h (head (resp c)) /\
  forall ops, exists rs, read_http rc c ops = Ok rs /\ map delivered rs = reads ops body.
Proof.
  intros Hrc Hsc Hp Es Ea Hl En Hb Ei F H1 H2 H3 H4 H5. assert (Ha : ok_auth a) by (destruct Hp as (_ & H & _); auto).
  assert (P : 0 <= port_of a).
  { unfold port_of. destruct (names (a_port a)) as [d|] eqn:Ed; [|lia]. destruct (names_some _ _ Ed) as [E _]. destruct Ha as (_ & _ & Hd). rewrite E in Hd. cbn [ok_opt] in Hd.
    apply decimal_acc; [lia|]. eapply Forall_impl; [|exact Hd]. exact DIGIT_digit. }
  pose proof (opened_upto rc sc net Hsc junk p a Hp Es Ea ltac:(lia)) as H. rewrite Z.mod_small in H by lia. rewrite En in H. destruct (H Hb) as (x & Ho & Hc & Hs & E). rewrite E.
  destruct (response_read rc Hrc junk ma mi code reason h w body x (conn_alive x Ho Hc) H1 H2 H3 H4 H5 F ltac:(rewrite Hs; exact Ei)) as (hd & bd & x' & R1 & R2 & R3).
  rewrite R1. cbn [obind]. eexists. split; [reflexivity|]. cbn [resp start head]. split; [reflexivity|]. split; [exact R2|]. intros ops. apply R3.
Qed.
(** A URL of another scheme, a port out of the range of int and a host that does not answer are reported by an exception. *)
Theorem C97_refused rc sc net junk p a : ok_parts p ->
  ((exists s, p_scheme p = Some s /\ s <> str "http") \/
   (forall i, 0 < sc i) /\ p_scheme p = Some (str "http") /\ p_auth p = Some a /\ (2 ^ 31 <= port_of a \/ net (a_host a) (port_of a mod 2 ^ 16) = None)) ->
  open_url rc sc net junk (compose p) = Throw.
Proof.
  intros Hp [(s & Es & Ns)|(Hsc & Es & Ea & H)].
  - unfold open_url. rewrite (UriParse_Proof.compose_parse p Hp). cbn [obind]. assert (K : scheme_ok (UriParse_Proof.comps_of p) = false); [|now rewrite K].
    unfold scheme_ok. cbn [UriParse_Proof.comps_of Uri_Model.scheme]. rewrite Es. cbn [UriParse_Proof.str_of]. destruct Hp as (Hs & _). rewrite Es in Hs. cbn [ok_opt] in Hs. destruct Hs as (c & r & -> & _).
    unfold eqs. destruct (list_eq_dec Z.eq_dec (c :: r) (str "http")) as [E|_]; [contradiction|]. destruct (list_eq_dec Z.eq_dec (c :: r) []) as [E|_]; [discriminate E|reflexivity].
  - assert (Ha : ok_auth a) by (destruct Hp as (_ & G & _); auto). destruct (Z.lt_ge_cases (port_of a) (2 ^ 31)) as [Hl|Hl].
    + destruct H as [H|H]; [lia|]. pose proof (opened_upto rc sc net Hsc junk p a Hp Es Ea Hl) as G. rewrite H in G. exact G.
    + unfold open_url. rewrite (UriParse_Proof.compose_parse p Hp). cbn [obind].
      assert (K : scheme_ok (UriParse_Proof.comps_of p) = true) by (unfold scheme_ok; cbn [UriParse_Proof.comps_of Uri_Model.scheme]; rewrite Es; reflexivity). rewrite K. cbn [negb].
      rewrite (port_number_ok p a Ea Ha). replace (port_of a <? 2 ^ 31) with false by lia. reflexivity.
Qed.
(** Whatever the peer sends, opening returns or throws; every reading after it returns.  A minus sign is excluded (C28: negative chunk sizes). *)
Theorem C97_ends_partial rc sc net junk p a : (forall i, 0 < sc i) -> ok_parts p -> p_scheme p = Some (str "http") -> p_auth p = Some a -> 
  (forall h o inb, net h o = Some inb -> bytes inb /\ ~ In 45 inb) ->
  open_url rc sc net junk (compose p) = Throw \/
  exists c, open_url rc sc net junk (compose p) = Ok c /\ forall ops, exists rs, read_http rc c ops = Ok rs /\ length rs = length ops.
Proof.
  intros Hsc Hp Es Ea Hb. destruct (Z.lt_ge_cases (port_of a) (2 ^ 31)) as [Hl|Hl]; [|left; apply (C97_refused rc sc net junk p a Hp); tauto].
  pose proof (opened_upto rc sc net Hsc junk p a Hp Es Ea Hl) as H. destruct (net (a_host a) _) as [inb|] eqn:En; [|now left].
  destruct (Hb _ _ _ En) as [B1 B2]. destruct (H B1) as (x & Ho & _ & Hs & ->). pose proof (response_later rc junk x Ho) as L.
  destruct (recv_response rc junk x) as [[r x']| | |]; try contradiction; [|now left]. cbn [obind]. right. eexists. split; [reflexivity|]. intros ops.
  destruct L as [L1 [d L2]]. apply read_any; [exact L1|]. cbn [link]. intros K. apply B2. rewrite <- Hs, L2. apply in_or_app. now right.
Qed.
Definition nl (s : String.string) : list Z := str s ++ [13; 10].
Definition site (reply : list Z) (h : list Z) (o : Z) : option (list Z) := if eqs h (str "h.org") && ((o =? 80) || (o =? 8080)) then Some reply else None.
Definition fetch (reply url : list Z) : outcome opened := open_url (fun _ => 3) (fun _ => 5) (site reply) 0 url.
Definition get (reply url : list Z) (n : nat) : outcome (list Z) := let* c := fetch reply url in read_http (fun _ => 3) c (repeat Next n).
Example C97_case : exists c, fetch (nl "HTTP/1.1 200 OK" ++ nl "Content-Length: 3" ++ nl "" ++ str "abc") (str "http://joe:x@h.org/a?q") = Ok c /\
  peer c = (str "h.org", 80) /\
  sent c = nl "GET http://joe:x@h.org/a?q HTTP/1.1" ++ nl "Host: h.org" ++ nl "Connection: close" ++ nl "Authorization: Basic am9lOng=" ++ nl "" /\
  read_http (fun _ => 3) c [Peek; Next; Next; Peek; Peek; Next; Next; Peek] = Ok [97; 97; 98; 99; 99; 99; -1; -1].
Proof. eexists. split; [vm_compute; reflexivity|]. split; [reflexivity|]. split; vm_compute; reflexivity. Qed.
Example C97_case_chunked : get (nl "HTTP/1.1 200 OK" ++ nl "Transfer-Encoding: Chunked" ++ nl "" ++ nl "2" ++ nl "ab" ++ nl "1" ++ nl "c" ++ nl "0" ++ nl "") (str "http://h.org") 5 = Ok [97; 98; 99; -1; -1] /\
  get (nl "HTTP/1.1 200 OK" ++ nl "" ++ str "ab") (str "http://h.org:8080/") 4 = Ok [97; 98; -1; -1].
Proof. split; vm_compute; reflexivity. Qed.
Example C97_nonvacuous : framed [(str "Host", str "h")] (str "ab") (str "ab") /\ port_of (mkA None (str "h.org") (Some (str "080"))) = 80 /\
  get_request (mkP (Some (str "http")) (Some (mkA None (str "h.org") (Some []))) [] None None) (mkA None (str "h.org") (Some [])) =
    nl "GET http://h.org/ HTTP/1.1" ++ nl "Host: h.org" ++ nl "Connection: close" ++ nl "".
Proof.
  split; [|split; vm_compute; reflexivity]. constructor. split; [|split; [|repeat constructor]].
  - constructor; [|constructor]. split.
    + split; [discriminate|]. apply Forall_forall. intros c K. vm_compute in K. unfold token_char. split; [lia|]. split; [|lia]. intros J. vm_compute in J. lia.
    + split; [|split].
      * split; [apply Forall_forall; intros c K; vm_compute in K; unfold is_byte; lia|]. split; intros K; vm_compute in K; lia.
      * intros c v E. injection E as <- <-. change (~ blank 104). unfold blank. lia.
      * vm_compute. lia.
  - repeat constructor; cbn; intuition discriminate.
Qed.
(** A port above 65535 is taken modulo 65536. *)
Theorem C97_port_refuted : exists c, fetch (nl "HTTP/1.1 200 OK" ++ nl "") (str "http://h.org:65616/") = Ok c /\ peer c = (str "h.org", 80).
Proof. eexists. split; [vm_compute; reflexivity|reflexivity]. Qed.
(** The field Host lacks the port. *)
Theorem C97_host_refuted : let p := mkP (Some (str "http")) (Some (mkA None (str "h.org") (Some (str "8080")))) (str "/") None None in
  exists c, fetch (nl "HTTP/1.1 200 OK" ++ nl "") (compose p) = Ok c /\
  sent c = nl "GET http://h.org:8080/ HTTP/1.1" ++ nl "Host: h.org" ++ nl "Connection: close" ++ nl "" /\
  get_request p (mkA None (str "h.org") (Some (str "8080"))) = nl "GET http://h.org:8080/ HTTP/1.1" ++ nl "Host: h.org:8080" ++ nl "Connection: close" ++ nl "".
Proof. eexists. split; [vm_compute; reflexivity|]. split; vm_compute; reflexivity. Qed.
(** The fragment is sent. *)
Theorem C97_fragment_refuted : exists c, fetch (nl "HTTP/1.1 200 OK" ++ nl "") (str "http://h.org/a#f") = Ok c /\
  sent c = nl "GET http://h.org/a#f HTTP/1.1" ++ nl "Host: h.org" ++ nl "Connection: close" ++ nl "".
Proof. eexists. split; [vm_compute; reflexivity|vm_compute; reflexivity]. Qed.
(** A URL without a scheme is accepted, but what is asked for is neither a path nor an absolute URI. *)
Theorem C97_schemeless_refuted : exists c, fetch (nl "HTTP/1.1 200 OK" ++ nl "") (str "//h.org/a") = Ok c /\
  sent c = nl "GET h.org/a HTTP/1.1" ++ nl "Host: h.org" ++ nl "Connection: close" ++ nl "" /\
  exists u, Uri_Model.uri (str "h.org/a") = Ok u /\ Uri_Model.host u = [] /\ Uri_Model.path u = str "h.org/a".
Proof. eexists. split; [vm_compute; reflexivity|]. split; [vm_compute; reflexivity|]. eexists. split; [vm_compute; reflexivity|]. split; reflexivity. Qed.
(** A scheme is not compared without regard to case. *)
Theorem C97_case_of_scheme_refuted : forall rc sc net junk, open_url rc sc net junk (str "HTTP://h.org/") = Throw.
Proof. intros. reflexivity. Qed.
(** A body that breaks off, or a chunk without its end of line, ends like a whole one. *)
Theorem C97_truncated_refuted :
  get (nl "HTTP/1.1 200 OK" ++ nl "Content-Length: 5" ++ nl "" ++ str "ab") (str "http://h.org/") 4 = Ok [97; 98; -1; -1] /\
  get (nl "HTTP/1.1 200 OK" ++ nl "Transfer-Encoding: chunked" ++ nl "" ++ nl "2" ++ nl "ab" ++ nl "3" ++ str "cd") (str "http://h.org/") 4 = Ok [97; 98; -1; -1] /\
  get (nl "HTTP/1.1 200 OK" ++ nl "Transfer-Encoding: chunked" ++ nl "" ++ nl "2" ++ nl "ab" ++ nl "3" ++ nl "cdefg") (str "http://h.org/") 4 = Ok [97; 98; -1; -1].
Proof. split; [|split]; vm_compute; reflexivity. Qed.
(** A body of the length 0 is what follows on the connection. *)
Theorem C97_empty_refuted : get (nl "HTTP/1.1 204 No Content" ++ nl "Content-Length: 0" ++ nl "" ++ str "xy") (str "http://h.org/") 3 = Ok [120; 121; -1].
Proof. vm_compute. reflexivity. Qed.

Print Assumptions C97_request_partial.
Print Assumptions C97_port.
Print Assumptions C97_body_partial.
Print Assumptions C97_refused.
Print Assumptions C97_ends_partial.
Print Assumptions C97_port_refuted.
Print Assumptions C97_host_refuted.
Print Assumptions C97_fragment_refuted.
Print Assumptions C97_schemeless_refuted.
Print Assumptions C97_case_of_scheme_refuted.
Print Assumptions C97_truncated_refuted.
Print Assumptions C97_empty_refuted.
