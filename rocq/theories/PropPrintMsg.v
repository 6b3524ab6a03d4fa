(** PropPrintMsg.v: C105, C106: the exact text of RRs, RRsets and messages, whatever their rdata is. Spec: SpecPrintMsg.v,
    SpecPrint.v. *)
From Coq Require Strings.String.
From Verif Require Import Base Lib SpecName SpecMessage SpecFormat SpecTables SpecText SpecMsgText SpecParsed SpecSane SpecLoose SpecPrint SpecPrintMsg Libc ModelName ModelParse ModelToStr.
From Verif Require Import ProofDeliver PropParse PropLoose PropDeliver ProofShow4 ProofShow5.
From Verif Require Import SpecPrint SpecPrintMsg.

(** ** C105: RRs and RRsets. *)
Theorem C105_record : forall r sec s, sec <> 0 -> record_fits r -> (rr_to_str r sec = Ok s <-> record_shown r s).
Proof.
  intros r sec s N F. split; [|apply (record_shows [] r sec s N F)]. intros E. destruct (record_total r F) as [(s' & H)|U].
  - pose proof (record_shows [] r sec s' N F H) as E'. unfold rr_to_str in E. assert (s = s') by (cbn [app] in E'; congruence). subst. auto.
  - unfold rr_to_str in E. rewrite U in E by auto. discriminate.
Qed.
Print Assumptions C105_record.
Theorem C105_question : forall r s, question_fits r -> (rr_to_str r 0 = Ok s <-> question_shown r s).
Proof.
  intros r s F. split; [|apply (question_shows [] r s F)]. intros E. destruct (question_total r F) as (s' & H).
  pose proof (question_shows [] r s' F H) as E'. unfold rr_to_str in E. assert (s = s') by (cbn [app] in E'; congruence). subst. auto.
Qed.
Print Assumptions C105_question.
Theorem C105_rrset : forall x sec s, sec <> 0 -> rrset_fits x -> (rrset_to_str x sec = Ok s <-> rrset_shown x s).
Proof.
  intros x sec s N F. split; [|apply rrset_shows; auto]. intros E. destruct (rrset_total x F) as [(s' & H)|U]; [|rewrite U in E by auto; discriminate].
  pose proof (rrset_shows x sec s' N F H) as E'. assert (s = s') by congruence. subst. auto.
Qed.
Print Assumptions C105_rrset.
(** In the question section: one line, whatever the rdatas are, but there must be one (NULL is dereferenced otherwise). *)
Theorem C105_rrset_question : forall x s, rrset_fits x -> rs_rdatas x <> [] -> (rrset_to_str x 0 = Ok s <-> question_shown (member x []) s).
Proof.
  intros x s (N & NF & _) D. destruct (rs_rdatas x) as [|d ds] eqn:E; [contradiction|]. unfold rrset_to_str, rrset_to_ubuf. rewrite E. change (0 =? 0) with true. cbv iota zeta. cbn [rrs_to_ubuf].
  assert (F : forall e, question_fits (member x e)) by (intros e; split; auto).
  transitivity (rr_to_str (member x d) 0 = Ok s); [unfold rr_to_str, member; destruct (rr_to_ubuf [] _ 0); cbn [bind]; split; auto|]. rewrite (C105_question (member x d) s (F d)). reflexivity.
Qed.
Print Assumptions C105_rrset_question.
Theorem C105_rrset_no_rdata : forall x, rs_rdatas x = [] -> rrset_to_str x 0 = UB NullDeref /\ forall sec, sec <> 0 -> rrset_to_str x sec = Ok [].
Proof. intros x E. unfold rrset_to_str, rrset_to_ubuf. rewrite E. split; [reflexivity|]. intros sec N. replace (sec =? 0) with false by lia. reflexivity. Qed.
Print Assumptions C105_rrset_no_rdata.
Example C105_question_ex : rrset_to_str {| rs_name := [1; 97; 0]; rs_type := 1; rs_class := 1; rs_ttl := 60; rs_rdatas := [[1; 2]; [3]] |} 0 = Ok (lit ";a. IN A" ++ [10]).
Proof. vm_compute. reflexivity. Qed.
(** Texts exist exactly for rdata that does not stop inside a name. *)
Theorem C105_some_record : forall r, record_fits r -> ((exists s, record_shown r s) <-> forall d, rr_rdata r = Some d -> ~ ends_in_name (format_of (rr_type r) (rr_class r)) d).
Proof.
  intros r F. destruct F as ((N & RT & RC) & T & (d & D & B & L)). assert (F : record_fits r) by (split; [split; [auto|split; auto]|split; [auto|exists d; split; [auto|split; auto]]]). split.
  - intros (s & H) d' D'. assert (d' = d) by congruence. subst d'. intros EN. apply (record_shows [] r 1 s ltac:(lia) F) in H. destruct N as (ls & N).
    rewrite (ProofMsgText.rr_record [] r 1 _ _ ltac:(lia) T (name_prints _ _ N)), D, ProofSafe2.rdata_cut in H; auto. discriminate.
  - intros NE. specialize (NE d D). destruct (record_total r F) as [H|U]; [exact H|]. exfalso. destruct N as (ls & N). specialize (U [] 1 ltac:(lia)).
    rewrite (ProofMsgText.rr_record [] r 1 _ _ ltac:(lia) T (name_prints _ _ N)), D, app_assoc in U.
    destruct (ProofMsgText.rdata_ok ([] ++ ProofMsgText.record_head (pres_name ls) r) d (rr_type r) (rr_class r) B L NE) as (s & E). rewrite E in U. discriminate.
Qed.
Print Assumptions C105_some_record.

(** ** C106: messages. *)
Theorem C106_message : forall M t, message_fits M -> (message_to_str M = Ok t <-> message_shown M t).
Proof.
  intros M t F. split; [|apply message_shows; auto]. intros E. destruct (message_total M F) as [(t' & H)|U]; [|congruence].
  pose proof (message_shows M t' F H) as E'. assert (t = t') by congruence. subst. auto.
Qed.
Print Assumptions C106_message.

(** Whatever was parsed successfully fits. *)
Lemma parsed_fits : forall fuel pkt M, bytes_ok pkt -> 65535 < Z.of_nat fuel -> parse_message fuel pkt (zlen pkt) = Ok (res_success, M) -> message_fits M.
Proof.
  intros fuel pkt M B F E. pose proof E as E'. apply C93_accepts_exactly in E' as (s & LM & ->); auto. destruct (parsed_full _ _ _ B LM E) as (SM & Q & A & N & R & _).
  destruct SM as (RI & RF & RR & RV & _ & RS & SO & (SQ & _ & LQ & _) & (_ & _ & LA & _) & (_ & _ & LN & _) & (_ & _ & LR & _)).
  assert (G : forall rs, Forall full_rr rs -> Forall record_fits rs).
  { intros rs. apply Forall_impl. intros r ((SN & ST & STy & SC & SD) & (ns & V & NE) & (d & D)). split; [split; [exists ns; rewrite NE; apply name_wire; auto|split; auto]|]. split; [auto|]. exists d. split; [auto|]. apply SD. auto. }
  split; [auto|]. split; [auto|]. split; [auto|]. split.
  { apply Forall_forall. intros r I. rewrite Forall_forall in Q, SQ. destruct (Q r I) as (ns & V & NE). destruct (SQ r I) as (_ & _ & STy & SC & _). split; [exists ns; rewrite NE; apply name_wire; auto|split; auto]. }
  split; [auto|]. split; [auto|]. split; [auto|]. split; [|auto].
  split; [auto|]. split; [auto|]. destruct (e_options (m_edns (parsed s))); [apply SO; auto|auto].
Qed.

(** Every packet accepted by the parser: the text, if there is one, is that of the specification; up to 65000 octets there is. *)
Theorem C106_packet : forall fuel pkt M, bytes_ok pkt -> 65535 < Z.of_nat fuel -> parse_message fuel pkt (zlen pkt) = Ok (res_success, M) ->
  (forall t, message_to_str M = Ok t <-> message_shown M t) /\ (zlen pkt <= 65000 -> exists t, message_to_str M = Ok t /\ message_shown M t).
Proof.
  intros fuel pkt M B F E. pose proof (parsed_fits _ _ _ B F E) as MF. split; [intros t; apply C106_message; auto|]. intros L.
  destruct (C98_small fuel pkt M B F L E) as ((t & T) & _). exists t. split; [auto|]. apply C106_message; auto.
Qed.
Print Assumptions C106_packet.
Theorem C106_one_text : forall M t t', message_fits M -> message_shown M t -> message_shown M t' -> t = t'.
Proof. intros M t t' F H H'. apply C106_message in H; auto. apply C106_message in H'; auto. congruence. Qed.
Print Assumptions C106_one_text.

(** A reply with a truncated client subnet behind a good option: accepted, and its text. *)
Definition odd_pkt : bytes := [0;7;128;0; 0;1;0;1;0;0;0;1; 1;97;0;0;1;0;1; 192;12;0;1;0;1;0;0;0;60;0;4;192;0;2;1;
  0;0;41;16;0;0;0;128;0;0;10;0;10;0;1;7;0;8;0;1;0].
Definition odd_fuel : nat := Z.to_nat 70000.
Example C106_ex : exists M t, parse_message odd_fuel odd_pkt (zlen odd_pkt) = Ok (res_success, M) /\ message_shown M t /\ message_to_str M = Ok t /\
  t = lit ";; ->>HEADER<<- opcode: QUERY, rcode: NOERROR, id: 7
;; flags: qr; QUERY: 1, ANSWER: 1, AUTHORITY: 0, ADDITIONAL: 0

;; OPT PSEUDOSECTION:
; EDNS: version: 0, flags: do; udp: 4096
; OPT=10: 07 (""."")
; CLIENT-SUBNET:  ### PARSE ERROR #12 ###
;; QUESTION SECTION:
;a. IN A

;; ANSWER SECTION:
a. 60 IN A 192.0.2.1

;; AUTHORITY SECTION:

;; ADDITIONAL SECTION:
".
Proof.
  assert (E : exists M, parse_message odd_fuel odd_pkt (zlen odd_pkt) = Ok (res_success, M) /\ exists t, message_to_str M = Ok t /\ t = lit ";; ->>HEADER<<- opcode: QUERY, rcode: NOERROR, id: 7
;; flags: qr; QUERY: 1, ANSWER: 1, AUTHORITY: 0, ADDITIONAL: 0

;; OPT PSEUDOSECTION:
; EDNS: version: 0, flags: do; udp: 4096
; OPT=10: 07 (""."")
; CLIENT-SUBNET:  ### PARSE ERROR #12 ###
;; QUESTION SECTION:
;a. IN A

;; ANSWER SECTION:
a. 60 IN A 192.0.2.1

;; AUTHORITY SECTION:

;; ADDITIONAL SECTION:
"). { eexists. split; [vm_compute; reflexivity|]. eexists. split; [vm_compute; reflexivity|reflexivity]. }
  destruct E as (M & E & t & T & ET). exists M, t. split; [exact E|]. split; [|split; [exact T|exact ET]].
  assert (F : 65535 < Z.of_nat odd_fuel) by (unfold odd_fuel; rewrite Z2Nat.id by discriminate; reflexivity).
  assert (B : bytes_ok odd_pkt) by (apply bytes_okb_ok; vm_compute; reflexivity).
  apply (proj1 (C106_packet odd_fuel odd_pkt M B F E) t). exact T.
Qed.
(** RRs with malformed rdata: an SRV record of three octets; an SVCB record whose port has one octet; a KX record of class CH. *)
Example C105_ex :
  let r t c d := {| rr_name := [1; 97; 0]; rr_type := t; rr_class := c; rr_ttl := 60; rr_rdata := Some d |} in
  record_shown (r 33 1 [0; 10; 3]) (lit "a. 60 IN SRV 10  ### PARSE ERROR ###" ++ [10]) /\
  record_shown (r 64 1 [0; 1; 0; 0; 3; 0; 1; 5]) (lit "a. 60 IN SVCB 1 . port= ### PARSE ERROR #12 ###" ++ [10]) /\
  record_shown (r 36 3 [0; 10; 1; 98; 0]) (lit "a. 60 CH KX " ++ [10]) /\
  record_shown (r 16 1 []) (lit "a. 60 IN TXT" ++ [10]).
Proof.
  cbv zeta. assert (V : name_is [1; 97; 0] [[97]]). { apply (name_wire [[97]]). split; [|cbv; discriminate]. repeat constructor; cbn; try lia; discriminate. }
  assert (G : forall t c d s, 0 <= t < 65536 -> 0 <= c < 65536 -> bytes_ok d -> zlen d < 65536 ->
    rr_to_str {| rr_name := [1; 97; 0]; rr_type := t; rr_class := c; rr_ttl := 60; rr_rdata := Some d |} 1 = Ok s -> record_shown {| rr_name := [1; 97; 0]; rr_type := t; rr_class := c; rr_ttl := 60; rr_rdata := Some d |} s).
  { intros t c d s T C B L E. apply (C105_record _ 1); [lia| |exact E]. split; [split; [exists [[97]]; exact V|split; auto]|]. split; [cbn; lia|]. exists d. split; [reflexivity|split; auto]. }
  repeat split; apply G; try lia; try (apply bytes_okb_ok; reflexivity); try (cbv; reflexivity); vm_compute; reflexivity.
Qed.
