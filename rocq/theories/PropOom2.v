(** PropOom2.v: printing when memory runs out (C151). *)
From Verif Require Import Base Lib Libc ModelName ModelDescr ModelParse ModelFormat ModelTables ModelToStr ModelOom ModelOom2 SpecOom ProofOom ProofOom2.

(** ** C151: with enough memory, the functions of the other properties *)
Theorem C151_enough : forall fails n, (forall k, fails k = false) ->
  (forall d l t c, same_end (rdata_to_str d l t c) (rdata_to_str_o fails d l t c n)) /\
  (forall r sec, same_end (rr_to_str r sec) (rr_to_str_o fails r sec n)) /\
  (forall s sec, same_end (rrset_to_str s sec) (rrset_to_str_o fails s sec n)) /\
  (forall a sec, same_end (rrset_array_to_str a sec) (rrset_array_to_str_o fails a sec n)) /\
  (forall m, same_end (message_to_str m) (message_to_str_o fails m n)).
Proof.
  intros fails n E. assert (K : forall A (o : outcome A) m, fol fails false o m -> same_end o (m n)) by (intros A o m F; destruct (F n) as [S|((k & X) & _)]; [exact S|rewrite E in X; discriminate]).
  split; [|split; [|split; [|split]]]; intros; apply K.
  - apply o_to_str, o_rdata.
  - apply o_to_str, o_rr.
  - apply o_to_str, o_rrset.
  - apply o_to_str, o_rrs.
  - apply o_message.
Qed.
Print Assumptions C151_enough.
(** Whatever requests fail: the same end, or the process ends. *)
Theorem C151_rdata_partial : forall fails d l t c n, fail_stop fails (rdata_to_str d l t c) (rdata_to_str_o fails d l t c n).
Proof. intros. apply fol_stop, o_to_str, o_rdata. Qed.
Print Assumptions C151_rdata_partial.
Theorem C151_rr_partial : forall fails r sec n, fail_stop fails (rr_to_str r sec) (rr_to_str_o fails r sec n).
Proof. intros. apply fol_stop, o_to_str, o_rr. Qed.
Print Assumptions C151_rr_partial.
Theorem C151_rrset_partial : forall fails s sec n, fail_stop fails (rrset_to_str s sec) (rrset_to_str_o fails s sec n).
Proof. intros. apply fol_stop, o_to_str, o_rrset. Qed.
Print Assumptions C151_rrset_partial.
Theorem C151_array_partial : forall fails a sec n, fail_stop fails (rrset_array_to_str a sec) (rrset_array_to_str_o fails a sec n).
Proof. intros. apply fol_stop, o_to_str, o_rrs. Qed.
Print Assumptions C151_array_partial.
Theorem C151_message_partial : forall fails m n, fail_stop fails (message_to_str m) (message_to_str_o fails m n).
Proof. intros. apply fol_stop, o_message. Qed.
Print Assumptions C151_message_partial.

(** The types without base64 text: all but DNSKEY, RRSIG, CDNSKEY, OPENPGPKEY, SVCB and HTTPS. For these a failure never leads to NULL. *)
Definition checked {A} (fails : Z -> bool) (o : outcome A) (r : oout A) : Prop := same_end o r \/ ((exists k, fails k = true) /\ r = OAbort).
Definition without_base64 (t : Z) : Prop := t <> 48 /\ t <> 46 /\ t <> 60 /\ t <> 61 /\ t <> 64 /\ t <> 65.
Lemma without_no : forall t, without_base64 t -> no_base64 t. Proof. unfold without_base64, no_base64. cbn [In]. intros. lia. Qed.
Lemma stop_checked : forall A fails (o : outcome A) (m : om A) n, fail_stop fails o (m n) -> nn m -> checked fails o (m n).
Proof. intros A fails o m n [S|(X & [E|E])] N; [left; auto|right; auto|destruct (N n E)]. Qed.
Theorem C151_rdata_checked : forall fails d l t c n, without_base64 t -> checked fails (rdata_to_str d l t c) (rdata_to_str_o fails d l t c n).
Proof. intros. apply stop_checked; [apply C151_rdata_partial|]. apply nn_to_str, nn_rdata, without_no; auto. Qed.
Print Assumptions C151_rdata_checked.
Theorem C151_rr_checked : forall fails r sec n, sec = 0 \/ without_base64 (rr_type r) -> checked fails (rr_to_str r sec) (rr_to_str_o fails r sec n).
Proof. intros fails r sec n N. apply stop_checked; [apply C151_rr_partial|]. apply nn_to_str, nn_rr. destruct N; auto using without_no. Qed.
Print Assumptions C151_rr_checked.
Theorem C151_rrset_checked : forall fails s sec n, sec = 0 \/ without_base64 (rs_type s) -> checked fails (rrset_to_str s sec) (rrset_to_str_o fails s sec n).
Proof. intros fails s sec n N. apply stop_checked; [apply C151_rrset_partial|]. apply nn_to_str, nn_rrset. destruct N; auto using without_no. Qed.
Print Assumptions C151_rrset_checked.
Theorem C151_array_checked : forall fails a sec n, sec = 0 \/ Forall (fun r => without_base64 (rr_type r)) (a_rrs a) -> checked fails (rrset_array_to_str a sec) (rrset_array_to_str_o fails a sec n).
Proof. intros fails a sec n N. apply stop_checked; [apply C151_array_partial|]. apply nn_to_str, nn_rrs. destruct N as [N|N]; auto. right. eapply Forall_impl; [|exact N]. intros r. apply without_no. Qed.
Print Assumptions C151_array_checked.
Theorem C151_message_checked : forall fails m n, (forall r, In r (a_rrs (m_an m) ++ a_rrs (m_ns m) ++ a_rrs (m_ar m)) -> without_base64 (rr_type r)) ->
  checked fails (message_to_str m) (message_to_str_o fails m n).
Proof. intros fails m n N. apply stop_checked; [apply C151_message_partial|]. apply nn_message. intros r I. apply without_no, N, I. Qed.
Print Assumptions C151_message_checked.

(** The malloc of the base64 buffer is not checked: every OPENPGPKEY accesses NULL when it fails. *)
Theorem C151_null_refuted : forall fails d l c n, 0 < l -> fails n = false -> fails (n + 1) = false -> fails (n + 2) = true -> rdata_to_str_o fails d l 61 c n = ONull.
Proof.
  intros fails d l c n L F0 F1 F2. unfold rdata_to_str_o, to_str_o, obind at 1 2 3, must at 1 2. rewrite F0, F1. replace (n + 1 + 1) with (n + 2) by lia. unfold rdata_to_ubuf_o.
  change (lookup_descr 61) with (Some {| d_class := class_un; d_types := [rdf_bytes_b64] |}). cbn [d_class d_types]. change (negb ((class_un =? class_un) || (class_un =? c))) with false. cbn match.
  cbn [fields_text_o field_text_o]. replace (l =? 0) with false by lia. unfold to_base64_o, obind, raw. rewrite F2. cbn [negb orb]. replace (l =? 0) with false by lia. reflexivity.
Qed.
Print Assumptions C151_null_refuted.
Example C151_ex : rdata_to_str [192; 0; 2; 1] 4 1 1 = Ok (lit "192.0.2.1") /\
  rdata_to_str_o (fun _ => false) [192; 0; 2; 1] 4 1 1 0 = OVal (lit "192.0.2.1") 6 /\
  rdata_to_str_o (fun k => k =? 3) [192; 0; 2; 1] 4 1 1 0 = OAbort /\
  rdata_to_str_o (fun k => k =? 6) [192; 0; 2; 1] 4 1 1 0 = OVal (lit "192.0.2.1") 6 /\
  rdata_to_str_o (fun _ => false) [1; 2; 3] 3 61 1 0 = OVal (lit "AQID") 7 /\ rdata_to_str_o (fun k => k =? 2) [1; 2; 3] 3 61 1 0 = ONull.
Proof. repeat split; vm_compute; reflexivity. Qed.
