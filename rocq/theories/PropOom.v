(** PropOom.v: reading text when memory runs out (C150). *)
From Verif Require Import Base Lib Libc SpecName ModelName ModelDescr ModelFormat ModelTables ModelFromStr ModelOom SpecOom ProofOom.

(** ** C150: no failure: the call of the other properties *)
Theorem C150_enough : forall fails s t c n, (forall k, fails k = false) -> same_end (str_to_rdata s t c) (str_to_rdata_o fails s t c n).
Proof.
  intros fails s t c n E. destruct (f_rdata fails true s t c (or_introl eq_refl) n) as [S|((k & F) & _)]; [exact S|]. rewrite E in F. discriminate.
Qed.
Print Assumptions C150_enough.
(** Whatever requests fail: a text that is read gives the same octets, or the process ends. *)
Theorem C150_success_partial : forall fails s t c n o, str_to_rdata s t c = Ok o -> fail_stop fails (Ok o) (str_to_rdata_o fails s t c n).
Proof. intros fails s t c n o E. destruct (f_rdata_ok fails false s t c o E n) as [S|(X & [W|[A|A]])]; [left; exact S|discriminate|right; auto|right; auto]. Qed.
Print Assumptions C150_success_partial.
(** For every type but SVCB and HTTPS every outcome is kept. *)
Theorem C150_rdata_partial : forall fails s t c n, t <> 64 -> t <> 65 -> fail_stop fails (str_to_rdata s t c) (str_to_rdata_o fails s t c n).
Proof. intros fails s t c n N M. destruct (f_rdata fails false s t c (or_intror (conj N M)) n) as [S|(X & [W|[A|A]])]; [left; exact S|discriminate|right; auto|right; auto]. Qed.
Print Assumptions C150_rdata_partial.
(** wdns_str_to_name and wdns_str_to_name_case never touch NULL. *)
Theorem C150_name : forall fails down s after n, same_end (str_to_name_gen down s after) (str_to_name_o fails down s after n) \/ (fails n = true /\ str_to_name_o fails down s after n = OAbort).
Proof.
  intros fails down s after n. unfold str_to_name_o, obind, must. destruct (fails n); [right; auto|left]. unfold olift, same_end. destruct (str_to_name_gen down s after); eauto.
Qed.
Print Assumptions C150_name.
(** The failed assert is not the only end: strdup is not checked. Every text of an A, AAAA or NS record accesses NULL when the first strdup fails. *)
Theorem C150_null_refuted : forall fails s t n, t = 1 \/ t = 28 \/ t = 2 -> skip_space s <> [] ->
  fails n = false -> fails (n + 1) = false -> fails (n + 2) = true -> str_to_rdata_o fails s t 1 n = ONull.
Proof.
  intros fails s t n T K F0 F1 F2. unfold str_to_rdata_o, obind at 1 2 3, must at 1 2. rewrite F0, F1. replace (n + 1 + 1) with (n + 2) by lia. destruct (skip_space s) as [|c r] eqn:E; [congruence|].
  destruct T as [->|[->| ->]]; unfold clip_on_err.
  - change (lookup_descr 1) with (Some {| d_class := class_in; d_types := [rdf_ipv4] |}). cbn [d_class d_types]. change (negb ((class_in =? class_un) || (class_in =? 1))) with false. cbn match.
    cbn [text_fields_o]. rewrite E. unfold obind at 1. cbn [text_field_o]. destruct (token (c :: r)) as [w e]. unfold with_dup_o, obind, raw. rewrite F2. reflexivity.
  - change (lookup_descr 28) with (Some {| d_class := class_in; d_types := [rdf_ipv6] |}). cbn [d_class d_types]. change (negb ((class_in =? class_un) || (class_in =? 1))) with false. cbn match.
    cbn [text_fields_o]. rewrite E. unfold obind at 1. cbn [text_field_o]. destruct (token (c :: r)) as [w e]. unfold with_dup_o, obind, raw. rewrite F2. reflexivity.
  - change (lookup_descr 2) with (Some {| d_class := class_un; d_types := [rdf_name] |}). cbn [d_class d_types]. change (negb ((class_un =? class_un) || (class_un =? 1))) with false. cbn match.
    cbn [text_fields_o]. rewrite E. unfold obind at 1. cbn [text_field_o]. unfold name_field_o. destruct (token (c :: r)) as [w e]. unfold obind at 1 2 3, raw. rewrite F2. reflexivity.
Qed.
Print Assumptions C150_null_refuted.
(** And a failed calloc can turn an error into success: no-default-alpn must not have a value. *)
Definition with_value : bytes := lit "1 . no-default-alpn=""""".
Theorem C150_accepts_refuted : exists fails n o m, str_to_rdata with_value 64 1 = Err res_parse_error /\ str_to_rdata_o fails with_value 64 1 n = OVal o m.
Proof. exists (fun k => k =? 9), 0, [0; 1; 0; 0; 2; 0; 0], 13. split; vm_compute; reflexivity. Qed.
Print Assumptions C150_accepts_refuted.
(** Each end is met: the 0-th request is ubuf_new's, the 2nd strdup. *)
Example C150_ex : str_to_rdata (lit "192.0.2.1") 1 1 = Ok [192; 0; 2; 1] /\
  str_to_rdata_o (fun _ => false) (lit "192.0.2.1") 1 1 0 = OVal [192; 0; 2; 1] 5 /\
  str_to_rdata_o (fun k => k =? 0) (lit "192.0.2.1") 1 1 0 = OAbort /\
  str_to_rdata_o (fun k => k =? 2) (lit "192.0.2.1") 1 1 0 = ONull /\
  str_to_rdata_o (fun k => k =? 5) (lit "192.0.2.1") 1 1 0 = OVal [192; 0; 2; 1] 5 /\
  str_to_name_o (fun k => k =? 7) true (lit "a.b") [] 7 = OAbort.
Proof. repeat split; vm_compute; reflexivity. Qed.
