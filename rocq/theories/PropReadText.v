(** PropReadText.v: C91, C92: exactly which texts wdns_str_to_rdata accepts, and as which octets. The specification is
    SpecRead.v. *)
From Verif Require Import Base Lib SpecName SpecStrName SpecMessage SpecEncode SpecFormat SpecText SpecRead Libc ModelName ModelDescr ModelTables ModelFromStr.
From Verif Require Import ProofRdata ProofField ProofRdataText ProofRoundTrip2 ProofRead3 ProofRead4 ProofRead5.

(** ** C91 *)
Theorem C91_exact : forall s t c l, c_string s -> has_fields t c = true -> t <> 41 ->
  (str_to_rdata s t c = Ok l <-> reads_fields (combine (format_of t c) (presentation_of t)) s l).
Proof.
  intros s t c l CS H N41.
  destruct (table_fields t c H N41) as (d & L & CL & EF & EP & _ & NE). unfold str_to_rdata. rewrite L, CL. cbn [negb]. rewrite format_of_fields, EP, <- EF. apply fields_iff; auto.
  rewrite EF. apply fields_for_ends.
Qed.
Print Assumptions C91_exact.
(** MX "010  a.": a preference with a leading zero, two blanks. *)
Example C91_ex : str_to_rdata [48;49;48;32;32;97;46] 15 1 = Ok [0;10;1;97;0] /\
  reads_fields (combine (format_of 15 1) (presentation_of 15)) [48;49;48;32;32;97;46] [0;10;1;97;0].
Proof.
  assert (E : str_to_rdata [48;49;48;32;32;97;46] 15 1 = Ok [0;10;1;97;0]) by (vm_compute; reflexivity). split; auto. apply C91_exact; auto.
  - repeat constructor; cbn; lia.
  - cbn. intuition lia.
Qed.

(** SVCB: a key given by number, its value in quotes; a list of addresses with a comma too many. *)
Example C91_svcb_ex : forall l, str_to_rdata (lit "1 . key3=""80""no-default-alpn ipv4hint=,192.0.2.1,") 64 1 = Ok l <-> l = [0;1;0; 0;3;0;2;0;80; 0;2;0;0; 0;4;0;4;192;0;2;1].
Proof. intros l. assert (E : str_to_rdata (lit "1 . key3=""80""no-default-alpn ipv4hint=,192.0.2.1,") 64 1 = Ok [0;1;0; 0;3;0;2;0;80; 0;2;0;0; 0;4;0;4;192;0;2;1]) by (vm_compute; reflexivity). rewrite E. split; congruence. Qed.
Example C91_svcb_spec_ex : reads_fields (combine (format_of 64 1) (presentation_of 64)) (lit "1 . key3=""80""no-default-alpn ipv4hint=,192.0.2.1,") [0;1;0; 0;3;0;2;0;80; 0;2;0;0; 0;4;0;4;192;0;2;1].
Proof.
  apply C91_exact; [|reflexivity|lia|apply C91_svcb_ex; reflexivity]. repeat constructor; cbn; lia.
Qed.

(** Types without a known format are read in the generic form only, in every class. *)
Theorem C91_generic_exact : forall s t c l, find (fun e => fst e =? t) rr_formats = None ->
  (str_to_rdata s t c = Ok l <-> reads_generic s l).
Proof. intros s t c l H. unfold str_to_rdata. rewrite (no_fields_generic t H). apply generic_iff. Qed.
Print Assumptions C91_generic_exact.
Example C91_generic_ex : str_to_rdata (lit "\# 2 0a fF") 4660 1 = Ok [10; 255] /\ find (fun e => fst e =? 4660) rr_formats = None.
Proof. split; vm_compute; reflexivity. Qed.

(** The types defined for class IN only give nothing in any other class, whatever the text; OPT has no text. So all types
    and classes are covered. *)
Theorem C91_other_class_exact : forall s t c l, find (fun e => fst e =? t) rr_formats <> None -> has_fields t c = false ->
  (str_to_rdata s t c = Ok l <-> l = []).
Proof.
  intros s t c l F H. assert (I : In t (map fst rr_formats)).
  { destruct (in_dec Z.eq_dec t (map fst rr_formats)) as [I|I]; auto. exfalso. apply F. apply find_none_key. auto. }
  assert (E : str_to_rdata s t c = Ok []).
  { unfold str_to_rdata. clear F. unfold has_fields in H. cbn in I. repeat (destruct I as [<-|I]; [first [discriminate H|unfold lookup_descr; cbn in H |- *; destruct c as [|[]|]; first [discriminate H|reflexivity]]|]). contradiction. }
  rewrite E. split; congruence.
Qed.
Print Assumptions C91_other_class_exact.
Example C91_other_class_ex : find (fun e => fst e =? 1) rr_formats <> None /\ has_fields 1 3 = false.
Proof. split; [discriminate|reflexivity]. Qed.
Theorem C91_opt_exact : forall s c l, str_to_rdata s 41 c = Ok l <-> Forall white s /\ l = [].
Proof.
  intros s c l. unfold str_to_rdata. change (lookup_descr 41) with (Some {| d_class := class_un; d_types := [rdf_edns_opt_rdata] |}). cbn [d_class d_types]. change (class_un =? class_un) with true. cbn [orb negb parse_text_fields].
  rewrite <- skip_space_nil. destruct (skip_space s); cbn [parse_text_field bind]; split; try discriminate; try (intros [X _]; discriminate); [intros H; split; congruence|intros [_ ->]; reflexivity].
Qed.
Print Assumptions C91_opt_exact.

(** At most one result: the reading is unambiguous. *)
Theorem C91_unambiguous : forall s t c l l', c_string s -> has_fields t c = true -> t <> 41 ->
  reads_fields (combine (format_of t c) (presentation_of t)) s l -> reads_fields (combine (format_of t c) (presentation_of t)) s l' -> l = l'.
Proof. intros s t c l l' CS H N R R'. apply C91_exact in R; auto. apply C91_exact in R'; auto. congruence. Qed.
Print Assumptions C91_unambiguous.

(** ** C92: an accepted text is a complete, well-formed presentation: false. *)
(** Nothing at all is accepted for every type. *)
Theorem C92_nothing_refuted : forall t c, has_fields t c = true -> t <> 41 -> str_to_rdata [] t c = Ok [].
Proof.
  intros t c H N. destruct (table_fields t c H N) as (d & L & CL & _). unfold str_to_rdata. rewrite L, CL. cbn [negb]. apply parse_nil.
Qed.
Print Assumptions C92_nothing_refuted.
(** So an accepted text need not give all fields. *)
Theorem C92_complete_refuted : ~ forall s t c l, c_string s -> has_fields t c = true -> str_to_rdata s t c = Ok l ->
  exists vs, length vs = length (format_of t c) /\ wf_values (format_of t c) vs /\ l = canon vs.
Proof.
  intros H. assert (CS : c_string []) by constructor. destruct (H [] 1 1 [] CS eq_refl (C92_nothing_refuted 1 1 eq_refl ltac:(lia))) as (vs & L & WF & E).
  change (format_of 1 1) with [FFixed 4] in *. destruct vs as [|v [|]]; try discriminate. inversion WF as [| |? ? l ? FO BO NL ? ?]; subst. apply NL. destruct l; [reflexivity|discriminate].
Qed.
Print Assumptions C92_complete_refuted.
(** Text behind the last field is ignored, whatever it is. *)
Theorem C92_surplus_refuted : forall junk, str_to_rdata (lit "192.0.2.1 " ++ junk) 1 1 = Ok [192; 0; 2; 1].
Proof. intros junk. reflexivity. Qed.
Print Assumptions C92_surplus_refuted.
(** Hexadecimal text with signs, blanks and letters that are no digits; base 64 text without any digit; anything of one
    character as a hash. *)
Theorem C92_malformed_refuted :
  str_to_rdata (lit "1 1 1 -11z") 43 1 = Ok [0; 1; 1; 1; 255; 1] /\ str_to_rdata (lit "1 1 1 1  2") 43 1 = Ok [0; 1; 1; 1; 1; 2] /\
  str_to_rdata (lit "256 3 8 %%%%!!!!") 48 1 = Ok [1; 0; 3; 8] /\
  str_to_rdata (lit "1 0 1 - !") 50 1 = Ok [1; 0; 0; 1; 0; 0].
Proof. repeat split; vm_compute; reflexivity. Qed.
Print Assumptions C92_malformed_refuted.
(** An address in another class than IN: any text is accepted and dropped. *)
Theorem C92_other_class_refuted : forall s c, c <> 1 -> str_to_rdata s 1 c = Ok [].
Proof. intros s c N. apply C91_other_class_exact; [discriminate| |reflexivity]. unfold has_fields. cbn. lia. Qed.
Print Assumptions C92_other_class_refuted.
(** A trailing comma in alpn: an octet is written that the announced length does not count, so the rdata is malformed;
    a port number that wraps around; keys out of order and twice. *)
Theorem C92_service_params_refuted :
  str_to_rdata (lit "1 . alpn=h2,") 64 1 = Ok [0;1;0; 0;1;0;3; 2;104;50; 0] /\
  str_to_rdata (lit "1 . port=-18446744073709551536") 64 1 = Ok [0;1;0; 0;3;0;2; 0;80] /\
  str_to_rdata (lit "1 . port=2 alpn=a port=1") 64 1 = Ok [0;1;0; 0;3;0;2;0;2; 0;1;0;2;1;97; 0;3;0;2;0;1].
Proof. repeat split; vm_compute; reflexivity. Qed.
Print Assumptions C92_service_params_refuted.
