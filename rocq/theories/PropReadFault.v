(** PropReadFault.v: C96, C97: exactly which texts make wdns_str_to_rdata read behind its text or use an unset variable, and
    which error it reports otherwise. The specification is SpecReadFault.v. *)
From Verif Require Import Base Lib SpecName SpecStrName SpecMessage SpecEncode SpecFormat SpecText SpecRead SpecReadFault Libc ModelName ModelDescr ModelTables ModelFromStr.
From Verif Require Import ProofRdata ProofField ProofRdataText ProofRoundTrip2 ProofRead3 ProofRead4 ProofRead5 ProofReadFault PropReadText.

(** ** C96: the faults. *)
Theorem C96_exact : forall s t c x, c_string s -> has_fields t c = true -> t <> 41 ->
  (str_to_rdata s t c = UB x <-> fields_break (combine (format_of t c) (presentation_of t)) s x).
Proof.
  intros s t c x CS H N41. destruct (table_fields t c H N41) as (d & L & CL & EF & EP & _ & NE). unfold str_to_rdata. rewrite L, CL. cbn [negb]. rewrite format_of_fields, EP, <- EF. apply fields_ub; auto.
  rewrite EF. apply fields_for_ends.
Qed.
Print Assumptions C96_exact.
Theorem C96_generic_exact : forall s t c x, find (fun e => fst e =? t) rr_formats = None ->
  (str_to_rdata s t c = UB x <-> generic_breaks s /\ x = Uninit).
Proof. intros s t c x H. unfold str_to_rdata. rewrite (no_fields_generic t H). apply generic_ub. Qed.
Print Assumptions C96_generic_exact.
(** The remaining types and classes: never. *)
Theorem C96_other : forall s t c, (find (fun e => fst e =? t) rr_formats <> None /\ has_fields t c = false) \/ t = 41 ->
  (exists l, str_to_rdata s t c = Ok l) \/ (exists e, str_to_rdata s t c = Err e).
Proof.
  intros s t c [[F H]| ->].
  - left. exists []. apply C91_other_class_exact; auto.
  - unfold str_to_rdata. change (lookup_descr 41) with (Some {| d_class := class_un; d_types := [rdf_edns_opt_rdata] |}). cbn [d_class d_types]. change (class_un =? class_un) with true. cbn [orb negb parse_text_fields].
    destruct (skip_space s); cbn [parse_text_field bind]; eauto.
Qed.
Print Assumptions C96_other.
(** One text for each kind of break; the specification holds of it by C96_exact. *)
Definition broken (s : bytes) (t : Z) (x : fault) : Prop := fields_break (combine (format_of t 1) (presentation_of t)) s x.
Example C96_ex :
  broken (lit "10 a\ b") 15 OobRead /\                     (* a name that ends in a backslash *)
  broken (lit "1 8 2 aabb  ") 43 Uninit /\                  (* two blanks behind hexadecimal text *)
  broken (lit "1 2 3 ab{c") 48 OobRead /\                   (* '{' in base64 text *)
  broken (lit "1 0 0 a" ++ [11; 11; 11]) 51 Uninit /\       (* vertical tabs in a salt *)
  broken (lit "1 . port=53 ech=a\123") 64 OobRead /\        (* an escaped '{' in ech *)
  generic_breaks (lit "\#  ").
Proof.
  assert (G : forall s t x, c_string s -> has_fields t 1 = true -> t <> 41 -> str_to_rdata s t 1 = UB x -> broken s t x) by (intros s t x C H N E; apply C96_exact; auto).
  split; [|split; [|split; [|split; [|split]]]]; try (apply G; [repeat constructor; cbn; lia|reflexivity|lia|vm_compute; reflexivity]).
  apply (C96_generic_exact _ 4660 1 Uninit); vm_compute; reflexivity.
Qed.
(** An odd number of blanks behind hexadecimal text, or one: an error instead; a backslash behind more than 255 octets also. *)
Example C96_not_ex : ~ broken (lit "1 8 2 aabb ") 43 Uninit /\ broken (lit "1 8 2 aabb   ") 43 Uninit.
Proof.
  split.
  - intros H. apply C96_exact in H; [vm_compute in H; discriminate|repeat constructor; cbn; lia|reflexivity|lia].
  - apply C96_exact; [repeat constructor; cbn; lia|reflexivity|lia|vm_compute; reflexivity].
Qed.

(** ** C97: the errors. *)
(** A name that is too long is reported as such ... *)
Theorem C97_name_overflow_exact : forall s t c, c_string s -> has_fields t c = true -> t <> 41 ->
  (str_to_rdata s t c = Err res_name_overflow <-> fields_too_long (combine (format_of t c) (presentation_of t)) s).
Proof.
  intros s t c CS H N41. destruct (table_fields t c H N41) as (d & L & CL & EF & EP & _ & NE). unfold str_to_rdata. rewrite L, CL. cbn [negb]. rewrite format_of_fields, EP, <- EF. apply fields_long; auto.
  rewrite EF. apply fields_for_ends.
Qed.
Print Assumptions C97_name_overflow_exact.
(** ... and every other text that is not read is a parse error, if it is not one of C96: so every text of every type has one
    of these four results, each of which is characterised. *)
Theorem C97_parse_error_exact : forall s t c, c_string s -> has_fields t c = true -> t <> 41 ->
  (str_to_rdata s t c = Err res_parse_error <->
   (forall l, ~ reads_fields (combine (format_of t c) (presentation_of t)) s l) /\
   (forall x, ~ fields_break (combine (format_of t c) (presentation_of t)) s x) /\
   ~ fields_too_long (combine (format_of t c) (presentation_of t)) s).
Proof.
  intros s t c CS H N41. 
  assert (CO : str_to_rdata s t c <> NoFuel /\ (forall e, str_to_rdata s t c = Err e -> e = res_parse_error \/ e = res_name_overflow)).
  { destruct (table_fields t c H N41) as (d & L & CL & EF & EP & _ & NE). unfold str_to_rdata. rewrite L, CL. cbn [negb]. apply fields_codes; auto. rewrite EF. apply fields_for_ends. }
  destruct CO as [NF CO]. rewrite <- C97_name_overflow_exact by auto. split.
  - intros E. split; [intros l R; apply C91_exact in R; auto; congruence|]. split; [intros x R; apply C96_exact in R; auto; congruence|rewrite E; discriminate].
  - intros (R & B & T). destruct (str_to_rdata s t c) as [l|e|x|] eqn:E; [exfalso; apply (R l), C91_exact; auto| |exfalso; apply (B x), C96_exact; auto|congruence].
    destruct (CO e eq_refl) as [->| ->]; congruence.
Qed.
Print Assumptions C97_parse_error_exact.
Theorem C97_generic_exact : forall s t c, find (fun e => fst e =? t) rr_formats = None ->
  (str_to_rdata s t c = Err res_parse_error <-> (forall l, ~ reads_generic s l) /\ ~ generic_breaks s) /\
  (forall e, str_to_rdata s t c = Err e -> e = res_parse_error).
Proof.
  intros s t c H. pose proof (fun l => C91_generic_exact s t c l H) as R. pose proof (fun x => C96_generic_exact s t c x H) as B.
  assert (T : tidy (str_to_rdata s t c)) by (unfold str_to_rdata; rewrite (no_fields_generic t H); apply generic_tidy).
  split; [|intros e E; rewrite E in T; exact T]. split.
  - intros E. split; [intros l Q; apply R in Q; congruence|intros Q]. assert (str_to_rdata s t c = UB Uninit) by (apply B; auto). congruence.
  - intros (NR & NB). destruct (str_to_rdata s t c) as [l|e|x|] eqn:E; cbn in T; try contradiction; [exfalso; apply (NR l), R; auto|congruence|exfalso; apply NB, (B x); auto].
Qed.
Print Assumptions C97_generic_exact.
(** OPT is refused with the general failure unless the text is empty. *)
Theorem C97_opt_exact : forall s c, (str_to_rdata s 41 c = Err res_failure <-> ~ Forall white s) /\ (forall e, str_to_rdata s 41 c = Err e -> e = res_failure).
Proof.
  intros s c. unfold str_to_rdata. change (lookup_descr 41) with (Some {| d_class := class_un; d_types := [rdf_edns_opt_rdata] |}). cbn [d_class d_types]. change (class_un =? class_un) with true. cbn [orb negb parse_text_fields].
  rewrite <- skip_space_nil. destruct (skip_space s); cbn [parse_text_field bind].
  - split; [split; [discriminate|intros N; congruence]|discriminate].
  - split; [split; [discriminate|reflexivity]|congruence].
Qed.
Print Assumptions C97_opt_exact.
Example C97_ex : str_to_rdata (lit "10 a..b") 15 1 = Err res_parse_error /\ str_to_rdata (lit "300 a") 15 1 = Ok [1; 44; 1; 97; 0] /\
  str_to_rdata (lit "70000 a") 15 1 = Err res_parse_error /\ str_to_rdata (lit "x") 41 1 = Err res_failure /\
  str_to_rdata (lit "1 " ++ concat (repeat (lit "abcdefg.") 32)) 15 1 = Err res_name_overflow /\ str_to_rdata (lit "\# 2 00") 4660 1 = Err res_parse_error.
Proof. repeat split; vm_compute; reflexivity. Qed.
