(** PropWritten.v: C67, the octets wdns_str_to_rdata returns are rdata of the type: other functions of the library can work on
    them. Spec: SpecWritten.v, SpecEncode.v. *)
From Coq Require Strings.String.
From Verif Require Import Base Lib SpecName SpecMessage SpecEncode SpecWritten SpecText Libc ModelName ModelDescr ModelFromStr ModelToStr ModelRRset.
From Verif Require Import ModelParse ProofUnpack ProofEncode ProofRdata ProofRdata2 ProofSafe ProofFromSafe ProofRdataText ProofWritten ProofWritten2 PropText PropSafe PropRRset.

Lemma assocZ_in : forall A (tb : list (Z * A)) k d, assocZ tb k = Some d -> In (k, d) tb.
Proof.
  induction tb as [|[i x] tb IH]; cbn [assocZ]; intros k d X; [discriminate|]. destruct (k =? i) eqn:Q.
  - left. f_equal; [lia|congruence].
  - right. auto.
Qed.

(** ** C67 *)

(** Whatever text is accepted, the result is a list of field values in the type's order: as well-formed rdata, but for labels
    longer than 63 octets, alpn lists and parameters of 64 KiB and more. Every name in it is written somewhere in the text. *)
Theorem C67_shape : forall s t c l, SpecName.c_string s -> str_to_rdata s t c = Ok l ->
  exists vs, written_values (format_of t c) vs /\ l = canon vs /\
             (forall ls, In (VName ls) vs -> exists a x b, s = a ++ x ++ b /\ name_text x ls).
Proof.
  intros s t c l C E. destruct (str_to_rdata_out s t c l C E) as (vs & W & L & F & _). exists vs. repeat split; auto.
  intros ls I. destruct (F ls I) as (x & (a & b & P) & N). eauto.
Qed.
Print Assumptions C67_shape.

(** It is well-formed when the text has no label of more than 63 octets and, for the types with service parameters, no alpn and
    a result below 64 KiB. *)
Theorem C67_wellformed_partial : forall s t c l, SpecName.c_string s -> str_to_rdata s t c = Ok l ->
  (In FName (format_of t c) -> no_long_label s) -> (In FParams (format_of t c) -> no_alpn s /\ zlen l < 65536) ->
  exists vs, wf_values (format_of t c) vs /\ l = canon vs.
Proof.
  intros s t c l C E NL NA. destruct (str_to_rdata_out s t c l C E) as (vs & W & L & F & K). exists vs. split; auto. apply K; auto.
  intros ls I. destruct (F ls I) as (x & (a & b & P) & N). refine (NL _ a x b ls P N).
  assert (G : forall fs vs, written_values fs vs -> In (VName ls) vs -> In FName fs).
  { clear. induction 1 as [fs|fs ls' vs _ _ IH|f fs l vs _ _ _ _ _ IH|fs ps _ _]; intros I; cbn [In] in *.
    - contradiction. - auto. - destruct I as [I|I]; [discriminate|auto]. - destruct I as [I|[]]. discriminate. }
  eapply G; eauto.
Qed.
Print Assumptions C67_wellformed_partial.

(** Types without names and parameters (A, AAAA, TXT, DNSKEY, DS, TLSA, CAA, ...) and unknown types: no condition. *)
Theorem C67_octet_types : forall s t c l, SpecName.c_string s -> ~ In FName (format_of t c) -> ~ In FParams (format_of t c) ->
  str_to_rdata s t c = Ok l -> exists vs, wf_values (format_of t c) vs /\ l = canon vs.
Proof. intros s t c l C N P E. eapply C67_wellformed_partial; eauto; intros; contradiction. Qed.
Print Assumptions C67_octet_types.

(** Printing what was read: safe, whatever the text was. (OPT is not printed this way; rdata lengths are 16 bit.) *)
Theorem C67_print : forall s t c l, SpecName.c_string s -> str_to_rdata s t c = Ok l -> t <> 41 -> zlen l < 65536 ->
  exists s', rdata_to_str l (zlen l) t c = Ok s' /\ printable s'.
Proof.
  intros s t c l C E N L. destruct (str_to_rdata_out s t c l C E) as (vs & W & -> & _). apply C50_rdata_safe_partial; auto.
  - eapply written_bytes; eauto.
  - apply written_not_cut_of. auto.
Qed.
Print Assumptions C67_print.

(** Reading, printing and reading again gives the same rdata. *)
Theorem C67_stable_partial : forall s t c l, SpecName.c_string s -> str_to_rdata s t c = Ok l -> has_fields t c = true ->
  ~ In t [38; 41; 46; 47; 50; 62; 64; 65] -> (In FName (format_of t c) -> no_long_label s) -> zlen l < 65536 ->
  exists s', rdata_to_str l (zlen l) t c = Ok s' /\ str_to_rdata s' t c = Ok l.
Proof.
  intros s t c l C E H N NL L. destruct (C67_wellformed_partial s t c l C E NL) as (vs & W & ->).
  - intros I. exfalso. revert I. clear -N. rewrite format_of_fields. intros I.
    assert (K : forallb (fun e : Z * descr => existsb (Z.eqb (fst e)) [38; 41; 46; 47; 50; 62; 64; 65] || negb (existsb (fun f => match fmt_of f with FParams => true | _ => false end) (d_types (snd e)))) record_table = true) by (vm_compute; reflexivity).
    unfold fields_for, descr_for in I. destruct (lookup_descr t) as [d|] eqn:LD; [|cbn in I; destruct I as [I|[]]; discriminate].
    unfold lookup_descr in LD. destruct ((d_class d =? class_un) || (d_class d =? c)); [|cbn in I; destruct I as [I|[]]; discriminate].
    apply assocZ_in in LD. rewrite forallb_forall in K. specialize (K _ LD). cbn [fst snd] in K. apply orb_true_iff in K as [K|K].
    + apply existsb_exists in K as (x & X & Y). apply Z.eqb_eq in Y. subst x. auto.
    + apply negb_true_iff in K. rewrite <- not_true_iff_false in K. apply K. apply existsb_exists. apply in_map_iff in I as (f & F & I). exists f. rewrite F. auto.
  - apply C48_all; auto.
Qed.
Print Assumptions C67_stable_partial.

(** The wire parser accepts it as rdata of the type and delivers the same octets. *)
Lemma parse_wf : forall t c vs fuel, wf_values (format_of t c) vs -> zlen (canon vs) < 65536 -> zlen (canon vs) < Z.of_nat fuel ->
  parse_rdata fuel (canon vs) (zlen (canon vs)) t c 0 (zlen (canon vs)) = Ok (canon vs).
Proof.
  intros t c vs fuel W L F. pose proof (zlen_nonneg _ (canon vs)). rewrite (parse_rdata_complete fuel (canon vs) t c 0 (zlen (canon vs)) vs); try lia.
  - rewrite load_rdata_small by auto. reflexivity.
  - eapply wf_values_bytes; eauto.
  - apply rdata_canon; auto. apply octets_at_self.
Qed.
Theorem C67_parse_partial : forall s t c l fuel, SpecName.c_string s -> str_to_rdata s t c = Ok l ->
  (In FName (format_of t c) -> no_long_label s) -> (In FParams (format_of t c) -> no_alpn s) -> zlen l < 65536 ->
  zlen l < Z.of_nat fuel -> parse_rdata fuel l (zlen l) t c 0 (zlen l) = Ok l.
Proof. intros s t c l fuel C E NL NA L F. destruct (C67_wellformed_partial s t c l C E NL) as (vs & W & ->); auto. apply parse_wf; auto. Qed.
Print Assumptions C67_parse_partial.

(** Downcasing what was read stays within it. *)
Theorem C67_downcase_partial : forall s t c l, SpecName.c_string s -> str_to_rdata s t c = Ok l ->
  (In FName (format_of t c) -> no_long_label s) -> (In FParams (format_of t c) -> no_alpn s /\ zlen l < 65536) ->
  exists x, downcase_rdata l (zlen l) t c = Ok x.
Proof. intros s t c l C E NL NA. destruct (C67_wellformed_partial s t c l C E NL NA) as (vs & W & ->). apply C36_wellformed_safe_partial. auto. Qed.
Print Assumptions C67_downcase_partial.

(** Where the full claim fails. A label of 64 octets is written as it is: the result is not well-formed, and this library's own
    name functions refuse it. *)
Theorem C67_long_label_refuted : exists s l, SpecName.c_string s /\ str_to_rdata s 2 1 = Ok l /\
  (forall vs, wf_values (format_of 2 1) vs -> l <> canon vs) /\ len_uname l (zlen l) = Err res_invalid_length_octet.
Proof.
  exists (repeat 97 64), (64 :: repeat 97 64 ++ [0]). split; [apply Forall_forall; intros x I; apply repeat_spec in I; lia|].
  split; [vm_compute; reflexivity|]. split; [|vm_compute; reflexivity].
  intros vs W E. pose proof (parse_wf 2 1 vs 100 W) as P. rewrite <- E in P. specialize (P ltac:(reflexivity) ltac:(reflexivity)). vm_compute in P. discriminate P.
Qed.
Print Assumptions C67_long_label_refuted.
(** A comma at the end of an alpn list leaves one octet that the announced length does not count; an id of 256 octets is
    announced as one of length 0. Both results are rejected as parameters. *)
Theorem C67_alpn_refuted :
  str_to_rdata (lit "1 . alpn=h2,") 64 1 = Ok ([0; 1; 0] ++ [0; 1; 0; 3; 2; 104; 50; 0]) /\
  str_to_rdata (lit "1 . alpn=" ++ repeat 97 256) 64 1 = Ok ([0; 1; 0] ++ [0; 1; 0; 0; 0] ++ repeat 97 256) /\
  (forall vs, wf_values (format_of 64 1) vs -> canon vs <> [0; 1; 0] ++ [0; 1; 0; 3; 2; 104; 50; 0]).
Proof.
  split; [vm_compute; reflexivity|]. split; [vm_compute; reflexivity|].
  intros vs W E. pose proof (parse_wf 64 1 vs 100 W) as P. rewrite E in P. specialize (P ltac:(reflexivity) ltac:(reflexivity)). vm_compute in P. discriminate P.
Qed.
Print Assumptions C67_alpn_refuted.
(** An address in another class: any text is accepted, and the result is empty rdata. *)
Theorem C67_other_class_refuted : forall s c, c <> 1 -> str_to_rdata s 1 c = Ok [].
Proof. intros s c N. unfold str_to_rdata. change (lookup_descr 1) with (Some {| d_class := class_in; d_types := [rdf_ipv4] |}). cbn [d_class]. change (class_in =? class_un) with false. change class_in with 1. replace (1 =? c) with false by lia. reflexivity. Qed.
Print Assumptions C67_other_class_refuted.

(** The hypotheses are met: an MX text, a TXT text, an SVCB text with port and hints. *)
Lemma c_string_lit : forall s, forallb (fun b => (1 <=? b) && (b <=? 255)) s = true -> SpecName.c_string s.
Proof. intros s H. apply Forall_forall. intros x I. rewrite forallb_forall in H. apply H in I. lia. Qed.
Lemma short_text : forall s, zlen s <= 63 -> no_long_label s.
Proof.
  assert (P : forall t l, ptext t l -> zlen l <= zlen t) by (induction 1 as [|t c t' l Hc _ IH]; [lia|]; rewrite zlen_app, zlen_cons; destruct Hc; repeat rewrite zlen_cons; change (zlen (@nil Z)) with 0; lia).
  assert (D : forall t ls, dotted t ls -> Forall (fun l => zlen l <= zlen t) ls).
  { induction 1 as [t l H|t l H|t l s ls H _ _ IH]; [repeat constructor; auto| |].
    - constructor; [|constructor]. apply P in H. rewrite zlen_app. change (zlen [46]) with 1. lia.
    - apply P in H. pose proof (zlen_nonneg _ s) as Ps. pose proof (zlen_nonneg _ t) as Pt. constructor; [rewrite zlen_app, zlen_cons; lia|].
      eapply Forall_impl; [|exact IH]. cbv beta. intros a A. rewrite zlen_app, zlen_cons. lia. }
  intros s L a t b ls -> N. inversion N as [| |t' ls' H]; subst; [constructor|constructor|]. eapply Forall_impl; [|apply D; exact H].
  cbv beta. intros x X. rewrite !zlen_app in L. pose proof (zlen_nonneg _ a). pose proof (zlen_nonneg _ b). lia.
Qed.
Example C67_ex :
  (let s := lit "10 Mail.Example." in SpecName.c_string s /\ no_long_label s /\ In FName (format_of 15 1) /\ has_fields 15 1 = true /\
     str_to_rdata s 15 1 = Ok ([0; 10] ++ wire [lit "Mail"; lit "Example"]) /\
     rdata_to_str ([0; 10] ++ wire [lit "Mail"; lit "Example"]) 16 15 1 = Ok s) /\
  (let s := lit "1 . port=443 ipv4hint=1.2.3.4" in SpecName.c_string s /\ no_long_label s /\ no_alpn s /\
     str_to_rdata s 64 1 = Ok [0; 1; 0; 0; 3; 0; 2; 1; 187; 0; 4; 0; 4; 1; 2; 3; 4]) /\
  (~ In FName (format_of 16 1) /\ ~ In FParams (format_of 16 1) /\
     str_to_rdata (34 :: lit "ab" ++ [34; 32; 34; 34]) 16 1 = Ok [2; 97; 98; 0]).
Proof.
  split; [|split].
  - repeat split; try (vm_compute; reflexivity); [apply c_string_lit; vm_compute; reflexivity|apply short_text; vm_compute; discriminate|cbn; tauto].
  - split; [apply c_string_lit; vm_compute; reflexivity|]. split; [apply short_text; vm_compute; discriminate|]. split; [|vm_compute; reflexivity].
    assert (Q : forall (p s : bytes), (forall n, (n <= length s)%nat -> prefix_eq p (skipn n s) = false) -> forall a b, s <> a ++ p ++ b).
    { intros p s H a b ->. specialize (H (length a)). rewrite skipn_app, skipn_all, Nat.sub_diag in H. cbn [app skipn] in H.
      assert (K : forall p b, prefix_eq p (p ++ b) = true) by (clear; induction p as [|x p IH]; intros b; cbn; auto; rewrite Z.eqb_refl; apply IH).
      rewrite K in H. discriminate H. rewrite app_length. lia. }
    assert (R : forall (p s : bytes), forallb (fun n => negb (prefix_eq p (skipn n s))) (seq 0 (S (length s))) = true -> forall a b, s <> a ++ p ++ b).
    { intros p s H. apply Q. intros n N. rewrite forallb_forall in H. specialize (H n). rewrite in_seq in H. specialize (H ltac:(lia)). apply negb_true_iff in H. exact H. }
    split; apply R; vm_compute; reflexivity.
  - split; [cbn; intros [K|[]]; discriminate|]. split; [cbn; intros [K|[]]; discriminate|]. vm_compute. reflexivity.
Qed.
