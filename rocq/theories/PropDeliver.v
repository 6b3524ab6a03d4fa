(** PropDeliver.v: C98, C99: printing and downcasing whatever wdns_parse_message accepted. Spec: SpecDeliver.v, SpecLoose.v. *)
From Verif Require Import Base Lib SpecName SpecMessage SpecParsed SpecEncode SpecText SpecRRset SpecSane SpecLoose SpecDeliver ModelName ModelDescr ModelParse ModelRRset ModelToStr.
From Verif Require Import ProofUnpack ProofCopy ProofEncode ProofRdata ProofMessage ProofMsgText ProofRRset ProofLoose2 ProofDeliver PropParse PropRRset PropSafe PropText PropCompose PropLoose ProofHeap7.

(** ** C98 *)
(** For every accepted packet, without further conditions: the message is printed exactly if no record's rdata stops inside a
    name; otherwise the octet behind that rdata is read. *)
Theorem C98_message_exactly : forall fuel pkt M, bytes_ok pkt -> 65535 < Z.of_nat fuel -> parse_message fuel pkt (zlen pkt) = Ok (res_success, M) ->
  ((exists t, message_to_str M = Ok t) <-> forall r, In r (records M) -> ~ cut_rr r) /\
  (message_to_str M = UB OobRead <-> exists r, In r (records M) /\ cut_rr r).
Proof.
  intros fuel pkt M B F E. pose proof E as E'. apply C93_accepts_exactly in E' as (s & LM & ->); auto.
  destruct (ProofDeliver.message_exact _ (parsed_full _ _ _ B LM E)) as [(C & (t & T))|((r & I & C) & T)]; rewrite T; (split; split); auto.
  - intros _. eauto.
  - discriminate.
  - intros (r & I & C'). destruct (C r I C').
  - intros (t & X). discriminate.
  - intros N. destruct (N r I C).
  - eauto.
Qed.
Print Assumptions C98_message_exactly.

(** The same for every RR and every RRset. *)
Theorem C98_rr_exactly : forall fuel pkt M r sec, bytes_ok pkt -> 65535 < Z.of_nat fuel -> parse_message fuel pkt (zlen pkt) = Ok (res_success, M) ->
  In r (records M) ->
  ((exists t, rr_to_str r sec = Ok t) <-> sec = 0 \/ ~ cut_rr r) /\ (rr_to_str r sec = UB OobRead <-> sec <> 0 /\ cut_rr r).
Proof.
  intros fuel pkt M r sec B F E I. pose proof E as E'. apply C93_accepts_exactly in E' as (s & LM & ->); auto.
  destruct (parsed_full _ _ _ B LM E) as (_ & _ & A & N & R & _). 
  assert (FR : full_rr r). { unfold records in I. rewrite !in_app_iff in I. rewrite Forall_forall in A, N, R. destruct I as [I|[I|I]]; auto. }
  unfold rr_to_str. destruct (Z.eq_dec sec 0) as [-> |NZ].
  - destruct FR as (_ & NM & _). destruct (rr_asked r [] NM) as (t & T). rewrite T. split; split; auto; [intros _; eauto|discriminate|intros [X _]; congruence].
  - destruct (ProofDeliver.rr_exact r sec FR NZ) as [(C & T)|(C & T)]; [destruct (T []) as (t & ->)|rewrite T]; (split; split); auto.
    + intros _. eauto.
    + discriminate.
    + intros [_ X]. destruct (C X).
    + intros (t & X). discriminate.
    + intros [X|X]; [congruence|destruct (X C)].
Qed.
Print Assumptions C98_rr_exactly.
Theorem C98_rrset_exactly : forall fuel pkt M x sec, bytes_ok pkt -> 65535 < Z.of_nat fuel -> parse_message fuel pkt (zlen pkt) = Ok (res_success, M) ->
  In x (a_rrsets (m_an M) ++ a_rrsets (m_ns M) ++ a_rrsets (m_ar M)) -> sec <> 0 ->
  ((exists t, rrset_to_str x sec = Ok t) <-> ~ cut_set x) /\ (rrset_to_str x sec = UB OobRead <-> cut_set x).
Proof.
  intros fuel pkt M x sec B F E I NZ. pose proof E as E'. apply C93_accepts_exactly in E' as (s & LM & ->); auto.
  destruct (parsed_full _ _ _ B LM E) as (_ & _ & _ & _ & _ & FS). rewrite Forall_forall in FS.
  destruct (ProofDeliver.set_exact x sec (FS x I) NZ) as [(C & (t & T))|(C & T)]; rewrite T; (split; split); auto.
  - intros _. eauto.
  - discriminate.
  - intros X. destruct (C X).
  - intros (t & X). discriminate.
  - intros X. destruct (X C).
Qed.
Print Assumptions C98_rrset_exactly.
(** Questions are always printed. *)
Theorem C98_question : forall fuel pkt M r, bytes_ok pkt -> 65535 < Z.of_nat fuel -> parse_message fuel pkt (zlen pkt) = Ok (res_success, M) ->
  In r (a_rrs (m_qd M)) -> exists t, rr_to_str r 0 = Ok t.
Proof.
  intros fuel pkt M r B F E I. pose proof E as E'. apply C93_accepts_exactly in E' as (s & LM & ->); auto.
  destruct (parsed_full _ _ _ B LM E) as (_ & Q & _). rewrite Forall_forall in Q. apply rr_asked. auto.
Qed.
Print Assumptions C98_question.

(** Such rdata comes only from records whose rdata, with its names written out, has more than 65535 octets; none are in packets
    of up to 65000 octets, whatever their SvcParams. *)
Theorem C98_only_long : forall pkt s r, bytes_ok pkt -> loose_message pkt s -> In r (records (parsed s)) -> cut_rr r ->
  exists sr vs, In sr (sm_an s ++ sm_ns s ++ sm_ar s) /\ rr_of sr = r /\ s_data sr = Some vs /\ 65535 < zlen (canon vs).
Proof.
  intros pkt s r B LM I (d & D & C). destruct (record_values _ _ _ B LM I) as (sr & vs & J & DS & ER & DR & W & _). exists sr, vs. split; [auto|]. split; [auto|]. split; [auto|].
  destruct (Z_lt_le_dec 65535 (zlen (canon vs))) as [L|L]; [auto|]. exfalso. assert (d = canon vs). { rewrite <- (stored_canon vs) by lia. congruence. } subst d. exact (loose_not_cut_of _ _ _ W C).
Qed.
Print Assumptions C98_only_long.
Theorem C98_small : forall fuel pkt M, bytes_ok pkt -> 65535 < Z.of_nat fuel -> zlen pkt <= 65000 -> parse_message fuel pkt (zlen pkt) = Ok (res_success, M) ->
  (exists t, message_to_str M = Ok t) /\
  (forall r sec, In r (records M) -> exists t, rr_to_str r sec = Ok t) /\
  (forall x sec, sec <> 0 -> In x (a_rrsets (m_an M) ++ a_rrsets (m_ns M) ++ a_rrsets (m_ar M)) -> exists t, rrset_to_str x sec = Ok t).
Proof.
  intros fuel pkt M B F L E. pose proof E as E'. apply C93_accepts_exactly in E' as (s & LM & ->); auto.
  assert (NC : forall r, In r (records (parsed s)) -> ~ cut_rr r).
  { intros r I (d & D & C). destruct (record_values _ _ _ B LM I) as (sr & vs & _ & _ & _ & DR & W & LB). assert (d = canon vs). { rewrite <- (stored_canon vs) by lia. congruence. } subst d. exact (loose_not_cut_of _ _ _ W C). }
  split; [apply (C98_message_exactly fuel pkt _ B F E); exact NC|]. split.
  - intros r sec I. apply (C98_rr_exactly fuel pkt _ r sec B F E I). right. auto.
  - intros x sec NZ I. apply (C98_rrset_exactly fuel pkt _ x sec B F E I NZ). intros (d & Id & C).
    assert (IS : In x (sets (parsed s))). { unfold sets. apply in_app_iff. right. exact I. }
    destruct (set_values _ _ _ _ B LM IS Id) as (sr & vs & _ & _ & _ & _ & -> & W & LB). rewrite stored_canon in C by lia. exact (loose_not_cut_of _ _ _ W C).
Qed.
Print Assumptions C98_small.

(** ** C99 *)
Lemma folded_no_params : forall t c, In t rfc4034_types -> ~ In FParams (format_of t c).
Proof.
  intros t c I. unfold rfc4034_types in I. cbn [In] in I.
  repeat (destruct I as [<-|I]; [unfold format_of; cbn; destruct c as [|[]|]; cbn; intuition discriminate|]). destruct I.
Qed.
Lemma loose_downcase : forall t c vs, loose_values (format_of t c) vs -> exists x, downcase_rdata (canon vs) (zlen (canon vs)) t c = Ok x.
Proof.
  intros t c vs W. destruct (in_dec Z.eq_dec t rfc4034_types) as [I|I].
  - apply C36_wellformed_safe_partial. apply loose_wf; auto. apply folded_no_params. auto.
  - rewrite C35_other_types_untouched by auto. eauto.
Qed.
(** The rdata of every record is the canonical form of field values, SvcParams being any octets; downcasing stays within it. *)
Theorem C99_rdata : forall fuel pkt M r, bytes_ok pkt -> 65535 < Z.of_nat fuel -> zlen pkt <= 65000 -> parse_message fuel pkt (zlen pkt) = Ok (res_success, M) ->
  In r (records M) -> exists vs, loose_values (format_of (rr_type r) (rr_class r)) vs /\ rr_rdata r = Some (canon vs) /\ zlen (canon vs) < 65536 /\
    exists x, downcase_rdata (canon vs) (zlen (canon vs)) (rr_type r) (rr_class r) = Ok x.
Proof.
  intros fuel pkt M r B F L E I. pose proof E as E'. apply C93_accepts_exactly in E' as (s & LM & ->); auto.
  destruct (record_values _ _ _ B LM I) as (sr & vs & _ & _ & _ & DR & W & LB). rewrite stored_canon in DR by lia. exists vs. split; [auto|]. split; [auto|]. split; [lia|]. apply loose_downcase. auto.
Qed.
Print Assumptions C99_rdata.
Theorem C99_rrset : forall fuel pkt M x, bytes_ok pkt -> 65535 < Z.of_nat fuel -> zlen pkt <= 65000 -> parse_message fuel pkt (zlen pkt) = Ok (res_success, M) ->
  In x (sets M) -> exists y, downcase_rrset x = Ok y.
Proof.
  intros fuel pkt M x B F L E I. pose proof E as E'. apply C93_accepts_exactly in E' as (s & LM & ->); auto.
  unfold downcase_rrset, downcase_name. rewrite zlen_to_nat, downcase_loop_all. cbn [bind].
  assert (K : exists y, downcase_rdatas (rs_rdatas x) (rs_type x) (rs_class x) = Ok y).
  { assert (K : forall d, In d (rs_rdatas x) -> exists y, downcase_rdata d (zlen d) (rs_type x) (rs_class x) = Ok y).
    { intros d Id. destruct (set_values _ _ _ _ B LM I Id) as (sr & vs & _ & _ & _ & _ & -> & W & LB). rewrite stored_canon by lia. apply loose_downcase. auto. }
    clear I. induction (rs_rdatas x) as [|d ds IH]; [eexists; reflexivity|]. cbn [downcase_rdatas].
    destruct (K d ltac:(left; auto)) as ((r & d') & ->). cbn [bind].
    destruct IH as ((r2 & ds') & IH); [intros d0 I0; apply K; right; auto|]. rewrite IH. destruct r; eexists; reflexivity. }
  destruct K as ((r & ds) & ->). eexists. reflexivity.
Qed.
Print Assumptions C99_rrset.

(** Its rdata, printed and read back, is the same; for the types not excluded in C48. *)
Theorem C99_text : forall fuel pkt M r d, bytes_ok pkt -> 65535 < Z.of_nat fuel -> zlen pkt <= 65000 -> parse_message fuel pkt (zlen pkt) = Ok (res_success, M) ->
  In r (records M) -> rr_rdata r = Some d -> has_fields (rr_type r) (rr_class r) = true -> ~ In (rr_type r) [38; 41; 46; 47; 50; 62; 64; 65] ->
  exists t, rdata_to_str d (zlen d) (rr_type r) (rr_class r) = Ok t /\ ModelFromStr.str_to_rdata t (rr_type r) (rr_class r) = Ok d.
Proof.
  intros fuel pkt M r d B F L E I D H N. destruct (C99_rdata fuel pkt M r B F L E I) as (vs & W & D' & LC & _). assert (d = canon vs) by congruence. subst. apply C48_all; auto.
  apply loose_wf; auto. clear - N H.
  assert (K : forallb (fun e : Z * (bool * list fmt) => (fst e =? 64) || (fst e =? 65) || forallb (fun f => match f with FParams => false | _ => true end) (snd (snd e))) rr_formats = true) by (vm_compute; reflexivity).
  unfold format_of. destruct (find _ _) as [[k [io fs]]|] eqn:F; [|intros [X|[]]; discriminate].
  destruct (_ || _); [|intros [X|[]]; discriminate]. pose proof (find_some _ _ F) as [F1 F2]. rewrite forallb_forall in K. apply K in F1. cbn [fst snd] in *.
  apply orb_prop in F1 as [F1|F1]; [exfalso; apply N; assert (rr_type r = 64 \/ rr_type r = 65) as [-> | ->] by lia; cbn; tauto|].
  rewrite forallb_forall in F1. intros X. apply F1 in X. discriminate.
Qed.
Print Assumptions C99_text.

(** A packet the old condition [tame] excludes (wrapping SvcParam length), and the sample packet. *)
Example C98_ex : bytes_ok wrap_pkt /\ zlen wrap_pkt <= 65000 /\ (exists M, parse_message ex_fuel wrap_pkt (zlen wrap_pkt) = Ok (res_success, M) /\ records M <> [] /\ exists t, message_to_str M = Ok t) /\
  bytes_ok ex_pkt /\ zlen ex_pkt <= 65000 /\ parse_message ex_fuel ex_pkt (zlen ex_pkt) = Ok (res_success, ex_parsed) /\ records ex_parsed <> [].
Proof.
  assert (B : bytes_ok wrap_pkt) by (apply bytes_okb_ok; reflexivity). assert (L : zlen wrap_pkt <= 65000) by (vm_compute; discriminate).
  split; [exact B|]. split; [exact L|]. split.
  - destruct (parse_message 3 wrap_pkt (zlen wrap_pkt)) as [[r M]| | |] eqn:E; try (vm_compute in E; discriminate).
    assert (r = res_success) by (vm_compute in E; congruence). subst r.
    assert (N : records M <> []) by (vm_compute in E; injection E as <-; discriminate).
    pose proof E as E2. apply (ProofMono.message_fuel 3 ex_fuel) in E2; [|pose proof ex_fuel_ok; lia].
    exists M. split; [exact E2|]. split; [exact N|]. apply (C98_small ex_fuel wrap_pkt M B ex_fuel_ok L E2).
  - split; [apply ex_ok|]. split; [vm_compute; discriminate|]. split; [apply ex_parse|]. vm_compute. discriminate.
Qed.
