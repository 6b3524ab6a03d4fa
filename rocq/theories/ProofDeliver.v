(** ProofDeliver.v: printing and downcasing whatever wdns_parse_message accepted. *)
From Verif Require Import Base Lib SpecName SpecMessage SpecEncode SpecParsed SpecFormat SpecTables SpecText SpecMsgText SpecSane SpecLoose SpecDeliver Libc ModelName ModelFormat ModelTables ModelDescr ModelToStr ModelParse ModelRRset
  ProofUnpack ProofCopy ProofNameStr ProofNameOps ProofFormat ProofTables ProofRdata ProofPrint ProofPrint2 ProofField ProofVisible ProofEncode ProofRdataText
  ProofFromStr ProofSvc ProofRoundTrip ProofSafe ProofSafe2 ProofOptions ProofMessage ProofMsgText ProofSane ProofLoose2 PropCompose.

(** ** The rdata *)
Lemma loose_zero : forall m fs i vs, loose_rdata m fs i 0 vs -> vs = [].
Proof.
  intros m fs i vs H. inversion H as [|fs' i' n ls e vs' D L X E R|f fs' i' n l vs' NP FO A Z TE R|fs' i' n l A Z P LP]; subst; auto; exfalso; [pose proof (extent_pos _ _ _ X); lia|lia|lia].
Qed.
Lemma loose_values_of : forall m fs i n vs, bytes_ok m -> loose_rdata m fs i n vs -> loose_values fs vs.
Proof.
  intros m fs i n vs B H. induction H as [|fs i n ls e vs D L X E R IH|f fs i n l vs NP FO A Z TE R IH|fs i n l A Z P LP]; [apply lv_end| | |].
  - apply lv_name; [|auto]. split; [eapply denotes_valid; eauto|auto].
  - apply lv_octets; auto.
    + eapply octets_at_bytes; eauto.
    + intros ->. cbn in Z. lia.
    + intros T. rewrite (TE T) in R. replace (n - n) with 0 in R by lia. eapply loose_zero; eauto.
  - apply lv_params; [eapply octets_at_bytes; eauto|]. intros ->. cbn in Z. lia.
Qed.
Lemma loose_bound : forall m fs i n vs, loose_rdata m fs i n vs -> zlen (canon vs) <= n + 254 * names_in fs.
Proof.
  induction 1 as [fs i|fs i n ls e vs D L X EN R IH|f fs i n l vs NP Fo O [P Q] TE R IH|fs i n l A ZL P LP]; unfold names_in in *.
  - change (canon []) with (@nil Z). change (zlen []) with 0. pose proof (zlen_nonneg _ (filter (fun f => match f with FName => true | _ => false end) fs)). lia.
  - rewrite canon_cons, zlen_app. cbn [canon1 filter]. rewrite zlen_cons. apply extent_pos in X. lia.
  - rewrite canon_cons, zlen_app. cbn [canon1 filter]. destruct f; rewrite ?zlen_cons; lia.
  - rewrite canon_cons, zlen_app. change (canon []) with (@nil Z). change (zlen []) with 0. cbn [canon1 filter].
    pose proof (zlen_nonneg _ (filter (fun f => match f with FName => true | _ => false end) fs)). lia.
Qed.
Lemma loose_bytes : forall fs vs, loose_values fs vs -> bytes_ok (canon vs).
Proof.
  intros fs vs W. induction W as [|fs ls vs V W IH|f fs l vs NP FO B N TE W IH|fs l B N]; [constructor| | |]; unfold canon; cbn [map concat canon1]; apply bytes_ok_app; split; auto; [|constructor]. apply wire_bytes. apply V.
Qed.
(** Without SvcParams these are the values of SpecEncode. *)
Lemma loose_wf : forall fs vs, loose_values fs vs -> ~ In FParams fs -> wf_values fs vs.
Proof.
  intros fs vs W. induction W as [|fs ls vs V W IH|f fs l vs NP FO B N TE W IH|fs l B N]; intros NI.
  - apply wv_end.
  - apply wv_name; auto. apply IH. intros X. apply NI. right. auto.
  - apply wv_octets; auto. apply IH. intros X. apply NI. right. auto.
  - exfalso. apply NI. left. auto.
Qed.

Lemma loose_holds : forall f v fs vs, to_end f = false -> loose_values (f :: fs) (v :: vs) -> holds f v /\ loose_values fs vs.
Proof. intros f v fs vs T W. inversion W; subst; cbn [holds]; auto. discriminate. Qed.
Lemma loose_not_cut : forall ts vs, ends_ok ts = true -> loose_values (map fmt_of ts) vs -> ~ ends_in_name (map fmt_of ts) (canon vs).
Proof.
  intros ts vs EO W (before & after & vs' & ls & F1 & F2 & F3 & F4 & F5 & F6). change (Forall2 holds before vs') in F2. revert vs ts EO W F1 F6. induction F2 as [|f v' before vs' H F2 IH]; intros vs ts EO W F1 F6.
  - destruct ls as [|l ls]; [congruence|]. cbn [canon map concat app] in F6. destruct vs as [|v vs]; [discriminate|]. rewrite F1 in W. cbn [app] in W.
    inversion W as [|? ns ? VN W'|f fs o vs'' NP FO|]; subst; [|destruct FO].
    assert (X : wire ns ++ canon vs ++ [0] = wire (l :: ls) ++ []). { unfold canon in F6. cbn [map concat canon1] in F6. rewrite app_assoc. change (concat (map canon1 vs)) with (canon vs) in F6. rewrite F6. rewrite app_nil_r. reflexivity. }
    apply wire_inj_app in X as [_ X]; [|apply VN|auto]. destruct (canon vs); discriminate.
  - destruct ts as [|t ts]; [discriminate|]. cbn [map app] in F1. injection F1 as FT F1. destruct (ends_tail _ _ EO) as [EO' TE].
    assert (T : to_end f = false). { rewrite <- FT. apply TE. intros ->. destruct before; discriminate. }
    destruct vs as [|v vs].
    { assert (NE : canon1 v' <> []). { destruct v' as [ns|o]; cbn [canon1]; [destruct ns; discriminate|apply H]. } unfold canon in F6. cbn [map concat] in F6. destruct (canon1 v'); [congruence|discriminate]. }
    cbn [map] in W. rewrite FT in W. apply loose_holds in W as [HV W]; [|auto].
    unfold canon in F6. cbn [map concat] in F6. rewrite <- app_assoc in F6. apply (front_value f) in F6; auto. apply (IH vs ts); auto.
Qed.
Lemma loose_not_cut_of : forall t c vs, loose_values (format_of t c) vs -> ~ ends_in_name (format_of t c) (canon vs).
Proof. intros t c vs W. rewrite format_of_fields in *. apply loose_not_cut; auto. apply fields_for_ends. Qed.

(** ** Printing one rdata: the text, or a read behind it *)
Lemma rdata_ok_or_cut : forall l t c, bytes_ok l -> zlen l < 65536 -> (exists s, rdata_to_ubuf [] l (zlen l) t c = Ok s) \/ ends_in_name (format_of t c) l.
Proof.
  intros l t c B L. destruct (Z.eq_dec t 41) as [-> |N].
  { left. destruct (opt_safe [] l [] c ltac:(constructor) B ltac:(constructor) L) as (s & E & _). rewrite app_nil_r in E. eauto. }
  destruct (has_fields t c) eqn:H.
  - destruct (table_fields t c H N) as (d & E1 & E2 & E3 & _ & _ & E5). unfold rdata_to_ubuf. rewrite E1, E2. cbn [negb].
    assert (EO : ends_ok (d_types d) = true) by (rewrite E3; apply fields_for_ends). pose proof (zlen_nonneg _ l).
    destruct (fields_safe (d_types d) l (zlen l) EO E5 B ltac:(lia) L) as [(s & f & E & PS)|F].
    + left. rewrite E. cbn [bind]. destruct f; eauto.
    + right. rewrite format_of_fields, <- E3. apply fcut_exact. exact F.
  - left. assert (EF : format_of t c = [FRest]). { unfold has_fields in H. unfold format_of. destruct (find _ _) as [[i [io fs]]|]; [rewrite H|]; reflexivity. }
    destruct (rdata_safe [] l [] t c N ltac:(constructor) B ltac:(constructor) L) as (s & E & _); [rewrite EF; apply rest_not_cut|]. rewrite app_nil_r in E. eauto.
Qed.
Lemma rdata_exact : forall l t c, bytes_ok l -> zlen l < 65536 ->
  (~ ends_in_name (format_of t c) l /\ forall u, exists s, rdata_to_ubuf (u ++ [32]) l (zlen l) t c = Ok s) \/
  (ends_in_name (format_of t c) l /\ forall u, rdata_to_ubuf u l (zlen l) t c = UB OobRead).
Proof.
  intros l t c B L. destruct (rdata_ok_or_cut l t c B L) as [(s & E)|C].
  - left. split; [intros C; rewrite rdata_cut in E by auto; discriminate|]. intros u. destruct (rdata_appends u l (zlen l) t c) as (k & ->). rewrite E. cbn [bind]. eauto.
  - right. split; [auto|]. intros u. apply rdata_cut; auto.
Qed.

(** ** RRs *)
(** An RR with a proper owner and rdata. *)
Definition full_rr (r : rr) : Prop := sane_rr r /\ (exists ns, valid_name ns /\ rr_name r = wire ns) /\ exists d, rr_rdata r = Some d.
Lemma rr_exact : forall r sec, full_rr r -> sec <> 0 ->
  (~ cut_rr r /\ forall u, exists s, rr_to_ubuf u r sec = Ok s) \/ (cut_rr r /\ forall u, rr_to_ubuf u r sec = UB OobRead).
Proof.
  intros r sec ((SN & ST & _ & _ & SD) & (ns & V & NE) & (d & D)) N. destruct (SD d D) as [B L].
  assert (DN : domain_to_str (rr_name r) (zlen (rr_name r)) = Ok (pres_name ns, zlen (rr_name r))).
  { rewrite NE. pose proof (domain_to_str_wire ns [] (zlen (wire ns)) V ltac:(lia)) as H. rewrite app_nil_r in H. exact H. }
  destruct (rdata_exact d (rr_type r) (rr_class r) B L) as [(C & E)|(C & E)].
  - left. split; [intros (d' & D' & C'); assert (d' = d) by congruence; subst d'; auto|]. intros u. rewrite (rr_record u r sec _ _ N ST DN), D. rewrite app_assoc. destruct (E (u ++ record_head (pres_name ns) r)) as (s & ->). cbn [bind]. eauto.
  - right. split; [exists d; auto|]. intros u. rewrite (rr_record u r sec _ _ N ST DN), D, E. reflexivity.
Qed.
Lemma rr_asked : forall r u, (exists ns, valid_name ns /\ rr_name r = wire ns) -> exists s, rr_to_ubuf u r 0 = Ok s.
Proof.
  intros r u (ns & V & NE). assert (DN : domain_to_str (rr_name r) (zlen (rr_name r)) = Ok (pres_name ns, zlen (rr_name r))).
  { rewrite NE. pose proof (domain_to_str_wire ns [] (zlen (wire ns)) V ltac:(lia)) as H. rewrite app_nil_r in H. exact H. }
  rewrite (rr_question u r _ _ DN). eauto.
Qed.
Lemma rrs_exact : forall rs sec, Forall full_rr rs -> sec <> 0 ->
  ((forall r, In r rs -> ~ cut_rr r) /\ forall u, exists s, rrs_to_ubuf u rs sec = Ok s) \/ ((exists r, In r rs /\ cut_rr r) /\ forall u, rrs_to_ubuf u rs sec = UB OobRead).
Proof.
  intros rs sec F N. induction F as [|r rs F1 F IH]; [left; split; [intros r []|intros u; cbn [rrs_to_ubuf]; eauto]|].
  destruct (rr_exact r sec F1 N) as [(C & E)|(C & E)].
  - destruct IH as [(CS & ES)|((x & I & CX) & ES)].
    + left. split; [intros x [<-|I]; auto|]. intros u. cbn [rrs_to_ubuf]. destruct (E u) as (s & ->). cbn [bind]. apply ES.
    + right. split; [exists x; split; [right; auto|auto]|]. intros u. cbn [rrs_to_ubuf]. destruct (E u) as (s & ->). cbn [bind]. apply ES.
  - right. split; [exists r; split; [left; auto|auto]|]. intros u. cbn [rrs_to_ubuf]. rewrite E. reflexivity.
Qed.

(** ** RRsets *)
Definition full_set (x : rrset) : Prop := sane_set x /\ exists ns, valid_name ns /\ rs_name x = wire ns.
Lemma set_exact : forall x sec, full_set x -> sec <> 0 ->
  (~ cut_set x /\ exists t, rrset_to_str x sec = Ok t) \/ (cut_set x /\ rrset_to_str x sec = UB OobRead).
Proof.
  intros x sec ((SN & ST & STy & SC & SD & _) & NE) N. unfold rrset_to_str, rrset_to_ubuf. replace (sec =? 0) with false by lia.
  set (mk := fun d => {| rr_name := rs_name x; rr_type := rs_type x; rr_class := rs_class x; rr_ttl := rs_ttl x; rr_rdata := Some d |}).
  assert (F : Forall full_rr (map mk (rs_rdatas x))).
  { apply Forall_forall. intros r I. apply in_map_iff in I as (d & <- & I). rewrite Forall_forall in SD. split; [|split; [exact NE|exists d; reflexivity]].
    split; [exact SN|]. split; [exact ST|]. split; [exact STy|]. split; [exact SC|]. intros d' E. assert (d' = d) by (cbn in E; congruence). subst d'. apply SD. auto. }
  destruct (rrs_exact _ sec F N) as [(C & E)|((r & I & C) & E)].
  - left. split; [|apply E]. intros (d & I & CD). apply (C (mk d)); [apply in_map; auto|]. exists d. auto.
  - right. split; [|apply E]. apply in_map_iff in I as (d & <- & I). destruct C as (d' & E' & C). assert (d' = d) by (cbn in E'; congruence). subst d'. exists d. auto.
Qed.

(** ** Messages *)
Lemma edns_any : forall e, (forall d, e_options e = Some d -> sane_data d) -> exists s, edns_text e = Ok s.
Proof.
  intros e H. unfold edns_text. destruct (negb (e_present e)); [eauto|]. destruct (e_options e) as [d|] eqn:E; [|cbn [bind]; eauto].
  destruct (H d eq_refl) as [B L]. destruct (opt_safe [] d [] class_un ltac:(constructor) B ltac:(constructor) L) as (s & P & _). rewrite app_nil_r in P. rewrite P. cbn [bind].
  destruct (opt_lines_any (S (length s)) s ltac:(lia)) as (o & ->). cbn [bind]. eauto.
Qed.
Definition full_msg (M : message) : Prop := sane_msg M /\
  Forall (fun r => exists ns, valid_name ns /\ rr_name r = wire ns) (a_rrs (m_qd M)) /\
  Forall full_rr (a_rrs (m_an M)) /\ Forall full_rr (a_rrs (m_ns M)) /\ Forall full_rr (a_rrs (m_ar M)) /\
  Forall full_set (a_rrsets (m_an M) ++ a_rrsets (m_ns M) ++ a_rrsets (m_ar M)).
Lemma message_exact : forall M, full_msg M ->
  ((forall r, In r (records M) -> ~ cut_rr r) /\ exists t, message_to_str M = Ok t) \/ ((exists r, In r (records M) /\ cut_rr r) /\ message_to_str M = UB OobRead).
Proof.
  intros M (SM & Q & A & N & R & _). destruct SM as (_ & _ & _ & _ & _ & _ & SO & _). destruct (edns_any (m_edns M) SO) as (e & E).
  unfold message_to_str, rrset_array_to_ubuf, records. rewrite E. cbn [bind].
  match goal with |- context [rrs_to_ubuf ?u (a_rrs (m_qd M)) 0] => destruct (rrs_ok (a_rrs (m_qd M)) u 0) as (s0 & ->) end; [intros u r I; apply rr_asked; rewrite Forall_forall in Q; auto|]. cbn [bind].
  destruct (rrs_exact _ 1 A ltac:(lia)) as [(C1 & E1)|((r & I & C) & E1)].
  2:{ right. split; [exists r; split; [apply in_app_iff; auto|auto]|]. rewrite E1. reflexivity. }
  match goal with |- context [rrs_to_ubuf ?u (a_rrs (m_an M)) 1] => destruct (E1 u) as (s1 & ->) end. cbn [bind].
  destruct (rrs_exact _ 2 N ltac:(lia)) as [(C2 & E2)|((r & I & C) & E2)].
  2:{ right. split; [exists r; split; [rewrite !in_app_iff; auto|auto]|]. rewrite E2. reflexivity. }
  match goal with |- context [rrs_to_ubuf ?u (a_rrs (m_ns M)) 2] => destruct (E2 u) as (s2 & ->) end. cbn [bind].
  destruct (rrs_exact _ 3 R ltac:(lia)) as [(C3 & E3)|((r & I & C) & E3)].
  - left. split; [intros r I; rewrite !in_app_iff in I; destruct I as [I|[I|I]]; auto|]. apply E3.
  - right. split; [exists r; split; [rewrite !in_app_iff; auto|auto]|]. apply E3.
Qed.

(** ** Accepted packets *)
Definition loose_good (e : Z * srr) : Prop :=
  let '(k, r) := e in 0 <= k <= 3 /\ valid_name (s_name r) /\
  if k =? 0 then s_data r = None else exists vs, s_data r = Some vs /\ loose_values (format_of (s_type r) (s_class r)) vs.
Lemma loose_entry_good : forall sec m i r n, bytes_ok m -> 0 <= sec <= 3 -> loose_entry sec m i r n ->
  loose_good (sec, r) /\ (forall vs, s_data r = Some vs -> zlen (canon vs) <= zlen m + 508).
Proof.
  intros sec m i r n B S E. unfold loose_entry in E. unfold loose_good. destruct (sec =? 0) eqn:ES.
  - destruct E as (e & t0 & t1 & c0 & c1 & (D & L & X) & O & Et & Ec & El & Ed & ->).
    split; [|intros vs Dv; congruence]. split; [lia|]. split; [split; [eapply denotes_valid; eauto|auto]|auto].
  - destruct E as (e & t0 & t1 & c0 & c1 & w & x & y & z & l0 & l1 & vs & (D & L & X) & O & Et & Ec & El & Q). cbv zeta in Q. destruct Q as (B2 & R & Ed & ->).
    split; [split; [lia|split; [split; [eapply denotes_valid; eauto|auto]|]]|].
    + exists vs. split; [auto|]. eapply loose_values_of; eauto.
    + intros vs' Dv. assert (vs' = vs) by congruence. subst vs'. apply loose_bound in R. pose proof (two_names (s_type r) (s_class r)). apply octets_at_bound in O. lia.
Qed.
Lemma loose_entries_good : forall sec m i n rs j, bytes_ok m -> 0 <= sec <= 3 -> loose_entries sec m i n rs j ->
  Forall (fun e => loose_good e /\ forall vs, s_data (snd e) = Some vs -> zlen (canon vs) <= zlen m + 508) (map (pair sec) rs).
Proof.
  intros sec m i n rs j B S E. induction E as [|n H|i n r k rs j H1 H2 H3 H4 IH]; [constructor|constructor|]. cbn [map]. constructor; [|auto]. cbn [snd]. eapply loose_entry_good; eauto.
Qed.
Lemma loose_message_good : forall m s, bytes_ok m -> loose_message m s ->
  Forall (fun e => loose_good e /\ forall vs, s_data (snd e) = Some vs -> zlen (canon vs) <= zlen m + 508) (entries s).
Proof.
  intros m s B (i0 & i1 & f0 & f1 & q0 & q1 & a0 & a1 & n0 & n1 & r0 & r1 & j1 & j2 & j3 & j4 & O & EI & EF & E0 & E1 & E2 & E3).
  unfold entries. apply Forall_app. split; [eapply loose_entries_good; [exact B| |exact E0]; lia|]. apply Forall_app. split; [eapply loose_entries_good; [exact B| |exact E1]; lia|].
  apply Forall_app. split; eapply loose_entries_good; [exact B| |exact E2|exact B| |exact E3]; lia.
Qed.

Lemma parsed_full : forall fuel pkt s, bytes_ok pkt -> loose_message pkt s -> parse_message fuel pkt (zlen pkt) = Ok (res_success, parsed s) -> full_msg (parsed s).
Proof.
  intros fuel pkt s B LM E. pose proof (parse_sane _ _ _ _ _ B E) as SM. pose proof (loose_message_good _ _ B LM) as G. split; [exact SM|].
  destruct SM as (_ & _ & _ & _ & _ & _ & _ & Q & A & N & R). rewrite Forall_forall in G.
  assert (IN : forall k r, In r (in_section k (without_first_opt (entries s))) -> loose_good (k, r)) by (intros k r I; apply in_section_in, in_without in I; apply G in I; apply I).
  assert (FR : forall k, k <> 0 -> sane_arr (section_of (in_section k (without_first_opt (entries s)))) -> Forall full_rr (map rr_of (in_section k (without_first_opt (entries s)))) /\
     Forall full_set (map (set_of (in_section k (without_first_opt (entries s)))) (leaders [] (in_section k (without_first_opt (entries s)))))).
  { intros k K (S1 & S2 & _). cbn [section_of a_rrs a_rrsets] in S1, S2. rewrite Forall_forall in S1, S2. split; apply Forall_forall; intros x I.
    - split; [auto|]. apply in_map_iff in I as (r & <- & I). destruct (IN k r I) as (_ & V & D). replace (k =? 0) with false in D by lia. destruct D as (vs & D & _).
      split; [exists (s_name r); auto|]. cbn [rr_of rr_rdata]. rewrite D. cbn [option_map]. eauto.
    - split; [auto|]. apply in_map_iff in I as (r & <- & I). apply leaders_in in I. destruct (IN k r I) as (_ & V & _). exists (s_name r). auto. }
  split. { apply Forall_forall. intros x I. cbn [parsed parsed_entries m_qd question_of a_rrs] in I. apply in_map_iff in I as (r & <- & I). destruct (IN 0 r I) as (_ & V & _). exists (s_name r). auto. }
  destruct (FR 1 ltac:(lia) A) as [A1 A2]. destruct (FR 2 ltac:(lia) N) as [N1 N2]. destruct (FR 3 ltac:(lia) R) as [R1 R2].
  split; [exact A1|]. split; [exact N1|]. split; [exact R1|]. apply Forall_app. split; [exact A2|]. apply Forall_app. split; [exact N2|exact R2].
Qed.

(** A record with its field values. *)
Lemma record_values : forall pkt s r, bytes_ok pkt -> loose_message pkt s -> In r (records (parsed s)) ->
  exists sr vs, In sr (sm_an s ++ sm_ns s ++ sm_ar s) /\ s_data sr = Some vs /\ rr_of sr = r /\ rr_rdata r = Some (stored vs) /\ loose_values (format_of (rr_type r) (rr_class r)) vs /\
    zlen (canon vs) <= zlen pkt + 508.
Proof.
  intros pkt s r B LM I. pose proof (loose_message_good _ _ B LM) as G. rewrite Forall_forall in G.
  assert (K : exists k sr, k <> 0 /\ rr_of sr = r /\ In (k, sr) (entries s)).
  { unfold records in I. rewrite !in_app_iff in I.
    destruct I as [I|[I|I]]; cbn [parsed parsed_entries m_an m_ns m_ar section_of a_rrs] in I; apply in_map_iff in I as (sr & E & I); apply in_section_in, in_without in I; [exists 1, sr|exists 2, sr|exists 3, sr]; (split; [discriminate|auto]). }
  destruct K as (k & sr & K & <- & I'). destruct (G _ I') as ((_ & _ & D) & L). replace (k =? 0) with false in D by lia. destruct D as (vs & D & W). exists sr, vs.
  assert (J : In sr (sm_an s ++ sm_ns s ++ sm_ar s)).
  { unfold entries in I'. rewrite !in_app_iff in *. destruct I' as [J|[J|[J|J]]]; apply in_map_iff in J as (x & X & J); injection X as <- <-; [congruence|auto..]. }
  split; [exact J|]. split; [exact D|]. split; [auto|]. cbn [rr_of rr_rdata rr_type rr_class]. rewrite D. cbn [option_map]. split; [auto|]. split; [auto|]. apply L. exact D.
Qed.
Lemma set_values : forall pkt s x d, bytes_ok pkt -> loose_message pkt s -> In x (sets (parsed s)) -> In d (rs_rdatas x) ->
  exists sr vs, In sr (sm_an s ++ sm_ns s ++ sm_ar s) /\ s_data sr = Some vs /\ s_type sr = rs_type x /\ s_class sr = rs_class x /\ d = stored vs /\ loose_values (format_of (rs_type x) (rs_class x)) vs /\
    zlen (canon vs) <= zlen pkt + 508.
Proof.
  intros pkt s x d B LM I Id. pose proof (loose_message_good _ _ B LM) as G. rewrite Forall_forall in G. unfold sets in I. rewrite !in_app_iff in I.
  assert (K : exists k sr, k <> 0 /\ d = data_of sr /\ s_type sr = rs_type x /\ s_class sr = rs_class x /\ In (k, sr) (entries s)).
  { assert (KK : forall k, k <> 0 -> In x (map (set_of (in_section k (without_first_opt (entries s)))) (leaders [] (in_section k (without_first_opt (entries s))))) ->
      exists k sr, k <> 0 /\ d = data_of sr /\ s_type sr = rs_type x /\ s_class sr = rs_class x /\ In (k, sr) (entries s)).
    { intros k N J. apply in_map_iff in J as (r & <- & _). cbn [set_of rs_rdatas] in Id. apply in_map_iff in Id as (r' & <- & Id). unfold members in Id. apply filter_In in Id as (Id & SM).
      unfold same in SM. destruct (key_eq_dec (key r) (key r')) as [KE|]; [|discriminate]. unfold key in KE. injection KE as _ KT KC. exists k, r'. split; [auto|]. split; [auto|]. cbn [set_of rs_type rs_class]. split; [auto|]. split; [auto|]. apply in_without, in_section_in. auto. }
    destruct I as [I|[I|[I|I]]]; [|apply (KK 1)|apply (KK 2)|apply (KK 3)]; try discriminate; auto. apply in_map_iff in I as (r & <- & _). destruct Id. }
  destruct K as (k & sr & K & -> & ET & EC & I'). destruct (G _ I') as ((_ & _ & D) & L). replace (k =? 0) with false in D by lia. destruct D as (vs & D & W). exists sr, vs.
  assert (J : In sr (sm_an s ++ sm_ns s ++ sm_ar s)).
  { unfold entries in I'. rewrite !in_app_iff in *. destruct I' as [J|[J|[J|J]]]; apply in_map_iff in J as (y & X & J); injection X as <- <-; [congruence|auto..]. }
  split; [exact J|]. split; [exact D|]. split; [auto|]. split; [auto|]. rewrite <- ET, <- EC. unfold data_of. rewrite D. split; [auto|]. split; [auto|]. apply L. exact D.
Qed.
