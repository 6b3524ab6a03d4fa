(** PropCompose.v: C68, what wdns_parse_message delivers can be handed to the other functions. Spec: SpecRRset.v, SpecText.v. *)
From Verif Require Import Base Lib SpecName SpecMessage SpecParsed SpecEncode SpecText SpecSane SpecRRset ModelName ModelDescr ModelParse ModelRRset ModelToStr ModelFromStr.
From Verif Require Import ProofUnpack ProofCopy ProofEncode ProofRdata ProofRdataText ProofMessage ProofMsgText ProofRRset ProofSane ProofHeap7 PropParse PropRRset PropText PropSane PropSafe.

(** ** C68 *)

Definition sets (M : message) : list rrset := a_rrsets (m_qd M) ++ a_rrsets (m_an M) ++ a_rrsets (m_ns M) ++ a_rrsets (m_ar M).
Definition records (M : message) : list rr := a_rrs (m_an M) ++ a_rrs (m_ns M) ++ a_rrs (m_ar M).

Lemma set_wf : forall s, sane_set s -> wf_rrset s.
Proof. intros s ((A & B) & C & D & E & F & G). repeat (split; [assumption|]). exact F. Qed.

(** Every RRset of every message the parser leaves behind, whatever the packet and the return code, survives being stored: the
    octets are read back, in either byte order and with anything behind them, as the same RRset. *)
Theorem C68_store : forall fuel pkt len r M x, bytes_ok pkt -> parse_message fuel pkt len = Ok (r, M) -> In x (sets M) ->
  forall big rest, exists out, serialize_rrset big (serialize_size x) x = Ok out /\ zlen out = serialize_size x /\
  exists o, deserialize_rrset big (out ++ rest) (zlen (out ++ rest)) = Ok (res_success, o) /\ SpecRRset.holds o x.
Proof.
  intros fuel pkt len r M x B E I big rest.
  assert (W : wf_rrset x).
  { apply set_wf. apply parse_sane in E; [|exact B]. destruct E as (_ & _ & _ & _ & _ & _ & _ & Q & A & N & R).
    unfold sets in I. rewrite !in_app_iff in I. destruct I as [I|[I|[I|I]]]; [destruct Q as (_ & X & _)|destruct A as (_ & X & _)|destruct N as (_ & X & _)|destruct R as (_ & X & _)]; rewrite Forall_forall in X; auto. }
  destruct (C32_roundtrip big x rest W) as (out & S & D). destruct (C31_size_exact big x W) as (out' & S' & L & _).
  exists out. split; [exact S|]. split; [congruence|exact D].
Qed.
Print Assumptions C68_store.

(** The rdata of every RR outside the question section is well-formed, for packets accepted by the parser. *)
Definition sizes_ok (pkt : bytes) : Prop :=
  forall s r vs, message_at pkt s -> In r (sm_an s ++ sm_ns s ++ sm_ar s) -> s_data r = Some vs -> zlen (canon vs) < 65536.
(** This holds for every packet of up to 65000 octets: a name adds at most 254 octets when it is written out, and no rdata
    has more than two. *)
Definition names_in (fs : list fmt) : Z := zlen (filter (fun f => match f with FName => true | _ => false end) fs).
Lemma canon_bound : forall m fs i n vs, rdata_at m fs i n vs -> zlen (canon vs) <= n + 254 * names_in fs.
Proof.
  induction 1 as [fs i|fs i n ls e vs D L X EN R IH|f fs i n l vs Fo O [P Q] TE R IH]; unfold names_in in *.
  - change (canon []) with (@nil Z). change (zlen []) with 0. pose proof (zlen_nonneg _ (filter (fun f => match f with FName => true | _ => false end) fs)). lia.
  - rewrite canon_cons, zlen_app. cbn [canon1 filter]. rewrite zlen_cons. apply extent_pos in X. lia.
  - rewrite canon_cons, zlen_app. cbn [canon1 filter]. destruct f; rewrite ?zlen_cons; lia.
Qed.
Lemma two_names : forall t c, names_in (format_of t c) <= 2.
Proof.
  assert (K : forallb (fun e : Z * (bool * list fmt) => names_in (snd (snd e)) <=? 2) rr_formats = true) by (vm_compute; reflexivity).
  intros t c. unfold format_of. destruct (find _ _) as [[k [io fs]]|] eqn:F; [|vm_compute; discriminate].
  destruct (_ || _); [|vm_compute; discriminate]. apply find_some in F as [F _]. rewrite forallb_forall in K. apply K in F. cbn [snd] in F. lia.
Qed.
Lemma small_sizes : forall pkt, zlen pkt <= 65000 -> sizes_ok pkt.
Proof.
  intros pkt L s r vs (i0 & i1 & f0 & f1 & q0 & q1 & a0 & a1 & n0 & n1 & r0 & r1 & j1 & j2 & j3 & j4 & _ & _ & _ & _ & E1 & E2 & E3) I D.
  assert (K : forall sec i n rs j, sec <> 0 -> entries_at sec pkt i n rs j -> In r rs -> zlen (canon vs) < 65536).
  { intros sec i n rs j Sn E. induction E as [i|n P|i n x k rs j P Li E EE IH]; intros J; [destruct J|destruct J|]. destruct J as [-> |J]; [|auto].
    unfold entry_at in E. replace (sec =? 0) with false in E by lia.
    destruct E as (e & t0 & t1 & c0 & c1 & w & x & y & z & l0 & l1 & vs' & _ & O & _ & _ & _ & Q). cbv zeta in Q. destruct Q as (B & R & D' & _).
    assert (vs' = vs) by congruence. subst. apply canon_bound in R. pose proof (two_names (s_type r) (s_class r)). apply octets_at_bound in O. lia. }
  rewrite !in_app_iff in I. destruct I as [I|[I|I]]; [apply (K 1 _ _ _ _ ltac:(discriminate) E1 I)|apply (K 2 _ _ _ _ ltac:(discriminate) E2 I)|apply (K 3 _ _ _ _ ltac:(discriminate) E3 I)].
Qed.
Lemma parsed_good : forall fuel pkt M, bytes_ok pkt -> tame pkt -> 65535 < Z.of_nat fuel -> sizes_ok pkt ->
  parse_message fuel pkt (zlen pkt) = Ok (res_success, M) ->
  exists s, M = parsed s /\ forall k r, k <> 0 -> In r (in_section k (without_first_opt (entries s))) ->
    exists vs, wf_values (format_of (s_type r) (s_class r)) vs /\ s_data r = Some vs /\ stored vs = canon vs /\ zlen (canon vs) < 65536.
Proof.
  intros fuel pkt M B T F SZ E. destruct (message_sound _ _ _ _ B T F E) as [(_ & s & MA & ->)|[(_ & R & _)|(_ & R & _)]]; [|discriminate|cbn in R; intuition discriminate].
  destruct (message_good pkt s B MA) as (G & _). exists s. split; [reflexivity|]. intros k r K I. apply in_section_in, in_without in I.
  rewrite Forall_forall in G. pose proof (G _ I) as (_ & _ & _ & W). replace (k =? 0) with false in W by lia. destruct W as (vs & D & W). exists vs. split; [exact W|]. split; [exact D|].
  assert (L : zlen (canon vs) < 65536).
  { apply (SZ s r vs MA); auto. unfold entries in I. rewrite !in_app_iff in *. destruct I as [I|[I|[I|I]]]; apply in_map_iff in I as (x & X & I); injection X as <- <-; [congruence|auto..]. }
  split; [apply stored_canon; exact L|exact L].
Qed.
Theorem C68_rdata_partial : forall fuel pkt M, bytes_ok pkt -> tame pkt -> 65535 < Z.of_nat fuel -> sizes_ok pkt ->
  parse_message fuel pkt (zlen pkt) = Ok (res_success, M) ->
  (forall r, In r (records M) -> exists vs, wf_values (format_of (rr_type r) (rr_class r)) vs /\ rr_rdata r = Some (canon vs) /\ zlen (canon vs) < 65536) /\
  (forall x d, In x (sets M) -> In d (rs_rdatas x) -> exists vs, wf_values (format_of (rs_type x) (rs_class x)) vs /\ d = canon vs /\ zlen d < 65536).
Proof.
  intros fuel pkt M B T F SZ E. destruct (parsed_good fuel pkt M B T F SZ E) as (s & -> & G). split.
  - intros r I. unfold records in I. rewrite !in_app_iff in I.
    destruct I as [I|[I|I]]; apply in_map_iff in I as (x & <- & I); (apply G in I; [|discriminate]); destruct I as (vs & W & D & S & L); exists vs; cbn [rr_of rr_rdata rr_type rr_class]; rewrite D; cbn [option_map]; rewrite S; auto.
  - intros x d I Id. unfold sets in I. rewrite !in_app_iff in I.
    assert (K : forall k, k <> 0 -> In x (map (set_of (in_section k (without_first_opt (entries s)))) (leaders [] (in_section k (without_first_opt (entries s))))) ->
      exists vs, wf_values (format_of (rs_type x) (rs_class x)) vs /\ d = canon vs /\ zlen d < 65536).
    { intros k N J. apply in_map_iff in J as (r & <- & _). cbn [set_of rs_rdatas] in Id. apply in_map_iff in Id as (r' & <- & Id). unfold members in Id. apply filter_In in Id as (Id & SM).
      unfold same in SM. destruct (key_eq_dec (key r) (key r')) as [KE|]; [|discriminate]. unfold key in KE. injection KE as _ KT KC.
      destruct (G k r' N Id) as (vs & W & D & S & L). exists vs. cbn [set_of rs_type rs_class]. rewrite KT, KC. unfold data_of. rewrite D, S. auto. }
    destruct I as [I|[I|[I|I]]]; [|apply (K 1)|apply (K 2)|apply (K 3)]; try discriminate; auto.
    apply in_map_iff in I as (r & <- & _). destruct Id.
Qed.
Print Assumptions C68_rdata_partial.

(** Downcasing it stays within it, rdata by rdata and RRset by RRset. *)
Theorem C68_downcase_partial : forall fuel pkt M, bytes_ok pkt -> tame pkt -> 65535 < Z.of_nat fuel -> sizes_ok pkt ->
  parse_message fuel pkt (zlen pkt) = Ok (res_success, M) ->
  (forall r d, In r (records M) -> rr_rdata r = Some d -> exists x, downcase_rdata d (zlen d) (rr_type r) (rr_class r) = Ok x) /\
  (forall x, In x (sets M) -> exists y, downcase_rrset x = Ok y).
Proof.
  intros fuel pkt M B T F SZ E. destruct (C68_rdata_partial fuel pkt M B T F SZ E) as (R & S). split.
  - intros r d I D. destruct (R r I) as (vs & W & D' & _). assert (d = canon vs) by congruence. subst. apply C36_wellformed_safe_partial. auto.
  - intros x I. unfold downcase_rrset, downcase_name. rewrite zlen_to_nat, downcase_loop_all. cbn [bind].
    assert (K : exists y, downcase_rdatas (rs_rdatas x) (rs_type x) (rs_class x) = Ok y).
    { pose proof (fun d => S x d I) as K. clear S I. induction (rs_rdatas x) as [|d ds IH]; [eexists; reflexivity|]. cbn [downcase_rdatas].
      destruct (K d ltac:(left; auto)) as (vs & W & -> & _). destruct (C36_wellformed_safe_partial _ _ vs W) as ((r & d') & ->). cbn [bind].
      destruct IH as ((r2 & ds') & IH); [intros d I; apply K; right; auto|]. rewrite IH. destruct r; eexists; reflexivity. }
    destruct K as ((r & ds) & ->). eexists. reflexivity.
Qed.
Print Assumptions C68_downcase_partial.

(** Its rdata, printed and read back, is the same; for the types not excluded in C48. *)
Theorem C68_text_partial : forall fuel pkt M r d, bytes_ok pkt -> tame pkt -> 65535 < Z.of_nat fuel -> sizes_ok pkt ->
  parse_message fuel pkt (zlen pkt) = Ok (res_success, M) -> In r (records M) -> rr_rdata r = Some d ->
  has_fields (rr_type r) (rr_class r) = true -> ~ In (rr_type r) [38; 41; 46; 47; 50; 62; 64; 65] ->
  exists t, rdata_to_str d (zlen d) (rr_type r) (rr_class r) = Ok t /\ str_to_rdata t (rr_type r) (rr_class r) = Ok d.
Proof.
  intros fuel pkt M r d B T F SZ E I D H N. destruct (C68_rdata_partial fuel pkt M B T F SZ E) as (R & _). destruct (R r I) as (vs & W & D' & L).
  assert (d = canon vs) by congruence. subst. apply C48_all; auto.
Qed.
Print Assumptions C68_text_partial.

(** The same without the size condition, for every packet of up to 65000 octets; for C51 too. *)
Theorem C68_small : forall fuel pkt M, bytes_ok pkt -> tame pkt -> 65535 < Z.of_nat fuel -> zlen pkt <= 65000 ->
  parse_message fuel pkt (zlen pkt) = Ok (res_success, M) ->
  (forall r, In r (records M) -> exists vs, wf_values (format_of (rr_type r) (rr_class r)) vs /\ rr_rdata r = Some (canon vs) /\ zlen (canon vs) < 65536) /\
  (forall r d, In r (records M) -> rr_rdata r = Some d -> exists x, downcase_rdata d (zlen d) (rr_type r) (rr_class r) = Ok x) /\
  (forall x, In x (sets M) -> exists y, downcase_rrset x = Ok y).
Proof.
  intros fuel pkt M B T F L E. pose proof (small_sizes pkt L) as SZ. split; [apply (C68_rdata_partial fuel pkt M B T F SZ E)|]. exact (C68_downcase_partial fuel pkt M B T F SZ E).
Qed.
Print Assumptions C68_small.
Theorem C51_small_partial : forall fuel pkt M, bytes_ok pkt -> tame pkt -> 65535 < Z.of_nat fuel -> zlen pkt <= 65000 ->
  parse_message fuel pkt (zlen pkt) = Ok (res_success, M) ->
  (exists t, message_to_str M = Ok t) /\
  (forall r, In r (a_rrs (m_qd M)) -> exists t, rr_to_str r 0 = Ok t) /\
  (forall r sec, In r (records M) -> exists t, rr_to_str r sec = Ok t) /\
  (forall x sec, sec <> 0 -> In x (a_rrsets (m_an M) ++ a_rrsets (m_ns M) ++ a_rrsets (m_ar M)) -> exists t, rrset_to_str x sec = Ok t).
Proof.
  intros fuel pkt M B T F L E. destruct (C51_parsed_safe_partial fuel pkt M B T F E (small_sizes pkt L)) as (P1 & P2 & P3 & P4 & _). auto.
Qed.
Print Assumptions C51_small_partial.

(** The sample packet of PropParse meets the hypotheses. *)
Example C68_ex : bytes_ok ex_pkt /\ tame ex_pkt /\ zlen ex_pkt <= 65000 /\ (forall fuel, parse_message fuel ex_pkt (zlen ex_pkt) = Ok (res_success, ex_parsed)) /\
  records ex_parsed <> [] /\ sets ex_parsed <> [].
Proof. split; [apply ex_ok|]. split; [apply ex_ok|]. split; [vm_compute; discriminate|]. split; [exact ex_parse|]. split; vm_compute; discriminate. Qed.
