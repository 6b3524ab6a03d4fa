(** PropLoose.v: C93-C95, what wdns_parse_message accepts, when it does not return and when it reads outside the packet, without any restriction on the packet. *)
From Verif Require Import Base Lib SpecName SpecMessage SpecLoose SpecFault ModelName ModelDescr ModelParse SpecParsed.
From Verif Require Import ProofUnpack ProofCopy ProofRdata ProofRdata2 ProofGroup ProofMessage ProofMono ProofLoose1 ProofLoose2 ProofFault PropParse.

(** ** C93 *)
(** A packet of which every octet and nothing else may be read is accepted exactly if it is a message of the grammar of
    SpecLoose.v, and the result is then the content of that message. *)
Theorem C93_accepts_exactly : forall fuel pkt M, bytes_ok pkt -> 65535 < Z.of_nat fuel ->
  (parse_message fuel pkt (zlen pkt) = Ok (res_success, M) <-> exists s, loose_message pkt s /\ M = parsed s).
Proof.
  intros fuel pkt M Hm Hf. split.
  - intros E. destruct (loose_message_sound _ _ _ _ Hm Hf E) as [(_ & H)|[(_ & R & _)|(_ & R & _)]]; auto; [discriminate|]. cbn in R. intuition discriminate.
  - intros (s & L & ->). apply loose_message_complete; auto.
Qed.
Print Assumptions C93_accepts_exactly.

(** The messages of the grammar of SpecMessage.v are among them. *)
Lemma params_loose : forall ps m i, Forall (fun kv => param_ok (fst kv) (snd kv) /\ zlen (snd kv) < 65532) ps ->
  octets_at m i (concat (map param ps)) -> loose_params m i (zlen (concat (map param ps))).
Proof.
  induction ps as [|kv ps IH]; intros m i F O; cbn [map concat] in *; [apply lp_end|]. inversion F as [|? ? [P L] F']; subst.
  apply octets_at_app in O as [O1 O2]. rewrite zlen_app. apply (lp_param m i _ kv); auto.
  - pose proof (zlen_nonneg _ (concat (map param ps))). lia.
  - replace (zlen (param kv) + zlen (concat (map param ps)) - zlen (param kv)) with (zlen (concat (map param ps))) by lia. auto.
Qed.
Lemma rdata_loose : forall m fs i n vs, (forall l fs', (fs = l ++ FParams :: fs') -> fs' = []) -> rdata_at m fs i n vs -> loose_rdata m fs i n vs.
Proof.
  intros m fs i n vs LAST H. induction H as [fs i|fs i n ls e vs D L X B R IH|f fs i n l vs F O L T R IH].
  - apply lo_end.
  - eapply lo_name; eauto. apply IH. intros l fs' E. apply (LAST (FName :: l) fs'). cbn. congruence.
  - assert (Q : f = FParams \/ f <> FParams) by (destruct f; auto; right; discriminate). destruct Q as [->|NF].
    + pose proof (LAST [] fs eq_refl). subst fs. pose proof (T eq_refl) as Z0. rewrite Z0 in R. rewrite Z.sub_diag in R. inversion R; subst.
      * destruct F as (ps & Fp & El). apply lo_params; auto; try lia. subst l. apply params_loose; auto.
    + apply lo_octets; auto. apply IH. intros l0 fs' E. apply (LAST (f :: l0) fs'). cbn. congruence.
Qed.

Lemma params_last : forall ts l fs', ends_ok ts = true -> map fmt_of ts = l ++ FParams :: fs' -> fs' = [].
Proof.
  induction ts as [|t ts IH]; intros l fs' E H; [destruct l; discriminate|]. destruct ts as [|t' ts].
  - destruct l as [|x l]; cbn in H; [congruence|]. injection H as _ H. destruct l; discriminate.
  - cbn [ends_ok] in E. apply andb_prop in E as [E1 E2]. destruct l as [|x l].
    + cbn [map app] in H. injection H as H _. rewrite H in E1. discriminate.
    + cbn [map app] in H. injection H as _ H. eapply IH; [exact E2|]. cbn [map]. exact H.
Qed.
Lemma entries_loose : forall sec m i n rs j, entries_at sec m i n rs j -> loose_entries sec m i n rs j.
Proof.
  intros sec m i n rs j H. induction H as [i|n N|i n r k rs j N B R H IH]; [constructor|apply ln_cut; auto|]. eapply ln_more; eauto.
  unfold entry_at in R. unfold loose_entry. destruct (sec =? 0); auto.
  destruct R as (e & t0 & t1 & c0 & c1 & w & x & y & z & l0 & l1 & vs & W & O & Et & Ec & El & Q). cbv zeta in Q. destruct Q as (B2 & R & Ed & ->).
  exists e, t0, t1, c0, c1, w, x, y, z, l0, l1, vs. cbv zeta. repeat (split; [assumption|]). split; [|split; auto].
  apply rdata_loose; auto. intros l fs' E. rewrite format_of_fields in E. eapply params_last; [apply fields_for_ends|exact E].
Qed.
Theorem C93_grammar_included : forall pkt s, message_at pkt s -> loose_message pkt s.
Proof.
  intros pkt s (i0 & i1 & f0 & f1 & q0 & q1 & a0 & a1 & n0 & n1 & r0 & r1 & j1 & j2 & j3 & j4 & O & Ei & Ef & E1 & E2 & E3 & E4).
  exists i0, i1, f0, f1, q0, q1, a0, a1, n0, n1, r0, r1, j1, j2, j3, j4. repeat (split; [assumption|]). auto using entries_loose.
Qed.
Print Assumptions C93_grammar_included.

(** And for a packet in which no SvcParam announces 65532 octets or more, there is no difference. *)
Theorem C93_same_when_tame : forall pkt, bytes_ok pkt -> tame pkt -> forall s, loose_message pkt s -> exists s', message_at pkt s' /\ parsed s' = parsed s.
Proof.
  intros pkt Hm T s L. destruct (C19_accepts_only_grammar_partial ex_fuel pkt (parsed s) Hm T ex_fuel_ok) as (s' & A & B); eauto.
  apply loose_message_complete; auto. apply ex_fuel_ok.
Qed.
Print Assumptions C93_same_when_tame.

(** The content of a packet is unique. *)
Theorem C93_unambiguous : forall pkt s s', bytes_ok pkt -> loose_message pkt s -> loose_message pkt s' -> parsed s = parsed s'.
Proof.
  intros pkt s s' Hm A B. pose proof (loose_message_complete ex_fuel pkt s Hm ex_fuel_ok A) as E.
  rewrite (loose_message_complete ex_fuel pkt s' Hm ex_fuel_ok B) in E. congruence.
Qed.
Print Assumptions C93_unambiguous.

(** The packet of C19's refutation, with a SvcParam announcing 65534 octets and ending after four, belongs to the loose grammar only. *)
Example C93_wrapped_ex : bytes_ok wrap_pkt /\ (exists s, loose_message wrap_pkt s) /\ (forall s, ~ message_at wrap_pkt s) /\
  exists s, loose_message ex_pkt s /\ parsed s = ex_parsed.
Proof.
  assert (Hm : bytes_ok wrap_pkt) by (apply bytes_okb_ok; reflexivity). split; auto. split.
  - destruct (parse_message 3 wrap_pkt (zlen wrap_pkt)) as [[r M]| | |] eqn:E; try (vm_compute in E; discriminate).
    assert (r = res_success) by (vm_compute in E; congruence). subst r.
    apply (message_fuel 3 ex_fuel) in E; [|pose proof ex_fuel_ok; lia]. apply C93_accepts_exactly in E as (s & L & _); auto using ex_fuel_ok. eauto.
  - split; [exact wrap_not_message|]. destruct C19_ex as (s & A & B). exists s. split; auto. apply C93_grammar_included. auto.
Qed.

(** ** C94 *)
(** The call never returns exactly on the packets described by [hangs]: a record of type SVCB or HTTPS is reached whose
    SvcParams, read in turn, lead to one that announces 65532 octets and passes the check for its key. *)
Theorem C94_hangs_exactly : forall pkt, bytes_ok pkt ->
  ((forall fuel, 65535 < Z.of_nat fuel -> parse_message fuel pkt (zlen pkt) = NoFuel) <-> hangs pkt).
Proof.
  intros pkt Hm. split.
  - intros H. apply (message_evt true ex_fuel); auto using ex_fuel_ok. rewrite H by apply ex_fuel_ok. reflexivity.
  - intros H fuel Hf. apply (message_evt true fuel) in H; auto. destruct (parse_message fuel pkt (zlen pkt)); cbn in H; try contradiction; [discriminate|reflexivity].
Qed.
Print Assumptions C94_hangs_exactly.
(** 65536 iterations of the SvcParam loop per record tell: whatever has not returned by then never does. *)
Theorem C94_bound_decides : forall fuel pkt, bytes_ok pkt -> 65535 < Z.of_nat fuel -> parse_message fuel pkt (zlen pkt) = NoFuel -> hangs pkt.
Proof. intros fuel pkt Hm Hf H. apply (message_evt true fuel); auto. rewrite H. reflexivity. Qed.
Print Assumptions C94_bound_decides.
Example C94_ex : bytes_ok loop_pkt /\ hangs loop_pkt /\ ~ hangs wrap_pkt.
Proof.
  split; [apply bytes_okb_ok; reflexivity|]. split.
  - apply (message_evt true ex_fuel); [apply bytes_okb_ok; reflexivity|apply ex_fuel_ok|]. rewrite loop_pkt_loops. reflexivity.
  - intros H. destruct C93_wrapped_ex as (Hm & (s & L) & _). apply (message_evt true ex_fuel) in H; auto using ex_fuel_ok.
Qed.

(** ** C95 *)
(** The call reads outside the packet exactly on the packets described by [overreads]: an owner name or a name in the rdata
    whose decoding runs into the end of the packet, or an alpn parameter announcing 65532 or more octets whose ids do. *)
Theorem C95_overreads_exactly : forall fuel pkt, bytes_ok pkt -> 65535 < Z.of_nat fuel ->
  (parse_message fuel pkt (zlen pkt) = UB OobRead <-> overreads pkt).
Proof.
  intros fuel pkt Hm Hf. pose proof (message_evt false fuel pkt Hm Hf) as H. pose proof (message_oo fuel pkt) as Q. split.
  - intros E. apply H. rewrite E. reflexivity.
  - intros O. apply H in O. destruct (parse_message fuel pkt (zlen pkt)) as [[]|e|f|]; cbn in O; try contradiction; try discriminate. rewrite (Q f); auto.
Qed.
Print Assumptions C95_overreads_exactly.
(** There is no other undefined behaviour, and on all other packets the call returns. *)
Theorem C95_otherwise_returns : forall fuel pkt, bytes_ok pkt -> 65535 < Z.of_nat fuel -> ~ hangs pkt -> ~ overreads pkt ->
  exists r M, parse_message fuel pkt (zlen pkt) = Ok (r, M).
Proof.
  intros fuel pkt Hm Hf NH NO. destruct (parse_message fuel pkt (zlen pkt)) as [[r M]|e|f|] eqn:E; eauto.
  - exfalso. eapply message_not_err; eauto.
  - exfalso. pose proof (message_oo fuel pkt f Hm Hf E). subst f. apply NO. apply (C95_overreads_exactly fuel); auto.
  - exfalso. apply NH. eapply C94_bound_decides; eauto.
Qed.
Print Assumptions C95_otherwise_returns.

(** A packet that ends inside a name of its rdata, and one with an alpn parameter (key 1) that announces 65535 octets. *)
Definition alpn_pkt : bytes :=
  [0;0;129;128;0;0;0;1;0;0;0;0; 0; 0;64;0;1;0;0;0;0;0;7; 0;1;0; 0;1;255;255].
Example C95_ex : bytes_ok stray_pkt /\ overreads stray_pkt /\ bytes_ok alpn_pkt /\ overreads alpn_pkt /\ ~ overreads ex_pkt /\ ~ hangs ex_pkt.
Proof.
  assert (B1 : bytes_ok stray_pkt) by (apply bytes_okb_ok; reflexivity). assert (B2 : bytes_ok alpn_pkt) by (apply bytes_okb_ok; reflexivity).
  split; auto. split; [apply (C95_overreads_exactly ex_fuel); [auto|apply ex_fuel_ok|]; unfold ex_fuel; vm_compute; reflexivity|]. split; auto.
  split; [apply (C95_overreads_exactly ex_fuel); [auto|apply ex_fuel_ok|]; unfold ex_fuel; vm_compute; reflexivity|].
  pose proof (ex_parse ex_fuel) as E. split; intros H.
  - apply (C95_overreads_exactly ex_fuel) in H; [congruence|apply ex_ok|apply ex_fuel_ok].
  - pose proof (proj2 (C94_hangs_exactly ex_pkt (proj1 ex_ok)) H ex_fuel ex_fuel_ok). congruence.
Qed.
