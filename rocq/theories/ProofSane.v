(** ProofSane.v: whatever the packet, the members of a parsed message are octets and integers of their C types. *)
From Verif Require Import Base Lib ModelName ModelDescr ModelParse SpecSane ProofGroup2 ProofHeap2 ProofHeap3.

Lemma push_bytes : forall n o l o', bytes_ok o -> bytes_ok l -> push n o l = Ok o' -> bytes_ok o'.
Proof. intros n o l o' A B E. apply push_inv in E as (-> & _). apply bytes_ok_app. auto. Qed.
Lemma byte1 : forall c, 0 <= c < 256 -> bytes_ok [c].
Proof. intros c H. constructor; [exact H|constructor]. Qed.
Lemma rds_bytes : forall m i n l, bytes_ok m -> rds m i n = Ok l -> bytes_ok l.
Proof. intros m i n l B E. apply rds_ok in E as (O & _). eapply octets_at_bytes; eauto. Qed.

Lemma unpack_bytes : forall fuel m eop src total out w n, bytes_ok m -> bytes_ok out -> unpack_loop fuel m eop src total out = Ok (w, n) -> bytes_ok w.
Proof.
  induction fuel as [|k IH]; intros m eop src total out w n B O E; [discriminate|]. cbn [unpack_loop] in E. cbv zeta in E.
  apply bind_ok in E as (c & C & E). pose proof (rd_byte _ _ _ B C) as RC.
  destruct (c =? 0).
  - apply bind_ok in E as (o & P & E). injection E as <- _. eapply push_bytes; [exact O| |exact P]. apply byte1; lia.
  - destruct (c >=? 192).
    + destruct (src + 1 >? eop); [discriminate|]. apply bind_ok in E as (d & _ & E). destruct (_ >? eop); [discriminate|].
      apply bind_ok in E as (s & _ & E). destruct s; [eapply IH; [exact B|exact O|exact E]|]. destruct (_ >? _); [discriminate|]. eapply IH; [exact B|exact O|exact E].
    + destruct (c <=? 63); [|discriminate]. destruct (_ >=? _); [discriminate|]. apply bind_ok in E as (o1 & P1 & E). destruct (_ >=? _); [discriminate|].
      destruct (_ >? _); [discriminate|]. apply bind_ok in E as (l & R & E). apply bind_ok in E as (o2 & P2 & E).
      eapply IH; [exact B| |exact E]. apply (push_bytes _ _ _ _ (push_bytes _ _ _ _ O (byte1 c RC) P1) (rds_bytes _ _ _ _ B R) P2).
Qed.
Lemma name_bytes : forall m eop src w n, bytes_ok m -> unpack_name m eop src = Ok (w, n) -> bytes_ok w.
Proof. intros m eop src w n B E. unfold unpack_name in E. destruct (_ || _); [discriminate|]. eapply unpack_bytes; [exact B| |exact E]. constructor. Qed.

Lemma copy_bytes_ok : forall m st x st', bytes_ok m -> bytes_ok (snd st) -> copy_bytes m st x = Ok st' -> bytes_ok (snd st').
Proof.
  intros m ((src, sb), u) x st' B U E. unfold copy_bytes in E. destruct (sb <? x); [discriminate|]. apply bind_ok in E as (l & R & E). injection E as <-.
  cbn [snd] in *. apply bytes_ok_app. split; [exact U|eapply rds_bytes; [exact B|exact R]].
Qed.
Lemma repstring_bytes : forall f m st st', bytes_ok m -> bytes_ok (snd st) -> repstring_loop f m st = Ok st' -> bytes_ok (snd st').
Proof.
  induction f as [|f IH]; intros m ((src, sb), u) st' B U E; [discriminate|]. cbn [repstring_loop] in E. destruct (sb >? 0); [|injection E as <-; exact U].
  apply bind_ok in E as (o & _ & E). apply bind_ok in E as (s & C & E). eapply IH; [exact B| |exact E]. eapply copy_bytes_ok; [exact B|exact U|exact C].
Qed.
Lemma bitmap_bytes : forall f m st st', bytes_ok m -> bytes_ok (snd st) -> bitmap_loop f m st = Ok st' -> bytes_ok (snd st').
Proof.
  induction f as [|f IH]; intros m ((src, sb), u) st' B U E; [discriminate|]. cbn [bitmap_loop] in E. destruct (sb >=? 2); [|injection E as <-; exact U].
  apply bind_ok in E as (o & _ & E). destruct (negb _); [discriminate|]. destruct (_ <=? _); [|discriminate]. apply bind_ok in E as (s & C & E). eapply IH; [exact B| |exact E]. eapply copy_bytes_ok; [exact B|exact U|exact C].
Qed.
Lemma svc_bytes : forall f m st st', bytes_ok m -> bytes_ok (snd st) -> svc_loop f m st = Ok st' -> bytes_ok (snd st').
Proof.
  induction f as [|f IH]; intros m ((src, sb), u) st' B U E; [discriminate|]. cbn [svc_loop] in E. destruct (sb >? 0); [|injection E as <-; exact U].
  destruct (sb <? 4); [discriminate|]. apply bind_ok in E as (a & _ & E). apply bind_ok in E as (b & _ & E). apply bind_ok in E as (c & _ & E). apply bind_ok in E as (d & _ & E). cbv zeta in E.
  destruct (_ >? sb); [discriminate|]. apply bind_ok in E as (ok & _ & E). destruct (negb ok); [discriminate|]. apply bind_ok in E as (s & C & E).
  eapply IH; [exact B| |exact E]. eapply copy_bytes_ok; [exact B|exact U|exact C].
Qed.
Lemma field_bytes : forall fuel m eop t st st', bytes_ok m -> bytes_ok (snd st) -> parse_field fuel m eop t st = Ok st' -> bytes_ok (snd st').
Proof.
  intros fuel m eop t ((src, sb), u) st' B U E. unfold parse_field in E.
  destruct t; try (eapply copy_bytes_ok; [exact B|exact U|exact E]); try (apply bind_ok in E as (o & _ & E); eapply copy_bytes_ok; [exact B|exact U|exact E]);
    try (eapply repstring_bytes; [exact B|exact U|exact E]); try (eapply bitmap_bytes; [exact B|exact U|exact E]); try (eapply svc_bytes; [exact B|exact U|exact E]).
  - apply bind_ok in E as ((w, n) & N & E). apply bind_ok in E as (s & _ & E). cbv zeta in E. destruct (_ <? 0); [discriminate|]. injection E as <-. cbn [snd] in *. apply bytes_ok_app. split; [exact U|eapply name_bytes; [exact B|exact N]].
  - apply bind_ok in E as ((w, n) & N & E). apply bind_ok in E as (s & _ & E). cbv zeta in E. destruct (_ <? 0); [discriminate|]. injection E as <-. cbn [snd] in *. apply bytes_ok_app. split; [exact U|eapply name_bytes; [exact B|exact N]].
  - apply bind_ok in E as (p & _ & E). destruct (p >? 128); [discriminate|]. cbv zeta in E. eapply copy_bytes_ok; [exact B|exact U|exact E].
Qed.
Lemma fields_bytes : forall ts fuel m eop st st', bytes_ok m -> bytes_ok (snd st) -> parse_fields fuel m eop ts st = Ok st' -> bytes_ok (snd st').
Proof.
  induction ts as [|t ts IH]; intros fuel m eop ((src, sb), u) st' B U E; cbn [parse_fields] in E; [injection E as <-; exact U|].
  destruct (sb =? 0); [injection E as <-; exact U|]. apply bind_ok in E as (s & F & E). eapply IH; [exact B| |exact E]. eapply field_bytes; [exact B|exact U|exact F].
Qed.
Lemma load_rdata_ok : forall u, bytes_ok u -> bytes_ok (load_rdata u) /\ zlen (load_rdata u) < 65536.
Proof.
  intros u B. unfold load_rdata. split.
  - apply Forall_forall. intros c I. assert (J : In c u) by (rewrite <- (firstn_skipn (Z.to_nat (zlen u mod 2 ^ 16)) u); apply in_app_iff; auto).
    unfold bytes_ok in B. rewrite Forall_forall in B. auto.
  - unfold zlen at 1. rewrite firstn_length. pose proof (Z.mod_pos_bound (zlen u) (2 ^ 16) ltac:(lia)). change (2 ^ 16) with 65536 in *. lia.
Qed.
Lemma rdata_bytes : forall fuel m eop t c src n d, bytes_ok m -> parse_rdata fuel m eop t c src n = Ok d -> bytes_ok d /\ zlen d < 65536.
Proof.
  intros fuel m eop t c src n d B E. unfold parse_rdata in E. destruct (descr_for t c) as [ts|]; apply bind_ok in E as (((a, b), u) & F & E).
  - destruct (negb _); [discriminate|]. injection E as <-. apply load_rdata_ok. apply (fields_bytes _ _ _ _ _ _ B) in F; [exact F|constructor].
  - injection E as <-. apply load_rdata_ok. apply (copy_bytes_ok _ _ _ _ B) in F; [exact F|constructor].
Qed.

(** ** RRs and sections *)
Lemma rr_sane : forall fuel sec m eop i r n, bytes_ok m -> parse_message_rr fuel sec m eop i = Ok (r, n) -> sane_rr r.
Proof.
  intros fuel sec m eop i r n B E. unfold parse_message_rr in E. apply bind_ok in E as ((w, k) & U & E). apply bind_ok in E as (s & _ & E). cbv zeta in E. destruct (_ || _); [discriminate|].
  apply bind_ok in E as (t & T & E). apply bind_ok in E as (c & C & E). pose proof (get16_range _ _ _ B T). pose proof (get16_range _ _ _ B C). assert (SN : sane_name w) by (split; [eapply name_bytes; eauto|pose proof (unpack_len _ _ _ _ _ B U); lia]).
  destruct (sec =? 0).
  - injection E as <- _. split; [exact SN|]. cbn [rr_ttl rr_type rr_class rr_rdata]. split; [lia|]. split; [lia|]. split; [lia|]. discriminate.
  - apply bind_ok in E as (ttl & TT & E). apply bind_ok in E as (rl & _ & E). destruct (_ >? eop); [discriminate|]. apply bind_ok in E as (d & D & E). injection E as <- _.
    split; [exact SN|]. cbn [rr_ttl rr_type rr_class rr_rdata]. split; [|split; [lia|split; [lia|]]].
    + unfold get32 in TT. apply bind_ok in TT as (b0 & R0 & TT). apply bind_ok in TT as (b1 & R1 & TT). apply bind_ok in TT as (b2 & R2 & TT). apply bind_ok in TT as (b3 & R3 & TT).
      pose proof (rd_byte _ _ _ B R0). pose proof (rd_byte _ _ _ B R1). pose proof (rd_byte _ _ _ B R2). pose proof (rd_byte _ _ _ B R3). injection TT as <-.
      change (2 ^ 32) with 4294967296. unfold be32. lia.
    + intros d' X. injection X as <-. eapply rdata_bytes; [exact B|exact D].
Qed.


(** The invariant of the section loops: counters bounded by [k]. *)
Definition arr_inv (k : Z) (a : rrset_array) : Prop :=
  Forall sane_rr (a_rrs a) /\ zlen (a_rrs a) <= k /\ zlen (a_rrsets a) <= k /\
  Forall (fun s => (sane_name (rs_name s) /\ 0 <= rs_ttl s < 2 ^ 32 /\ 0 <= rs_type s < 65536 /\ 0 <= rs_class s < 65536 /\ Forall sane_data (rs_rdatas s)) /\ zlen (rs_rdatas s) <= k) (a_rrsets a).
Lemma arr_inv_sane : forall k a, k < 65536 -> arr_inv k a -> sane_arr a.
Proof.
  intros k a K (A & B & C & D). split; [exact A|]. split; [|split; lia]. eapply Forall_impl; [|exact D]. cbv beta. intros s ((E1 & E2 & E3 & E4 & E5) & F).
  repeat (split; [assumption|]). lia.
Qed.
Lemma arr_inv_mono : forall k l a, k <= l -> arr_inv k a -> arr_inv l a.
Proof.
  intros k l a K (A & B & C & D). split; [exact A|]. split; [lia|]. split; [lia|]. eapply Forall_impl; [|exact D]. cbv beta. intros s (E & F). split; [exact E|lia].
Qed.

Lemma join_last_inv : forall k r d sets sets', sane_rr r -> sane_data d ->
  Forall (fun s => (sane_name (rs_name s) /\ 0 <= rs_ttl s < 2 ^ 32 /\ 0 <= rs_type s < 65536 /\ 0 <= rs_class s < 65536 /\ Forall sane_data (rs_rdatas s)) /\ zlen (rs_rdatas s) <= k) sets ->
  join_last r d sets = Some sets' -> zlen sets' = zlen sets /\
  Forall (fun s => (sane_name (rs_name s) /\ 0 <= rs_ttl s < 2 ^ 32 /\ 0 <= rs_type s < 65536 /\ 0 <= rs_class s < 65536 /\ Forall sane_data (rs_rdatas s)) /\ zlen (rs_rdatas s) <= k + 1) sets'.
Proof.
  intros k r d sets. induction sets as [|s sets IH]; intros sets' SR SD F E; cbn [join_last] in E; [discriminate|].
  apply Forall_cons_iff in F as (FS & F). destruct (join_last r d sets) as [y|].
  - injection E as <-. destruct (IH y SR SD F eq_refl) as (L & G). split; [rewrite !zlen_cons; lia|]. constructor; [|exact G]. destruct FS as (A & B). split; [exact A|lia].
  - destruct (compare_rr_rrset r s); [|discriminate]. injection E as <-. split; [rewrite !zlen_cons; lia|]. constructor.
    + destruct FS as ((A & B & C & D & G) & H). unfold join_rrset. cbn [rs_name rs_ttl rs_type rs_class rs_rdatas]. split; [|rewrite zlen_app; change (zlen [d]) with 1; lia].
      split; [exact A|]. split; [destruct SR as (_ & T & _); destruct (rr_ttl r <? rs_ttl s); lia|]. split; [exact C|]. split; [exact D|]. apply Forall_app. split; [exact G|]. repeat constructor; apply SD.
    + eapply Forall_impl; [|exact F]. cbv beta. intros z (A & B). split; [exact A|lia].
Qed.

Lemma insert_inv : forall k a r sec a', arr_inv k a -> sane_rr r -> insert_rr a r sec = Ok a' -> arr_inv (k + 1) a'.
Proof.
  intros k a r sec a' (A & B & C & D) SR E. unfold insert_rr in E. pose proof SR as (N & T & TY & CL & RD). pose proof (zlen_nonneg _ (a_rrs a)).
  destruct (sec =? 0).
  - injection E as <-. unfold arr_inv. cbn [a_rrs a_rrsets]. rewrite !zlen_app. change (zlen [_]) with 1. split; [|split; [lia|split; [lia|]]].
    + apply Forall_app. split; [exact A|]. constructor; [|constructor]. split; [exact N|]. cbn [rr_ttl rr_type rr_class rr_rdata]. repeat (split; [assumption|]). discriminate.
    + apply Forall_app. split.
      * eapply Forall_impl; [|exact D]. cbv beta. intros z (X & Y). split; [exact X|lia].
      * constructor; [|constructor]. cbn [rs_name rs_ttl rs_type rs_class rs_rdatas]. split; [|change (zlen (@nil bytes)) with 0; lia]. repeat (split; [assumption|]). constructor.
  - destruct (rr_rdata r) as [d|] eqn:ED; [|discriminate]. specialize (RD d eq_refl). injection E as <-. unfold arr_inv. cbn [a_rrs a_rrsets]. rewrite !zlen_app. change (zlen [r]) with 1.
    split; [apply Forall_app; split; [exact A|]; constructor; [exact SR|constructor]|]. split; [lia|].
    destruct (join_last r d (a_rrsets a)) as [y|] eqn:J.
    + destruct (join_last_inv k r d _ _ SR RD D J) as (L & G). split; [lia|exact G].
    + rewrite zlen_app. change (zlen [_]) with 1. split; [lia|]. apply Forall_app. split.
      * eapply Forall_impl; [|exact D]. cbv beta. intros z (X & Y). split; [exact X|lia].
      * constructor; [|constructor]. cbn [rs_name rs_ttl rs_type rs_class rs_rdatas]. split; [|change (zlen [d]) with 1; lia]. repeat (split; [assumption|]). repeat constructor; apply RD.
Qed.

Definition head_inv (m : message) : Prop :=
  0 <= m_id m < 65536 /\ 0 <= m_flags m < 65536 /\ 0 <= m_rcode m < 65536 /\
  0 <= e_version (m_edns m) < 256 /\ 0 <= e_flags (m_edns m) < 65536 /\ 0 <= e_size (m_edns m) < 65536 /\
  (forall d, e_options (m_edns m) = Some d -> sane_data d).
Definition msg_inv (k0 k1 k2 k3 : Z) (m : message) : Prop :=
  head_inv m /\ arr_inv k0 (m_qd m) /\ arr_inv k1 (m_an m) /\ arr_inv k2 (m_ns m) /\ arr_inv k3 (m_ar m).
Lemma empty_inv : forall k, 0 <= k -> arr_inv k empty_array.
Proof. intros k K. unfold arr_inv, empty_array. cbn [a_rrs a_rrsets]. change (zlen (@nil rr)) with 0. change (zlen (@nil rrset)) with 0. repeat (split; [first [constructor|lia]|]). constructor. Qed.
Lemma clear_inv : forall k0 k1 k2 k3 m, 0 <= k0 -> 0 <= k1 -> 0 <= k2 -> 0 <= k3 -> head_inv m -> msg_inv k0 k1 k2 k3 (clear_message m).
Proof.
  intros k0 k1 k2 k3 m K0 K1 K2 K3 (A & B & C & D & E & F & G). unfold msg_inv, clear_message, head_inv. cbn [m_qd m_an m_ns m_ar m_id m_flags m_rcode m_edns e_version e_flags e_size e_options].
  split; [|auto using empty_inv]. repeat (split; [assumption|]). discriminate.
Qed.
Lemma land_range : forall x k, 0 <= k -> 0 <= Z.land x k <= k.
Proof.
  intros x k K. pose proof (Z.land_nonneg x k) as N. split; [apply N; auto|].
  destruct (Z.eq_dec k 0) as [-> |NZ]; [rewrite Z.land_0_r; lia|].
  assert (Z.lor (Z.land x k) k = k). { apply Z.bits_inj'. intros n _. rewrite Z.lor_spec, Z.land_spec. destruct (Z.testbit x n), (Z.testbit k n); reflexivity. }
  assert (Z.land x k = k - Z.ldiff k x).
  { rewrite <- Z.add_nocarry_lxor || idtac. assert (A : Z.land x k + Z.ldiff k x = k); [|lia]. rewrite (Z.land_comm x k). rewrite Z.add_nocarry_lxor.
    - apply Z.bits_inj'. intros n _. rewrite Z.lxor_spec, Z.land_spec, Z.ldiff_spec. destruct (Z.testbit x n), (Z.testbit k n); reflexivity.
    - apply Z.bits_inj'. intros n _. rewrite !Z.land_spec, Z.ldiff_spec, Z.bits_0. destruct (Z.testbit x n), (Z.testbit k n); reflexivity. }
  assert (0 <= Z.ldiff k x) by (apply Z.ldiff_nonneg; lia). lia.
Qed.
Lemma lor_range : forall a b, 0 <= a < 65536 -> 0 <= b < 65536 -> 0 <= Z.lor a b < 65536.
Proof.
  intros a b A B. split; [apply Z.lor_nonneg; lia|]. change 65536 with (2 ^ 16). destruct (Z.eq_dec (Z.lor a b) 0) as [-> |N]; [lia|].
  assert (0 <= Z.lor a b) by (apply Z.lor_nonneg; lia). apply Z.log2_lt_pow2; [lia|]. rewrite Z.log2_lor by lia.
  apply Z.max_lub_lt; [destruct (Z.eq_dec a 0) as [-> |]; [cbn; lia|apply Z.log2_lt_pow2; cbn; lia]|destruct (Z.eq_dec b 0) as [-> |]; [cbn; lia|apply Z.log2_lt_pow2; cbn; lia]].
Qed.
Lemma edns_inv : forall m r, head_inv m -> sane_rr r -> head_inv (parse_edns m r).
Proof.
  intros m r (A & B & C & D & E & F & G) (N & T & TY & CL & RD). unfold head_inv, parse_edns. cbn [m_id m_flags m_rcode m_edns e_version e_flags e_size e_options].
  pose proof (land_range (Z.shiftr (rr_ttl r) 16) 255 ltac:(lia)). pose proof (land_range (rr_ttl r) 65535 ltac:(lia)). pose proof (land_range (Z.shiftr (rr_ttl r) 16) 65280 ltac:(lia)).
  split; [exact A|]. split; [exact B|]. split; [apply lor_range; [exact C|lia]|]. split; [lia|]. split; [lia|]. split; [exact CL|exact RD].
Qed.

Definition pflow_msg (f : pflow) : message := match f with Continue _ m => m | Return _ m => m end.
Definition bump (sec s n : Z) : Z := if sec =? s then n else 0.
Lemma section_inv : forall fuel n sec pkt len p m fl k0 k1 k2 k3, bytes_ok pkt -> 0 <= k0 -> 0 <= k1 -> 0 <= k2 -> 0 <= k3 -> 0 <= sec <= 3 -> msg_inv k0 k1 k2 k3 m ->
  parse_section fuel n sec pkt len p m = Ok fl ->
  msg_inv (k0 + bump sec 0 (Z.of_nat n)) (k1 + bump sec 1 (Z.of_nat n)) (k2 + bump sec 2 (Z.of_nat n)) (k3 + bump sec 3 (Z.of_nat n)) (pflow_msg fl).
Proof.
  intros fuel n. induction n as [|n IH]; intros sec pkt len p m fl k0 k1 k2 k3 B K0 K1 K2 K3 RS I E.
  - cbn [parse_section] in E. injection E as <-. cbn [pflow_msg]. unfold bump. change (Z.of_nat 0) with 0. destruct (sec =? 0), (sec =? 1), (sec =? 2), (sec =? 3); rewrite !Z.add_0_r; exact I.
  - assert (BP : forall s n, 0 <= n -> 0 <= bump sec s n) by (intros s y Y; unfold bump; destruct (sec =? s); lia).
    assert (W : forall m', msg_inv k0 k1 k2 k3 m' -> msg_inv (k0 + bump sec 0 (Z.of_nat (S n))) (k1 + bump sec 1 (Z.of_nat (S n))) (k2 + bump sec 2 (Z.of_nat (S n))) (k3 + bump sec 3 (Z.of_nat (S n))) m').
    { intros m' (H & A0 & A1 & A2 & A3). split; [exact H|].
      split; [eapply arr_inv_mono; [|exact A0]; specialize (BP 0 (Z.of_nat (S n)) ltac:(lia)); lia|].
      split; [eapply arr_inv_mono; [|exact A1]; specialize (BP 1 (Z.of_nat (S n)) ltac:(lia)); lia|].
      split; [eapply arr_inv_mono; [|exact A2]; specialize (BP 2 (Z.of_nat (S n)) ltac:(lia)); lia|].
      eapply arr_inv_mono; [|exact A3]; specialize (BP 3 (Z.of_nat (S n)) ltac:(lia)); lia. }
    cbn [parse_section] in E. destruct (p =? len); [injection E as <-; apply W; exact I|].
    destruct (parse_message_rr fuel sec pkt len p) as [(r, l)|e|f|] eqn:R; try discriminate.
    + apply (rr_sane _ _ _ _ _ _ _ B) in R. destruct ((rr_type r =? 41) && negb (e_present (m_edns m))).
      * eapply (IH sec pkt len _ (parse_edns m r) fl k0 k1 k2 k3 B) in E; auto.
        -- destruct E as (H & A0 & A1 & A2 & A3). split; [exact H|].
           split; [eapply arr_inv_mono; [|exact A0]; unfold bump; destruct (sec =? 0); lia|].
           split; [eapply arr_inv_mono; [|exact A1]; unfold bump; destruct (sec =? 1); lia|].
           split; [eapply arr_inv_mono; [|exact A2]; unfold bump; destruct (sec =? 2); lia|].
           eapply arr_inv_mono; [|exact A3]; unfold bump; destruct (sec =? 3); lia.
        -- destruct I as (H & A). split; [apply edns_inv; auto|exact A].
      * apply bind_ok in E as (a & IA & E).
        assert (I' : msg_inv (k0 + bump sec 0 1) (k1 + bump sec 1 1) (k2 + bump sec 2 1) (k3 + bump sec 3 1) (set_sec m sec a)).
        { destruct I as (H & A0 & A1 & A2 & A3). unfold msg_inv, set_sec. cbn [m_qd m_an m_ns m_ar]. split; [exact H|]. unfold get_sec in IA. unfold bump.
          assert (CS : sec = 0 \/ sec = 1 \/ sec = 2 \/ sec = 3) by lia.
          destruct CS as [-> |[-> |[-> | ->]]]; cbn [Z.eqb Pos.eqb] in *; rewrite !Z.add_0_r; (split; [|split; [|split]]); try assumption; eapply insert_inv; eassumption. }
        assert (J0 := BP 0 1 ltac:(lia)). assert (J1 := BP 1 1 ltac:(lia)). assert (J2 := BP 2 1 ltac:(lia)). assert (J3 := BP 3 1 ltac:(lia)).
        eapply (IH sec pkt len _ (set_sec m sec a) fl _ _ _ _ B) in E; [| | | | |exact RS|exact I']; try lia.
        replace (k0 + bump sec 0 (Z.of_nat (S n))) with (k0 + bump sec 0 1 + bump sec 0 (Z.of_nat n)) by (unfold bump; destruct (sec =? 0); lia).
        replace (k1 + bump sec 1 (Z.of_nat (S n))) with (k1 + bump sec 1 1 + bump sec 1 (Z.of_nat n)) by (unfold bump; destruct (sec =? 1); lia).
        replace (k2 + bump sec 2 (Z.of_nat (S n))) with (k2 + bump sec 2 1 + bump sec 2 (Z.of_nat n)) by (unfold bump; destruct (sec =? 2); lia).
        replace (k3 + bump sec 3 (Z.of_nat (S n))) with (k3 + bump sec 3 1 + bump sec 3 (Z.of_nat n)) by (unfold bump; destruct (sec =? 3); lia).
        exact E.
    + injection E as <-. cbn [pflow_msg]. apply W. destruct I as (H & _). apply clear_inv; auto.
Qed.

(** Every section has at most as many RRs (and RRsets, and rdatas in one RRset) as the header of the packet says. *)
Theorem parse_inv : forall fuel pkt len r M, bytes_ok pkt -> 12 <= len -> parse_message fuel pkt len = Ok (r, M) ->
  exists qd an ns ar, get16 pkt 4 = Ok qd /\ get16 pkt 6 = Ok an /\ get16 pkt 8 = Ok ns /\ get16 pkt 10 = Ok ar /\ msg_inv qd an ns ar M.
Proof.
  intros fuel pkt len r M B L E. unfold parse_message in E. replace (len <? 12) with false in E by lia.
  apply bind_ok in E as (id & E0 & E). apply bind_ok in E as (fl & E1 & E). apply bind_ok in E as (qd & E2 & E). apply bind_ok in E as (an & E3 & E). apply bind_ok in E as (ns & E4 & E). apply bind_ok in E as (ar & E5 & E).
  exists qd, an, ns, ar. repeat (split; [assumption|]). cbv zeta in E.
  apply get16_range in E0, E1, E2, E3, E4, E5; auto.
  assert (NE : forall d : bytes, None = Some d -> sane_data d) by discriminate.
  match type of E with parse_sections _ _ _ _ _ ?m = _ => assert (I0 : msg_inv 0 0 0 0 m) end.
  { pose proof (land_range fl 15 ltac:(lia)). split; [|cbn [m_qd m_an m_ns m_ar]; auto using empty_inv, Z.le_refl]. unfold head_inv. cbn. repeat (split; [lia|]). discriminate. }
  assert (W : forall a b c d m, a <= qd -> b <= an -> c <= ns -> d <= ar -> msg_inv a b c d m -> msg_inv qd an ns ar m).
  { intros a b c d m A1 A2 A3 A4 (H & Q0 & Q1 & Q2 & Q3). split; [exact H|].
    split; [eapply arr_inv_mono; [|exact Q0]; lia|]. split; [eapply arr_inv_mono; [|exact Q1]; lia|]. split; [eapply arr_inv_mono; [|exact Q2]; lia|]. eapply arr_inv_mono; [|exact Q3]; lia. }
  cbn [parse_sections] in E. apply bind_ok in E as (f0 & F & E).
  pose proof (section_inv _ _ 0 _ _ _ _ _ 0 0 0 0 B ltac:(lia) ltac:(lia) ltac:(lia) ltac:(lia) ltac:(lia) I0 F) as I1. clear I0 F.
  unfold bump in I1. cbn [Z.eqb Pos.eqb] in I1. rewrite !Z2Nat.id in I1 by lia.
  destruct f0 as [p1 m1|r1 m1]; cbn [pflow_msg] in I1; [|injection E as _ <-; eapply W; [| | | |exact I1]; lia].
  apply bind_ok in E as (f1 & F & E).
  pose proof (section_inv _ _ 1 _ _ _ _ _ (0 + qd) (0 + 0) (0 + 0) (0 + 0) B ltac:(lia) ltac:(lia) ltac:(lia) ltac:(lia) ltac:(lia) I1 F) as I2. clear I1 F.
  unfold bump in I2. cbn [Z.eqb Pos.eqb] in I2. rewrite !Z2Nat.id in I2 by lia.
  destruct f1 as [p2 m2|r2 m2]; cbn [pflow_msg] in I2; [|injection E as _ <-; eapply W; [| | | |exact I2]; lia].
  apply bind_ok in E as (f2 & F & E).
  pose proof (section_inv _ _ 2 _ _ _ _ _ (0 + qd + 0) (0 + 0 + an) (0 + 0 + 0) (0 + 0 + 0) B ltac:(lia) ltac:(lia) ltac:(lia) ltac:(lia) ltac:(lia) I2 F) as I3. clear I2 F.
  unfold bump in I3. cbn [Z.eqb Pos.eqb] in I3. rewrite !Z2Nat.id in I3 by lia.
  destruct f2 as [p3 m3|r3 m3]; cbn [pflow_msg] in I3; [|injection E as _ <-; eapply W; [| | | |exact I3]; lia].
  apply bind_ok in E as (f3 & F & E).
  pose proof (section_inv _ _ 3 _ _ _ _ _ (0 + qd + 0 + 0) (0 + 0 + an + 0) (0 + 0 + 0 + ns) (0 + 0 + 0 + 0) B ltac:(lia) ltac:(lia) ltac:(lia) ltac:(lia) ltac:(lia) I3 F) as I4. clear I3 F.
  unfold bump in I4. cbn [Z.eqb Pos.eqb] in I4. rewrite !Z2Nat.id in I4 by lia.
  destruct f3 as [p4 m4|r4 m4]; cbn [pflow_msg] in I4; injection E as _ <-; (eapply W; [| | | |exact I4]; lia).
Qed.

Theorem parse_sane : forall fuel pkt len r M, bytes_ok pkt -> parse_message fuel pkt len = Ok (r, M) -> sane_msg M.
Proof.
  intros fuel pkt len r M B E. destruct (Z_lt_dec len 12) as [L|L].
  - unfold parse_message in E. replace (len <? 12) with true in E by lia. injection E as _ <-. unfold sane_msg, empty_message. cbn [m_id m_flags m_rcode m_edns e_version e_flags e_size e_options m_qd m_an m_ns m_ar].
    pose proof (arr_inv_sane 0 empty_array ltac:(lia) (empty_inv 0 ltac:(lia))) as S. repeat (split; [lia|]). split; [discriminate|]. auto.
  - destruct (parse_inv fuel pkt len r M B ltac:(lia) E) as (qd & an & ns & ar & G1 & G2 & G3 & G4 & ((A & B1 & C & D & E1 & F & G) & Q0 & Q1 & Q2 & Q3)).
    apply get16_range in G1, G2, G3, G4; auto. unfold sane_msg. repeat (split; [assumption|]).
    split; [eapply arr_inv_sane; [|exact Q0]; lia|]. split; [eapply arr_inv_sane; [|exact Q1]; lia|]. split; [eapply arr_inv_sane; [|exact Q2]; lia|]. eapply arr_inv_sane; [|exact Q3]; lia.
Qed.
