(** PropReach.v: property C119 (what lies behind the packet). *)
From Verif Require Import Base Lib SpecName SpecMessage SpecLoose SpecFault ModelName ModelDescr ModelParse SpecParsed Libc ModelExamples SpecExamples.
From Verif Require Import ProofCopy ProofMono ProofMono2 ProofBound ProofFault PropParse PropLoose PropExamples3.

(** ** C119: what lies behind the packet matters exactly for the packets of C95, and only up to 65535 octets *)
Lemma nf_same : forall A (o o' : outcome A), nf o o' -> (forall f, o <> UB f) -> o' = o.
Proof. intros A [a|e|f|] o' H N; cbn in H; auto. exfalso. eapply N; eauto. Qed.

(** Whatever the memory behind the packet holds, the call does the same (return code, message, or never returning), unless the
    packet is one of C95. *)
Theorem C119_memory_is_irrelevant : forall fuel pkt x, bytes_ok pkt -> 65535 < Z.of_nat fuel -> ~ overreads pkt ->
  parse_message fuel (pkt ++ x) (zlen pkt) = parse_message fuel pkt (zlen pkt).
Proof.
  intros fuel pkt x Hm Hf NO. apply nf_same; [apply nf_message; auto|]. intros f E. pose proof (message_oo fuel pkt f Hm Hf E). subst f.
  apply NO. apply (C95_overreads_exactly fuel); auto.
Qed.
Print Assumptions C119_memory_is_irrelevant.
(** 65535 octets behind the packet are enough: then nothing outside is read, whatever the packet is. *)
Theorem C119_reach : forall fuel pkt x f, bytes_ok pkt -> bytes_ok x -> 65535 <= zlen x -> parse_message fuel (pkt ++ x) (zlen pkt) <> UB f.
Proof.
  intros fuel pkt x f Hm Hx L E. assert (B : bytes_ok (pkt ++ x)) by (apply bytes_ok_app; auto). pose proof (zlen_nonneg _ pkt).
  pose proof (b_message (pkt ++ x) (zlen pkt) B ltac:(rewrite zlen_app; lia) fuel ltac:(lia)) as S. rewrite E in S. exact S.
Qed.
Print Assumptions C119_reach.
(** So the memory matters exactly for the packets of C95. *)
Theorem C119_matters_exactly : forall fuel pkt, bytes_ok pkt -> 65535 < Z.of_nat fuel ->
  ((exists x, bytes_ok x /\ parse_message fuel (pkt ++ x) (zlen pkt) <> parse_message fuel pkt (zlen pkt)) <-> overreads pkt).
Proof.
  intros fuel pkt Hm Hf. split.
  - intros (x & _ & D). destruct (parse_message fuel pkt (zlen pkt)) as [r|e|f|] eqn:E.
    + exfalso. apply D. rewrite <- E. apply nf_same; [apply nf_message; auto|congruence].
    + exfalso. apply D. rewrite <- E. apply nf_same; [apply nf_message; auto|congruence].
    + pose proof (message_oo fuel pkt f Hm Hf E). subst f. apply (C95_overreads_exactly fuel); auto.
    + exfalso. apply D. rewrite <- E. apply nf_same; [apply nf_message; auto|congruence].
  - intros O. exists (repeat 0 (Z.to_nat 65535)). assert (B : bytes_ok (repeat 0 (Z.to_nat 65535))). { apply Forall_forall. intros y Y. apply repeat_spec in Y. subst. unfold is_byte. lia. }
    split; [exact B|]. rewrite (proj2 (C95_overreads_exactly fuel pkt Hm Hf) O). apply C119_reach; auto. unfold zlen. rewrite repeat_length. lia.
Qed.
Print Assumptions C119_matters_exactly.
(** A packet that makes the call hang does so whatever lies behind it. *)
Theorem C119_hangs_anyway : forall fuel pkt x, bytes_ok pkt -> 65535 < Z.of_nat fuel -> hangs pkt -> parse_message fuel (pkt ++ x) (zlen pkt) = NoFuel.
Proof.
  intros fuel pkt x Hm Hf H. pose proof (proj2 (C94_hangs_exactly pkt Hm) H fuel Hf) as E. rewrite <- E. apply nf_same; [apply nf_message; auto|congruence].
Qed.
Print Assumptions C119_hangs_anyway.
(** No shorter reach would do: an alpn parameter at the very end that announces 65535 octets, and 65534 zeros behind the packet. *)
Definition far_pkt : bytes := [0;0;129;128;0;0;0;1;0;0;0;0; 0; 0;64;0;1;0;0;0;0;0;7; 0;1;0; 0;1;255;255].
Lemma alpn_zeros : forall fuel p k n o, zlen p + Z.of_nat k < zlen p + n -> 0 <= o <= Z.of_nat k -> Z.of_nat k - o < Z.of_nat fuel ->
  alpn_loop fuel (p ++ repeat 0 k) (zlen p) n o = UB OobRead.
Proof.
  induction fuel as [|fuel IH]; intros p k n o B Ho F; [lia|]. cbn [alpn_loop]. replace (o <? n) with true by lia. pose proof (zlen_nonneg _ p).
  unfold rd at 1. replace (zlen p + o <? 0) with false by lia. rewrite nth_error_app2 by (unfold zlen in *; lia).
  replace (Z.to_nat (zlen p + o) - length p)%nat with (Z.to_nat o) by (unfold zlen in *; lia).
  destruct (Z.eq_dec o (Z.of_nat k)) as [E|N].
  - replace (nth_error (repeat 0 k) (Z.to_nat o)) with (@None Z); [reflexivity|]. symmetry. apply nth_error_None. rewrite repeat_length. lia.
  - rewrite (nth_error_nth' (repeat 0 k) 0) by (rewrite repeat_length; lia). rewrite nth_repeat. cbn [bind]. apply IH; lia.
Qed.
Theorem C119_reach_tight : bytes_ok far_pkt /\ forall fuel k, Z.of_nat k < 65535 -> parse_message (S fuel) (far_pkt ++ repeat 0 k) (zlen far_pkt) = UB OobRead.
Proof.
  split; [apply bytes_okb_ok; reflexivity|]. intros fuel k Lx. change (zlen far_pkt) with 30.
  set (m := far_pkt ++ repeat 0 k).
  assert (R : forall i b, rd far_pkt i = Ok b -> rd m i = Ok b) by (intros i b E; pose proof (rf_rd far_pkt (repeat 0 k) i) as K; rewrite E in K; exact K).
  assert (G : forall i b, get16 far_pkt i = Ok b -> get16 m i = Ok b) by (intros i b E; pose proof (rf_get16 far_pkt (repeat 0 k) i) as K; rewrite E in K; exact K).
  assert (G4 : forall i b, get32 far_pkt i = Ok b -> get32 m i = Ok b) by (intros i b E; pose proof (rf_get32 far_pkt (repeat 0 k) i) as K; rewrite E in K; exact K).
  assert (P : parse_rdata (S fuel) m 30 64 1 23 7 = UB OobRead).
  { unfold parse_rdata. replace (descr_for 64 1) with (Some [rdf_int16; rdf_name; rdf_svcparams]) by reflexivity.
    cbn [parse_fields]. change (7 =? 0) with false. cbv iota.
    pose proof (rf_field far_pkt (repeat 0 k) (S fuel) (S fuel) 30 rdf_int16 (23, 7, []) ltac:(lia)) as K1.
    replace (parse_field (S fuel) far_pkt 30 rdf_int16 (23, 7, [])) with (@Ok pstate (25, 5, [0; 1])) in K1 by reflexivity.
    cbn [rf] in K1. fold m in K1. rewrite K1. cbn [bind]. change (5 =? 0) with false. cbv iota.
    pose proof (rf_field far_pkt (repeat 0 k) (S fuel) (S fuel) 30 rdf_name (25, 5, [0; 1]) ltac:(lia)) as K2.
    replace (parse_field (S fuel) far_pkt 30 rdf_name (25, 5, [0; 1])) with (@Ok pstate (26, 4, [0; 1; 0])) in K2 by (vm_compute; reflexivity).
    cbn [rf] in K2. fold m in K2. rewrite K2. cbn [bind]. change (4 =? 0) with false. cbv iota. cbn [parse_field svc_loop].
    change (4 >? 0) with true. change (4 <? 4) with false. cbv iota.
    rewrite (R 26 0), (R (26 + 1) 1), (R (26 + 2) 255), (R (26 + 3) 255) by reflexivity. cbn [bind].
    change ((2 + 2 + be16 255 255) mod 2 ^ 16) with 3. change (3 >? 4) with false. cbv iota.
    unfold svcparam_key_validate. change (be16 0 1 =? 0) with false. change (be16 0 1 =? 1) with true. cbv iota.
    change (be16 255 255) with 65535. change (65535 =? 0) with false. cbv iota. change (26 + 4) with (zlen far_pkt).
    unfold m. rewrite alpn_zeros; auto; try lia. }
  assert (Q : parse_message_rr (S fuel) 1 m 30 12 = UB OobRead).
  { unfold parse_message_rr.
    pose proof (rf_unpack far_pkt (repeat 0 k) 30 12) as U. replace (unpack_name far_pkt 30 12) with (@Ok (list Z * Z) ([0], 1)) in U by (vm_compute; reflexivity).
    cbn [rf] in U. fold m in U. rewrite U.
    pose proof (rf_skip far_pkt (repeat 0 k) 30 12) as K. replace (skip_name far_pkt 30 12) with (@Ok Z 13) in K by (vm_compute; reflexivity).
    cbn [rf] in K. fold m in K. rewrite K. cbn [bind].
    change ((13 + 4 >? 30) || (negb (1 =? 0) && (13 + 10 >? 30))) with false. cbv iota.
    rewrite (G 13 64) by reflexivity. cbn [bind]. cbv zeta. rewrite (G (13 + 2) 1) by reflexivity. cbn [bind].
    change (1 =? 0) with false. cbv iota. rewrite (G4 (13 + 2 + 2) 0) by reflexivity. cbn [bind].
    rewrite (G (13 + 2 + 2 + 4) 7) by reflexivity. cbn [bind]. change (13 + 2 + 2 + 4 + 2 + 7 >? 30) with false. cbv iota.
    change (13 + 2 + 2 + 4 + 2) with 23. rewrite P. reflexivity. }
  unfold parse_message. change (30 <? 12) with false. cbv iota.
  rewrite (G 0 0), (G 2 33152), (G 4 0), (G 6 1), (G 8 0), (G 10 0) by reflexivity. cbn [bind].
  cbn [parse_sections]. change (Z.to_nat 0) with 0%nat. change (Z.to_nat 1) with 1%nat. cbn [parse_section bind].
  change (12 =? 30) with false. cbv iota. rewrite Q. reflexivity.
Qed.
Print Assumptions C119_reach_tight.
(** Packets of both kinds: a proper one, one that hangs, and one that over-reads. *)
Example C119_ex : bytes_ok ex_pkt /\ ~ overreads ex_pkt /\ (bytes_ok loop_pkt /\ hangs loop_pkt) /\ (bytes_ok stray_pkt /\ overreads stray_pkt).
Proof.
  split; [apply bytes_okb_ok; reflexivity|]. split.
  - intros O. apply (C95_overreads_exactly ex_fuel) in O; auto using ex_fuel_ok; [|apply bytes_okb_ok; reflexivity]. revert O. vm_compute. discriminate.
  - destruct C94_ex as (A & B & _). destruct C95_ex as (C & D & _). auto.
Qed.

(** The example programs inherit it: wdns-dump-file and wdns-dump-pcap hang on every such message, whatever is behind it. *)
Theorem C119_programs_hang : forall fuel dns, bytes_ok dns -> 65535 < Z.of_nat fuel -> hangs dns ->
  (forall fs a0 path, fs path = contents dns -> zlen dns < 4096 -> prog_dump_file fuel fs [a0; path] = NoFuel) /\
  (forall f behind, bytes_ok f -> udp_frame f dns behind -> packet_handler fuel f = NoFuel).
Proof.
  intros fuel dns B F H. split.
  - intros fs a0 path FS L. unfold prog_dump_file. rewrite FS. replace (zlen dns <? 4096) with true by lia. unfold process_data.
    rewrite C119_hangs_anyway by auto. reflexivity.
  - intros f behind Bf U. rewrite (handler_frame _ _ _ _ Bf U). destruct (zlen dns <? 12) eqn:L.
    + exfalso. pose proof (proj2 (C94_hangs_exactly dns B) H fuel F) as E. unfold parse_message in E. rewrite L in E. discriminate.
    + rewrite C119_hangs_anyway by auto. reflexivity.
Qed.
Print Assumptions C119_programs_hang.
