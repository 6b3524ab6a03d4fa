(** PropParse.v: properties C18-C25, C27-C30, C37 (message parsing). *)
From Verif Require Import Base Lib SpecName SpecMessage SpecEncode ModelName ModelDescr ModelParse SpecParsed SpecGroup.
From Verif Require Import ProofUnpack ProofCopy ProofRdata ProofRdata2 ProofGroup ProofMessage ProofMono ProofEncode ProofGroup2.

(** Checkers for concrete packets. *)
Definition bytes_okb (l : bytes) : bool := forallb (fun b => (0 <=? b) && (b <? 256)) l.
Lemma bytes_okb_ok : forall l, bytes_okb l = true -> bytes_ok l.
Proof. intros l H. unfold bytes_okb in H. rewrite forallb_forall in H. apply Forall_forall. intros x X. apply H in X. unfold is_byte. lia. Qed.
(** A checker for [tame]: at every suffix that starts like an SVCB or HTTPS header, measure the target and walk the SvcParams. *)
Fixpoint extentb (fuel : nat) (l : bytes) : Z :=
  match fuel, l with
  | S f, c :: r => if c =? 0 then 1 else if 192 <=? c then 2 else 1 + c + extentb f (skipn (Z.to_nat c) r)
  | _, _ => 0
  end.
Fixpoint walkb (fuel : nat) (l : bytes) (n : Z) : bool :=
  match fuel with
  | O => false
  | S f =>
    if n <? 4 then true
    else match l with
    | _ :: _ :: l0 :: l1 :: r =>
      let v := l0 * 256 + l1 in
      (v <? 65532) && (if 4 + v <=? n then walkb f (skipn (Z.to_nat v) r) (n - (4 + v)) else true)
    | _ => true
    end
  end.
Fixpoint tameb (l : bytes) : bool :=
  match l with
  | [] => true
  | _ :: r => tameb r && match l with
    | 0 :: t :: 0 :: 1 :: _ :: _ :: _ :: _ :: l0 :: l1 :: _ :: _ :: q =>
      negb ((t =? 64) || (t =? 65)) || (let e := extentb (S (length q)) q in walkb (S (length q)) (skipn (Z.to_nat e) q) (l0 * 256 + l1 - 2 - e))
    | _ => true
    end
  end.
Lemma octets_at_front : forall p l x, octets_at (p ++ l) (zlen p) x -> exists q, l = x ++ q.
Proof.
  intros p l x (a & q & E & L). exists q. assert (a = p) as ->; [|apply app_inv_head in E; exact E].
  apply (f_equal (firstn (length p))) in E. unfold zlen in L. rewrite !firstn_app in E. replace (length p - length p)%nat with 0%nat in E by lia.
  replace (length p - length a)%nat with 0%nat in E by lia. rewrite !firstn_O, !app_nil_r, !firstn_all2 in E by lia. auto.
Qed.
Lemma extentb_ok : forall m i e, extent m i e -> forall p l, m = p ++ l -> zlen p = i -> forall f, (length l < f)%nat -> extentb f l = e.
Proof.
  induction 1 as [i O|i hi lo O H|i x e V O X IH]; intros p l -> <- f F.
  - apply octets_at_front in O as (q & ->). destruct f; [lia|]. reflexivity.
  - apply octets_at_front in O as (q & ->). destruct f; [lia|]. cbn [extentb app]. replace (hi =? 0) with false by lia. replace (192 <=? hi) with true by lia. reflexivity.
  - apply octets_at_front in O as (q & ->). destruct f; [lia|]. destruct V as [V _]. cbn [extentb app]. replace (zlen x =? 0) with false by lia. replace (192 <=? zlen x) with false by lia.
    rewrite zlen_to_nat, skipn_app, skipn_all, Nat.sub_diag. cbn [skipn app]. rewrite (IH (p ++ zlen x :: x) q); auto.
    + rewrite <- app_assoc. reflexivity.
    + rewrite zlen_app, zlen_cons. lia.
    + cbn [app length] in F. rewrite app_length in F. lia.
Qed.
Lemma walkb_ok : forall f l n p, walkb f l n = true -> no_huge_param (p ++ l) (zlen p) (zlen p + n).
Proof.
  induction f as [|f IH]; intros l n p H i k0 k1 l0 l1 R B O; [discriminate|]. cbn [walkb] in H. destruct (n <? 4) eqn:N.
  - inversion R as [j|j kv k O' B' R']; subst; [lia|]. rewrite zlen_param in B'. pose proof (zlen_nonneg _ (snd kv)). lia.
  - inversion R as [j|j kv k O' B' R']; subst.
    + apply octets_at_front in O as (q & ->). cbn [app] in H. lia.
    + apply octets_at_front in O' as (q & ->). destruct kv as [key v]. rewrite zlen_param in *. cbn [snd] in *.
      unfold param in H. cbn [fst snd app u16] in H. assert (V : zlen v / 256 * 256 + zlen v mod 256 = zlen v) by (pose proof (Z.div_mod (zlen v) 256); lia).
      rewrite V in H. replace (4 + zlen v <=? n) with true in H by lia. rewrite zlen_to_nat, skipn_app, skipn_all, Nat.sub_diag in H. cbn [skipn app] in H.
      apply andb_true_iff in H as [_ H]. apply (IH q (n - (4 + zlen v)) (p ++ param (key, v))) in H.
      rewrite zlen_app, zlen_param in H. cbn [snd] in H. rewrite <- app_assoc in H. apply (H i k0 k1 l0 l1); [|lia|exact O].
      replace (zlen p + (4 + zlen v) + (n - (4 + zlen v))) with (zlen p + n) by lia. exact R'.
Qed.
Lemma tameb_ok : forall l, tameb l = true -> tame l.
Proof.
  intros l H i t x y z w l0 l1 e (p & q & E & L) T X. subst l i.
  assert (H' : tameb (([0; t; 0; 1; x; y; z; w; l0; l1] ++ q)) = true).
  { clear T X. induction p as [|c p IH]; [exact H|]. apply IH. cbn [app] in H. cbn [tameb] in H. apply andb_true_iff in H. apply H. }
  clear H. cbn [app] in H'. cbn [tameb] in H'. apply andb_true_iff in H' as (_ & H).
  pose proof (extent_bound _ _ _ X) as B. pose proof (extent_pos _ _ _ X) as Q. rewrite !zlen_app in B. change (zlen [0; t; 0; 1; x; y; z; w; l0; l1]) with 10 in B.
  destruct q as [|c0 [|c1 q]]; [change (zlen (@nil Z)) with 0 in B; lia|change (zlen [c0]) with 1 in B; lia|].
  replace ((t =? 64) || (t =? 65)) with true in H by lia. cbn [negb orb] in H. cbv zeta in H.
  set (h := [0; t; 0; 1; x; y; z; w; l0; l1; c0; c1]). change (p ++ [0; t; 0; 1; x; y; z; w; l0; l1] ++ c0 :: c1 :: q) with (p ++ h ++ q) in *.
  rewrite (app_assoc p h q) in *. assert (LH : zlen (p ++ h) = zlen p + 12) by (rewrite zlen_app; reflexivity).
  rewrite (extentb_ok _ _ _ X (p ++ h) q eq_refl LH) in H by lia.
  rewrite !zlen_cons in B.
  rewrite <- (firstn_skipn (Z.to_nat e) q) at 1. rewrite app_assoc.
  apply (walkb_ok _ _ _ ((p ++ h) ++ firstn (Z.to_nat e) q)) in H. rewrite zlen_app, LH, zlen_firstn in H by lia.
  replace (zlen p + 12 + e + (l0 * 256 + l1 - 2 - e)) with (zlen p + 10 + (l0 * 256 + l1)) in H by lia. exact H.
Qed.

(** id 1234, response to "a." A IN: two A records (owners "a." compressed and "A."), OPT with extended rcode 1, DO flag, size 4096. *)
Definition ex_pkt : bytes :=
  [18;52;129;128;0;1;0;2;0;0;0;1; 1;97;0;0;1;0;1; 192;12;0;1;0;1;0;0;1;44;0;4;1;2;3;4; 1;65;0;0;1;0;1;0;0;0;60;0;4;5;6;7;8;
   0;0;41;16;0;1;0;128;0;0;0].
Lemma ex_ok : bytes_ok ex_pkt /\ tame ex_pkt.
Proof. split; [apply bytes_okb_ok; reflexivity|]. apply tameb_ok. reflexivity. Qed.
Definition ex_fuel : nat := Z.to_nat 65536.
Lemma ex_fuel_ok : 65535 < Z.of_nat ex_fuel.
Proof. unfold ex_fuel. rewrite Z2Nat.id; lia. Qed.
Opaque ex_fuel.
Definition ex_set : rrset := {| rs_name := [1;97;0]; rs_type := 1; rs_class := 1; rs_ttl := 60; rs_rdatas := [[1;2;3;4]; [5;6;7;8]] |}.
Definition ex_parsed : message :=
  {| m_qd := {| a_rrs := [{| rr_name := [1;97;0]; rr_type := 1; rr_class := 1; rr_ttl := 0; rr_rdata := None |}];
                a_rrsets := [{| rs_name := [1;97;0]; rs_type := 1; rs_class := 1; rs_ttl := 0; rs_rdatas := [] |}] |};
     m_an := {| a_rrs := [{| rr_name := [1;97;0]; rr_type := 1; rr_class := 1; rr_ttl := 300; rr_rdata := Some [1;2;3;4] |};
                          {| rr_name := [1;65;0]; rr_type := 1; rr_class := 1; rr_ttl := 60; rr_rdata := Some [5;6;7;8] |}];
                a_rrsets := [ex_set] |};
     m_ns := empty_array; m_ar := empty_array;
     m_edns := {| e_present := true; e_version := 0; e_flags := 32768; e_size := 4096; e_options := Some [] |};
     m_id := 4660; m_flags := 33152; m_rcode := 256 |}.
Example ex_parse : forall fuel, parse_message fuel ex_pkt (zlen ex_pkt) = Ok (res_success, ex_parsed).
Proof. intros fuel. vm_compute. reflexivity. Qed.

(** ** C18 *)
(** Whenever the call returns, it returns wdns_res_len exactly for packets shorter than 12 octets. *)
Theorem C18_len_iff_short : forall fuel m len r M, parse_message fuel m len = Ok (r, M) -> (r = res_len <-> len < 12).
Proof.
  intros fuel m len r M E. apply message_flow in E. destruct E as [(L & -> & _)|(L & _ & _ & _ & _ & _ & M1 & _ & _ & _ & [(-> & _)|(C & _)])].
  - tauto.
  - split; [discriminate|lia].
  - split; [intros ->; cbn in C; intuition discriminate|lia].
Qed.
Print Assumptions C18_len_iff_short.

(** The call does return on such packets, and the message is empty. *)
Theorem C18_short : forall fuel m len, len < 12 -> parse_message fuel m len = Ok (res_len, empty_message).
Proof. intros. unfold parse_message. replace (len <? 12) with true by lia. reflexivity. Qed.
Print Assumptions C18_short.

(** id, flags, and the low four bits of the rcode. *)
Theorem C18_header : forall fuel m len M, parse_message fuel m len = Ok (res_success, M) ->
  exists i0 i1 f0 f1, octets_at m 0 [i0; i1; f0; f1] /\ m_id M = i0 * 256 + i1 /\ m_flags M = f0 * 256 + f1 /\ m_rcode M mod 16 = m_flags M mod 16.
Proof.
  intros fuel m len M E. apply message_flow in E. destruct E as [(L & E & _)|(L & i0 & i1 & f0 & f1 & O & M1 & A & B & C & [(_ & ->)|(D & _)])].
  - discriminate.
  - exists i0, i1, f0, f1. auto.
  - cbn in D. intuition discriminate.
Qed.
Print Assumptions C18_header.

(** The whole rcode (see C21 for the extended bits): without an OPT record the low four bits of the flags. *)
Theorem C18_rcode_plain : forall fuel pkt s M, bytes_ok pkt -> 65535 < Z.of_nat fuel -> message_at pkt s ->
  Forall (fun e => s_type (snd e) <> 41) (entries s) -> parse_message fuel pkt (zlen pkt) = Ok (res_success, M) -> m_rcode M = sm_flags s mod 16.
Proof.
  intros fuel pkt s M Hm Hf A F E. rewrite (message_complete fuel pkt s Hm Hf A) in E. injection E as <-.
  unfold parsed, parsed_entries. cbn [m_rcode]. replace (first_opt (entries s)) with (@None srr); [unfold rcode_of; lia|].
  induction (entries s) as [|[k r] l IH]; auto. inversion F; subst. cbn [first_opt]. unfold is_opt. cbn [snd] in *.
  replace (s_type r =? 41) with false by lia. auto.
Qed.
Print Assumptions C18_rcode_plain.

Example C18_ex : forall fuel, parse_message fuel (firstn 11 ex_pkt) 11 = Ok (res_len, empty_message) /\
  parse_message fuel ex_pkt (zlen ex_pkt) = Ok (res_success, ex_parsed).
Proof. intros. split; [reflexivity|apply ex_parse]. Qed.

(** ** C19 *)
(** Every message of the grammar is accepted and yields exactly the parsed form of its abstract content. *)
Theorem C19_accepts_grammar : forall fuel pkt s, bytes_ok pkt -> 65535 < Z.of_nat fuel -> message_at pkt s ->
  parse_message fuel pkt (zlen pkt) = Ok (res_success, parsed s).
Proof. exact message_complete. Qed.
Print Assumptions C19_accepts_grammar.

(** What the RR lists are, spelled out: all RRs of the section in order, except the first OPT record of the message. *)
Theorem C19_rr_lists : forall s,
  a_rrs (m_qd (parsed s)) = map rr_of (in_section 0 (without_first_opt (entries s))) /\
  a_rrs (m_an (parsed s)) = map rr_of (in_section 1 (without_first_opt (entries s))) /\
  a_rrs (m_ns (parsed s)) = map rr_of (in_section 2 (without_first_opt (entries s))) /\
  a_rrs (m_ar (parsed s)) = map rr_of (in_section 3 (without_first_opt (entries s))).
Proof. repeat split. Qed.
Print Assumptions C19_rr_lists.

(** Whatever is accepted is a message of the grammar, provided the packet is tame (SpecMessage.v): where octets look like
    the fixed part of an SVCB or HTTPS record of class IN, no SvcParam announces a value of 65532 octets or more.
    Missing for the full claim: the other packets; see the refutation below. *)
Theorem C19_accepts_only_grammar_partial : forall fuel pkt M, bytes_ok pkt -> tame pkt -> 65535 < Z.of_nat fuel ->
  parse_message fuel pkt (zlen pkt) = Ok (res_success, M) -> exists s, message_at pkt s /\ M = parsed s.
Proof.
  intros fuel pkt M Hm NH Hf E. destruct (message_sound _ _ _ _ Hm NH Hf E) as [(_ & H)|[(_ & R & _)|(_ & R & _)]]; auto; [discriminate|].
  cbn in R. intuition discriminate.
Qed.
Print Assumptions C19_accepts_only_grammar_partial.

(** The abstract content of a packet is unique as far as the API shows it. *)
Theorem C19_unambiguous : forall pkt s s', bytes_ok pkt -> message_at pkt s -> message_at pkt s' -> parsed s = parsed s'.
Proof.
  intros pkt s s' Hm A B. pose proof (message_complete ex_fuel pkt s Hm ex_fuel_ok A) as E.
  rewrite (message_complete ex_fuel pkt s' Hm ex_fuel_ok B) in E. congruence.
Qed.
Print Assumptions C19_unambiguous.

Example C19_ex : exists s, message_at ex_pkt s /\ parsed s = ex_parsed.
Proof.
  destruct (C19_accepts_only_grammar_partial ex_fuel ex_pkt ex_parsed (proj1 ex_ok) (proj2 ex_ok) ex_fuel_ok (ex_parse _)) as (s & A & B). eauto.
Qed.

(** An SVCB record whose SvcParam claims 65534 octets (two are there) is accepted: the length check wraps around. *)
Definition wrap_pkt : bytes :=
  [0;0;129;128;0;0;0;1;0;0;0;0; 0; 0;64;0;1;0;0;0;0;0;9; 0;1;0; 0;7;255;254;0;0].
Lemma extent_root : forall m i e, extent m i e -> octets_at m i [0] -> e = 1.
Proof.
  intros m i e X O. inversion X as [? _|? hi lo O' B|? l e' [V _] O' X']; subst; auto.
  - apply octet_head in O'. pose proof (octet_det _ _ _ _ O O'). lia.
  - apply octet_head in O'. pose proof (octet_det _ _ _ _ O O'). lia.
Qed.
Lemma at_det : forall m i l l', octets_at m i l -> firstn (length l) (skipn (Z.to_nat i) m) = l' -> l = l'.
Proof.
  intros m i l l' O <-. destruct (octets_at_skip _ _ _ O) as (q & ->). rewrite firstn_app, Nat.sub_diag, firstn_all. cbn. rewrite app_nil_r. reflexivity.
Qed.
Lemma at_intro : forall m i l, 0 <= i -> firstn (length l) (skipn (Z.to_nat i) m) = l -> i + zlen l <= zlen m -> octets_at m i l.
Proof.
  intros m i l Hi E B. pose proof (octets_at_intro m i (zlen l) Hi (zlen_nonneg _ l) B) as O.
  unfold zlen in O at 1. rewrite Nat2Z.id, E in O. exact O.
Qed.
Lemma wrap_not_message : forall s, ~ message_at wrap_pkt s.
Proof.
  intros s (i0 & i1 & f0 & f1 & q0 & q1 & a0 & a1 & n0 & n1 & r0 & r1 & j1 & j2 & j3 & j4 & O & _ & _ & E1 & E2 & _).
  apply at_det with (l' := [0;0;129;128;0;0;0;1;0;0;0;0]) in O; [|reflexivity]. injection O; intros; subst. clear O.
  cbn in E1. inversion E1; subst; try lia. clear E1. cbn in E2. inversion E2 as [|n Hn Hz|i n r k rs j Hn Hi R En]; subst. clear E2 En.
  unfold entry_at in R. cbn [Z.eqb] in R. destruct R as (e & t0 & t1 & c0 & c1 & w & x & y & z & l0 & l1 & vs & (D & L & X) & O & Et & Ec & El & Q).
  assert (e = 1) as -> by (eapply extent_root; eauto; apply at_intro; vm_compute; congruence).
  apply at_det with (l' := [0;64;0;1;0;0;0;0;0;9]) in O; [|reflexivity]. injection O; intros; subst. clear O.
  cbv zeta in Q. destruct Q as (_ & R & _ & _). rewrite Et, Ec in R. change (format_of (0 * 256 + 64) (0 * 256 + 1)) with [FFixed 2; FName; FParams] in R.
  cbn [Z.add Z.mul] in R. inversion R as [|? ? ? ? ? ? D1 L1 X1 N1 R1|f fs i n l vs' F1 O1 B1 T1 R1]; subst. clear R.
  cbn [field_octets] in F1. rewrite F1 in R1.
  inversion R1 as [|? ? ? ls e vs2 D2 L2 X2 N2 R2|f fs i n l2 vs2 F2 O2 B2 T2 R2]; subst; [|contradiction]. clear R1.
  assert (e = 1) as ->. { eapply extent_root; eauto. apply at_intro; vm_compute; congruence. }
  inversion R2 as [|? ? ? ? ? ? D3 L3 X3 N3 R3|f fs i n l3 vs3 F3 O3 B3 T3 R3]; subst. clear R2 R3.
  cbn [to_end] in T3. specialize (T3 eq_refl). cbn [field_octets] in F3. destruct F3 as (ps & Fp & ->).
  destruct ps as [|[kk v] ps]; [discriminate|].
  apply at_det with (l' := [0;7;255;254;0;0]) in O3.
  - cbn [map concat] in O3. unfold param in O3. cbn [fst snd u16 app] in O3. injection O3; intros. 
    pose proof (Z.div_mod (zlen v) 256). inversion Fp as [|? ? [_ Hv] _]; subst. cbn [snd] in Hv. lia.
  - unfold zlen in T3. replace (length (concat (map param ((kk, v) :: ps)))) with 6%nat by lia. reflexivity.
Qed.
Theorem C19_accepts_only_grammar_refuted : exists pkt, bytes_ok pkt /\ (forall s, ~ message_at pkt s) /\
  forall fuel, exists M, parse_message (S (S (S fuel))) pkt (zlen pkt) = Ok (res_success, M).
Proof.
  exists wrap_pkt. split; [apply bytes_okb_ok; reflexivity|]. split; [exact wrap_not_message|]. intros fuel. eexists. vm_compute. reflexivity.
Qed.
Print Assumptions C19_accepts_only_grammar_refuted.

(** ** C20 *)
(** The uncompressed encoding of every well-formed abstract message parses to exactly its content. *)
Theorem C20_encode_parse : forall fuel s, wf_msg s -> 65535 < Z.of_nat fuel ->
  parse_message fuel (encode s) (zlen (encode s)) = Ok (res_success, parsed s).
Proof. intros fuel s W Hf. apply message_complete; auto using encode_bytes, encode_message_at. Qed.
Print Assumptions C20_encode_parse.

(** In particular, for messages without OPT records: id, flags, and all RRs in order, rdata complete. *)
Definition rr_exact (r : srr) : rr :=
  {| rr_name := wire (s_name r); rr_type := s_type r; rr_class := s_class r; rr_ttl := s_ttl r; rr_rdata := option_map canon (s_data r) |}.
Lemma no_opt_rest : forall l, Forall (fun e => s_type (snd e) <> 41) l -> first_opt l = None /\ without_first_opt l = l.
Proof.
  induction l as [|[k r] l IH]; intros F; [auto|]. inversion F; subst. destruct (IH H2) as [A B]. cbn [first_opt without_first_opt].
  unfold is_opt. cbn [snd] in *. replace (s_type r =? 41) with false by lia. rewrite A, B. auto.
Qed.
Lemma in_sec_same : forall k rs, in_section k (map (pair k) rs) = rs.
Proof. intros k rs. unfold in_section. induction rs; cbn; auto. rewrite Z.eqb_refl. cbn. f_equal. auto. Qed.
Lemma in_sec_diff : forall k k' rs, k <> k' -> in_section k (map (pair k') rs) = [].
Proof. intros k k' rs H. unfold in_section. induction rs; cbn; auto. replace (k' =? k) with false by lia. auto. Qed.
Lemma in_entries : forall s, in_section 0 (entries s) = sm_qd s /\ in_section 1 (entries s) = sm_an s /\
  in_section 2 (entries s) = sm_ns s /\ in_section 3 (entries s) = sm_ar s.
Proof.
  intros s. unfold entries. rewrite !in_section_app. rewrite !in_sec_same, !in_sec_diff by lia. rewrite !app_nil_r. auto.
Qed.
Lemma rr_exact_of : forall r, wf_record r \/ wf_question r -> rr_of r = rr_exact r.
Proof.
  intros r [(_ & _ & vs & D & _ & L)|(_ & _ & D)]; unfold rr_of, rr_exact; rewrite D; auto. cbn [option_map]. unfold stored.
  rewrite Z.mod_small by (pose proof (zlen_nonneg _ (canon vs)); lia). unfold zlen. rewrite Nat2Z.id, firstn_all. reflexivity.
Qed.
Lemma map_exact : forall rs, Forall (fun r => wf_record r \/ wf_question r) rs -> map rr_of rs = map rr_exact rs.
Proof. induction 1; cbn; auto. rewrite rr_exact_of by auto. congruence. Qed.

Theorem C20_encode_parse_rrs : forall fuel s, wf_msg s -> 65535 < Z.of_nat fuel ->
  Forall (fun r => s_type r <> 41) (sm_qd s ++ sm_an s ++ sm_ns s ++ sm_ar s) ->
  exists M, parse_message fuel (encode s) (zlen (encode s)) = Ok (res_success, M) /\ m_id M = sm_id s /\ m_flags M = sm_flags s /\
    e_present (m_edns M) = false /\
    a_rrs (m_qd M) = map rr_exact (sm_qd s) /\ a_rrs (m_an M) = map rr_exact (sm_an s) /\
    a_rrs (m_ns M) = map rr_exact (sm_ns s) /\ a_rrs (m_ar M) = map rr_exact (sm_ar s).
Proof.
  intros fuel s W Hf F. exists (parsed s). split; [apply C20_encode_parse; auto|].
  assert (Forall (fun e => s_type (snd e) <> 41) (entries s)) as F'.
  { apply Forall_forall. intros [k r] I. rewrite Forall_forall in F. apply F. cbn [snd]. unfold entries in I. rewrite !in_app_iff in *.
    rewrite !in_map_iff in I. destruct I as [(x & [= <- <-] & I)|[(x & [= <- <-] & I)|[(x & [= <- <-] & I)|(x & [= <- <-] & I)]]]; auto. }
  apply no_opt_rest in F' as [A B]. unfold parsed, parsed_entries. rewrite A, B. cbn [m_id m_flags m_edns m_qd m_an m_ns m_ar edns_of e_present question_of section_of a_rrs].
  destruct (in_entries s) as (-> & -> & -> & ->). destruct W as (_ & _ & Wq & Wa & Wn & Wr & _).
  repeat split; apply map_exact; eapply Forall_impl; try eassumption; cbn; auto.
Qed.
Print Assumptions C20_encode_parse_rrs.

Definition ex_smsg : smsg :=
  {| sm_id := 7; sm_flags := 33152; sm_qd := [{| s_name := [[97]]; s_type := 15; s_class := 1; s_ttl := 0; s_data := None |}];
     sm_an := [{| s_name := [[97]]; s_type := 15; s_class := 1; s_ttl := 300; s_data := Some [VOctets [0;10]; VName [[109;120]; [97]]] |}];
     sm_ns := []; sm_ar := [] |}.
Ltac vname := split; [repeat constructor; try (cbv; discriminate); cbv; lia|cbv; discriminate].
Example C20_ex : wf_msg ex_smsg /\ Forall (fun r => s_type r <> 41) (sm_qd ex_smsg ++ sm_an ex_smsg ++ sm_ns ex_smsg ++ sm_ar ex_smsg).
Proof.
  split; [|repeat constructor; discriminate]. unfold wf_msg, ex_smsg. cbn [sm_id sm_flags sm_qd sm_an sm_ns sm_ar].
  split; [lia|]. split; [lia|]. split; [|split; [|split; [constructor|split; [constructor|cbv; auto]]]].
  - repeat constructor; try (cbn; lia); cbn [s_name]; try (cbv; discriminate). 
  - constructor; [|constructor]. split; [|split; [cbn; lia|]].
    + repeat constructor; try (cbn; lia); cbv; discriminate.
    + eexists. split; [reflexivity|]. split; [|cbv; auto]. change (format_of _ _) with [FFixed 2; FName].
      apply wv_octets; [reflexivity|repeat constructor; cbv; discriminate|discriminate|discriminate|].
      apply wv_name; [|constructor]. repeat constructor; cbv; discriminate.
Qed.

(** ** C21 *)
(** Without OPT record: no EDNS, and no RR is withheld. *)
Theorem C21_no_opt : forall fuel pkt s M, bytes_ok pkt -> 65535 < Z.of_nat fuel -> message_at pkt s ->
  Forall (fun e => s_type (snd e) <> 41) (entries s) -> parse_message fuel pkt (zlen pkt) = Ok (res_success, M) ->
  e_present (m_edns M) = false /\ e_options (m_edns M) = None /\ a_rrs (m_qd M) = map rr_of (sm_qd s) /\
  a_rrs (m_an M) = map rr_of (sm_an s) /\ a_rrs (m_ns M) = map rr_of (sm_ns s) /\ a_rrs (m_ar M) = map rr_of (sm_ar s).
Proof.
  intros fuel pkt s M Hm Hf A F E. rewrite (message_complete fuel pkt s Hm Hf A) in E. injection E as <-.
  apply no_opt_rest in F as [B C]. unfold parsed, parsed_entries. rewrite B, C.
  cbn [m_edns m_qd m_an m_ns m_ar edns_of e_present e_options question_of section_of a_rrs].
  destruct (in_entries s) as (-> & -> & -> & ->). auto 10.
Qed.
Print Assumptions C21_no_opt.

(** With OPT records: the first one, whatever its section, gives the EDNS data (RFC 6891 6.1.3) and is not listed; all
    others are listed. [l1], [l2]: the entries before and after it. *)
Theorem C21_first_opt : forall fuel pkt s M l1 sec o l2, bytes_ok pkt -> 65535 < Z.of_nat fuel -> message_at pkt s ->
  entries s = l1 ++ (sec, o) :: l2 -> s_type o = 41 -> Forall (fun e => s_type (snd e) <> 41) l1 ->
  parse_message fuel pkt (zlen pkt) = Ok (res_success, M) ->
  m_edns M = {| e_present := true; e_version := s_ttl o / 65536 mod 256; e_flags := s_ttl o mod 65536; e_size := s_class o;
                e_options := option_map stored (s_data o) |} /\
  a_rrs (m_qd M) = map rr_of (in_section 0 (l1 ++ l2)) /\ a_rrs (m_an M) = map rr_of (in_section 1 (l1 ++ l2)) /\
  a_rrs (m_ns M) = map rr_of (in_section 2 (l1 ++ l2)) /\ a_rrs (m_ar M) = map rr_of (in_section 3 (l1 ++ l2)).
Proof.
  intros fuel pkt s M l1 sec o l2 Hm Hf A Eq To F E. rewrite (message_complete fuel pkt s Hm Hf A) in E. injection E as <-.
  apply no_opt_rest in F as [B C]. unfold parsed, parsed_entries. rewrite Eq, first_opt_app, without_opt_app, B.
  cbn [first_opt without_first_opt]. unfold is_opt. rewrite To, Z.eqb_refl. auto 10.
Qed.
Print Assumptions C21_first_opt.

(** The rcode: the low four bits of the flags plus 256 times the extended-rcode octet. *)
Theorem C21_rcode : forall fuel pkt s M l1 sec o l2, bytes_ok pkt -> 65535 < Z.of_nat fuel -> message_at pkt s ->
  entries s = l1 ++ (sec, o) :: l2 -> s_type o = 41 -> Forall (fun e => s_type (snd e) <> 41) l1 ->
  parse_message fuel pkt (zlen pkt) = Ok (res_success, M) -> m_rcode M = sm_flags s mod 16 + 256 * (s_ttl o / 16777216).
Proof.
  intros fuel pkt s M l1 sec o l2 Hm Hf A Eq To F E. rewrite (message_complete fuel pkt s Hm Hf A) in E. injection E as <-.
  apply no_opt_rest in F as [B C]. unfold parsed, parsed_entries. rewrite Eq, first_opt_app, B.
  cbn [first_opt]. unfold is_opt. rewrite To, Z.eqb_refl. reflexivity.
Qed.
Print Assumptions C21_rcode.

(** RFC 6891 makes the extended-rcode octet the upper 8 bits of a 12-bit rcode (16 times the octet). The library does
    not: BADVERS (16) is reported as 256. *)
Theorem C21_rfc6891_rcode_refuted : exists pkt s M, bytes_ok pkt /\ message_at pkt s /\
  (forall fuel, parse_message fuel pkt (zlen pkt) = Ok (res_success, M)) /\
  rfc_rcode (sm_flags s) (first_opt (entries s)) = 16 /\ m_rcode M = 256.
Proof.
  destruct C19_ex as (s & A & E). exists ex_pkt, s, ex_parsed. split; [apply ex_ok|]. split; auto. split; [exact ex_parse|]. split; [|reflexivity].
  pose proof (f_equal m_flags E) as E1. pose proof (f_equal m_rcode E) as E2. cbn in E1. unfold parsed, parsed_entries in E2. cbn [m_rcode ex_parsed] in E2.
  rewrite E1 in *. unfold rcode_of, rfc_rcode in *. change (33152 mod 16) with 0 in *. destruct (first_opt (entries s)); lia.
Qed.
Print Assumptions C21_rfc6891_rcode_refuted.

Example C21_ex : exists s l1 sec o l2, message_at ex_pkt s /\ entries s = l1 ++ (sec, o) :: l2 /\ s_type o = 41 /\
  Forall (fun e => s_type (snd e) <> 41) l1.
Proof.
  destruct C19_ex as (s & A & E). exists s. pose proof (f_equal (fun M => e_present (m_edns M)) E) as P. cbn in P.
  assert (forall l, first_opt l <> None -> exists l1 sec o l2, l = l1 ++ (sec, o) :: l2 /\ s_type o = 41 /\ Forall (fun e => s_type (snd e) <> 41) l1) as K.
  { induction l as [|[k r] l IH]; [contradiction|]. cbn [first_opt]. unfold is_opt. destruct (s_type r =? 41) eqn:T.
    - intros _. exists [], k, r, l. repeat split; auto; lia.
    - intros N. destruct (IH N) as (l1 & sec & o & l2 & -> & B & C). exists ((k, r) :: l1), sec, o, l2. repeat split; auto. constructor; auto. cbn. lia. }
  destruct (K (entries s)) as (l1 & sec & o & l2 & B & C & D).
  - destruct (first_opt (entries s)); [discriminate|]. cbn in P. discriminate.
  - exists l1, sec, o, l2. auto.
Qed.

(** ** C22, C23, C24: for every packet, every memory behind it, whenever the call returns. *)
Theorem C22_rrsets_partition_rrs : forall fuel m len r M, parse_message fuel m len = Ok (r, M) ->
  partition_ok (m_an M) /\ partition_ok (m_ns M) /\ partition_ok (m_ar M).
Proof.
  intros fuel m len r M E. apply message_minv in E. destruct E as (_ & A & B & C).
  apply inv_spec in A, B, C. tauto.
Qed.
Print Assumptions C22_rrsets_partition_rrs.

(** The section grows by one RR per insertion: nothing is dropped when RRs are listed (shown for one insertion). *)
Theorem C22_insert_keeps_rrs : forall a r sec a', sec <> 0 -> insert_rr a r sec = Ok a' -> a_rrs a' = a_rrs a ++ [r].
Proof.
  intros a r sec a' Hs E. unfold insert_rr in E. replace (sec =? 0) with false in E by lia. destruct (rr_rdata r); [|discriminate].
  injection E as <-. reflexivity.
Qed.
Print Assumptions C22_insert_keeps_rrs.

Theorem C23_rrset_ttl_is_minimum : forall fuel m len r M, parse_message fuel m len = Ok (r, M) ->
  ttl_is_min (m_an M) /\ ttl_is_min (m_ns M) /\ ttl_is_min (m_ar M).
Proof.
  intros fuel m len r M E. apply message_minv in E. destruct E as (_ & A & B & C).
  apply inv_spec in A, B, C. tauto.
Qed.
Print Assumptions C23_rrset_ttl_is_minimum.

Theorem C24_question_section : forall fuel m len r M, parse_message fuel m len = Ok (r, M) -> questions_ok (m_qd M).
Proof. intros fuel m len r M E. apply message_minv in E. apply E. Qed.
Print Assumptions C24_question_section.

(** In [ex_pkt] two RRs with owners "a." and "A." and TTLs 300 and 60 form one RRset with TTL 60. *)
Example C22_ex : a_rrsets (m_an ex_parsed) = [ex_set] /\ rrs_of (m_an ex_parsed) ex_set = a_rrs (m_an ex_parsed) /\ rs_ttl ex_set = 60.
Proof. repeat split. Qed.

(** ** C25 (contents; for the allocations see PropHeap.v) *)
Theorem C25_failed_parse_is_empty : forall fuel m len r M, parse_message fuel m len = Ok (r, M) -> r <> res_success ->
  m_qd M = empty_array /\ m_an M = empty_array /\ m_ns M = empty_array /\ m_ar M = empty_array /\
  e_present (m_edns M) = false /\ e_options (m_edns M) = None.
Proof.
  intros fuel m len r M E Ne. apply message_flow in E. destruct E as [(L & _ & ->)|(L & i0 & i1 & f0 & f1 & O & M1 & A & B & C & [(D & _)|(_ & ->)])].
  - repeat split.
  - contradiction.
  - repeat split.
Qed.
Print Assumptions C25_failed_parse_is_empty.
Example C25_ex : forall fuel, exists M, parse_message fuel (firstn 60 ex_pkt) 60 = Ok (res_parse_error, M) /\ m_id M = 4660.
Proof. intros fuel. eexists. split; [vm_compute; reflexivity|reflexivity]. Qed.

(** ** C27 *)
(** A SvcParam with value length 65532: the number of octets to skip wraps to 0 and the loop never advances. *)
Definition loop_pkt : bytes :=
  [0;0;129;128;0;0;0;1;0;0;0;0; 0; 0;64;0;1;0;0;0;0;0;7; 0;1;0; 0;0;255;252].
Lemma svc_stuck : forall fuel u, svc_loop fuel loop_pkt (26, 4, u) = NoFuel.
Proof.
  induction fuel as [|fuel IH]; intros u; [reflexivity|]. cbn [svc_loop].
  change (4 >? 0) with true. change (4 <? 4) with false. cbv iota.
  change (rd loop_pkt 26) with (@Ok Z 0). change (rd loop_pkt (26 + 1)) with (@Ok Z 0).
  change (rd loop_pkt (26 + 2)) with (@Ok Z 255). change (rd loop_pkt (26 + 3)) with (@Ok Z 252). cbn [bind].
  change ((2 + 2 + be16 255 252) mod 2 ^ 16) with 0. change (0 >? 4) with false. cbv iota.
  change (svcparam_key_validate loop_pkt (be16 0 0) (be16 255 252) (26 + 4)) with (@Ok bool true). cbn [bind negb].
  unfold copy_bytes. change (4 <? 0) with false. cbv iota. change (rds loop_pkt 26 0) with (@Ok (list Z) []). cbn [bind].
  change (26 + 0) with 26. change (4 - 0) with 4. rewrite app_nil_r. apply IH.
Qed.
Lemma loop_pkt_loops : forall fuel, parse_message fuel loop_pkt (zlen loop_pkt) = NoFuel.
Proof.
  intros fuel.
  assert (parse_rdata fuel loop_pkt (zlen loop_pkt) 64 1 23 7 = NoFuel) as P.
  { unfold parse_rdata. replace (descr_for 64 1) with (Some [rdf_int16; rdf_name; rdf_svcparams]) by reflexivity.
    cbn [parse_fields]. change (7 =? 0) with false. cbv iota.
    replace (parse_field fuel loop_pkt (zlen loop_pkt) rdf_int16 (23, 7, [])) with (@Ok pstate (25, 5, [0; 1])) by reflexivity.
    cbn [bind]. change (5 =? 0) with false. cbv iota.
    replace (parse_field fuel loop_pkt (zlen loop_pkt) rdf_name (25, 5, [0; 1])) with (@Ok pstate (26, 4, [0; 1; 0])) by (vm_compute; reflexivity).
    cbn [bind]. change (4 =? 0) with false. cbv iota. cbn [parse_field]. rewrite svc_stuck. reflexivity. }
  assert (parse_message_rr fuel 1 loop_pkt (zlen loop_pkt) 12 = NoFuel) as R.
  { unfold parse_message_rr.
    replace (unpack_name loop_pkt (zlen loop_pkt) 12) with (@Ok (list Z * Z) ([0], 1)) by (vm_compute; reflexivity).
    replace (skip_name loop_pkt (zlen loop_pkt) 12) with (@Ok Z 13) by (vm_compute; reflexivity). cbn [bind].
    change (zlen loop_pkt) with 30 in *. change ((13 + 4 >? 30) || (negb (1 =? 0) && (13 + 10 >? 30))) with false. cbv iota.
    change (get16 loop_pkt 13) with (@Ok Z 64). cbn [bind]. cbv zeta. change (get16 loop_pkt (13 + 2)) with (@Ok Z 1). cbn [bind].
    change (1 =? 0) with false. cbv iota. change (get32 loop_pkt (13 + 2 + 2)) with (@Ok Z 0). cbn [bind].
    change (get16 loop_pkt (13 + 2 + 2 + 4)) with (@Ok Z 7). cbn [bind]. change (13 + 2 + 2 + 4 + 2 + 7 >? 30) with false. cbv iota.
    change (13 + 2 + 2 + 4 + 2) with 23. rewrite P. reflexivity. }
  unfold parse_message. change (zlen loop_pkt <? 12) with false. cbv iota.
  change (get16 loop_pkt 0) with (@Ok Z 0). change (get16 loop_pkt 2) with (@Ok Z 33152). change (get16 loop_pkt 4) with (@Ok Z 0).
  change (get16 loop_pkt 6) with (@Ok Z 1). change (get16 loop_pkt 8) with (@Ok Z 0). change (get16 loop_pkt 10) with (@Ok Z 0). cbn [bind].
  cbn [parse_sections]. change (Z.to_nat 0) with 0%nat. change (Z.to_nat 1) with 1%nat. cbn [parse_section bind].
  change (12 =? zlen loop_pkt) with false. cbv iota. rewrite R. reflexivity.
Qed.
Theorem C27_terminates_refuted : exists pkt, bytes_ok pkt /\ forall fuel, parse_message fuel pkt (zlen pkt) = NoFuel.
Proof. exists loop_pkt. split; [apply bytes_okb_ok; reflexivity|exact loop_pkt_loops]. Qed.
Print Assumptions C27_terminates_refuted.

(** More iterations never change a result: the bound [fuel] is only a bound. *)
Theorem C27_bound_irrelevant : forall fuel fuel' m len r, (fuel <= fuel')%nat -> parse_message fuel m len = Ok r -> parse_message fuel' m len = Ok r.
Proof. exact message_fuel. Qed.
Print Assumptions C27_bound_irrelevant.

(** The call returns within 65536 SvcParam iterations per RR for every tame packet ([b], [x]: memory behind the packet). *)
Theorem C27_terminates_partial : forall fuel pkt b x, bytes_ok pkt -> is_byte b -> tame (pkt ++ [b]) -> 65535 < Z.of_nat fuel ->
  exists r M, parse_message fuel (pkt ++ b :: x) (zlen pkt) = Ok (r, M).
Proof.
  intros fuel pkt b x Hm Hb T Hf.
  destruct (message_returns fuel (pkt ++ [b]) (zlen pkt)) as (r & M & E); auto.
  - apply Forall_app. split; auto.
  - apply zlen_nonneg.
  - rewrite zlen_app. reflexivity.
  - exists r, M. replace (pkt ++ b :: x) with ((pkt ++ [b]) ++ x) by (rewrite <- app_assoc; reflexivity). apply message_memory. auto.
Qed.
Print Assumptions C27_terminates_partial.

(** ** C28 *)
(** With one readable octet behind a tame packet the call performs no out-of-bounds access and no other fault (same
    statement as above: [Ok] excludes faults). With exactly the packet readable this fails, see below. *)
Theorem C28_memory_safe_partial : forall fuel pkt b x, bytes_ok pkt -> is_byte b -> tame (pkt ++ [b]) -> 65535 < Z.of_nat fuel ->
  forall f, parse_message fuel (pkt ++ b :: x) (zlen pkt) <> UB f.
Proof. intros fuel pkt b x Hm Hb T Hf f. destruct (C27_terminates_partial fuel pkt b x Hm Hb T Hf) as (r & M & E). rewrite E. discriminate. Qed.
Print Assumptions C28_memory_safe_partial.
(** A packet with an HTTPS record (alpn h2, port 65535, ipv6hint ffff:...) and an A record 255.255.255.255 is tame and accepted. *)
Definition https_pkt : bytes :=
  [0;1;129;128;0;0;0;2;0;0;0;0; 0; 0;65;0;1;0;0;1;44;0;36; 0;1;0;0;1;0;3;2;104;50; 0;3;0;2;255;255; 0;6;0;16;255;255;255;255;255;255;255;255;255;255;255;255;255;255;255;255;
   0; 0;1;0;1;0;0;1;44;0;4;255;255;255;255].
Example C28_https_ex : bytes_ok https_pkt /\ tame (https_pkt ++ [0]) /\
  exists M, parse_message 4 https_pkt (zlen https_pkt) = Ok (res_success, M) /\ zlen (a_rrs (m_an M)) = 2.
Proof.
  split; [apply bytes_okb_ok; reflexivity|]. split; [apply tameb_ok; vm_compute; reflexivity|]. eexists. split; vm_compute; reflexivity.
Qed.
Example C28_ex : tame (ex_pkt ++ [0]).
Proof. apply tameb_ok. reflexivity. Qed.

(** If only the packet is readable and no fault occurs, what lies behind the packet has no influence. *)
Theorem C28_only_packet_matters : forall fuel pkt x r, parse_message fuel pkt (zlen pkt) = Ok r -> parse_message fuel (pkt ++ x) (zlen pkt) = Ok r.
Proof. intros. apply message_memory. auto. Qed.
Print Assumptions C28_only_packet_matters.

(** A packet that ends inside a name: the octet behind the packet is read. *)
Definition stray_pkt : bytes := [0;0;129;128;0;0;0;1;0;0;0;0; 0; 0;2;0;1;0;0;0;0;0;2; 1;97].
Theorem C28_reads_only_packet_refuted : exists pkt, bytes_ok pkt /\ tame pkt /\ forall fuel, parse_message fuel pkt (zlen pkt) = UB OobRead.
Proof.
  exists stray_pkt. split; [apply bytes_okb_ok; reflexivity|]. split; [apply tameb_ok; reflexivity|].
  intros fuel. vm_compute. reflexivity.
Qed.
Print Assumptions C28_reads_only_packet_refuted.

(** And that octet decides whether the packet is accepted. *)
Theorem C28_stray_octet_decides_refuted : exists pkt, bytes_ok pkt /\ forall fuel,
  (exists M, parse_message fuel (pkt ++ [0]) (zlen pkt) = Ok (res_success, M) /\
     map rr_rdata (a_rrs (m_an M)) = [Some [1; 97; 0]]) /\
  (exists e M, parse_message fuel (pkt ++ [255]) (zlen pkt) = Ok (e, M) /\ e <> res_success).
Proof.
  exists stray_pkt. split; [apply bytes_okb_ok; reflexivity|]. intros fuel. split.
  - eexists. split; [vm_compute; reflexivity|]. vm_compute. reflexivity.
  - do 2 eexists. split; [vm_compute; reflexivity|]. discriminate.
Qed.
Print Assumptions C28_stray_octet_decides_refuted.

(** An SVCB record with an alpn parameter of claimed length 65533: the ids are walked over 65533 octets behind the
    rdata, whatever follows the packet. *)
Definition alpn_pkt : bytes := [0;0;129;128;0;0;0;1;0;0;0;0; 0; 0;64;0;1;0;0;0;0;0;7; 0;1;0; 0;1;255;253].
Lemma alpn_overread : forall fuel m val n o, bytes_ok m -> 0 <= val -> 0 <= o -> zlen m - val <= n - 256 -> o < n -> n - o < Z.of_nat fuel ->
  alpn_loop fuel m val n o = UB OobRead.
Proof.
  induction fuel as [|fuel IH]; intros m val n o Hm Hv Ho B L F; [lia|]. cbn [alpn_loop]. replace (o <? n) with true by lia.
  destruct (rd_cases m (val + o)) as [(b & E & Bd)|(E & Bd)]; rewrite E; cbn [bind]; auto.
  pose proof (rd_byte _ _ _ Hm E). apply IH; auto; lia.
Qed.
Theorem C28_alpn_overread_refuted : exists pkt, bytes_ok pkt /\ zlen pkt = 30 /\
  forall fuel x, bytes_ok x -> zlen x <= 65000 -> parse_message (S fuel) (pkt ++ x) 30 = UB OobRead.
Proof.
  exists alpn_pkt. split; [apply bytes_okb_ok; reflexivity|]. split; [reflexivity|]. intros fuel x Hx Lx.
  set (m := alpn_pkt ++ x). assert (Hm : bytes_ok m) by (apply Forall_app; split; [apply bytes_okb_ok; reflexivity|auto]).
  assert (Lm : zlen m = 30 + zlen x) by (unfold m; rewrite zlen_app; reflexivity). pose proof (zlen_nonneg _ x).
  assert (R : forall i b, rd alpn_pkt i = Ok b -> rd m i = Ok b) by (intros i b E; pose proof (rf_rd alpn_pkt x i) as K; rewrite E in K; exact K).
  assert (G : forall i b, get16 alpn_pkt i = Ok b -> get16 m i = Ok b) by (intros i b E; pose proof (rf_get16 alpn_pkt x i) as K; rewrite E in K; exact K).
  assert (G4 : forall i b, get32 alpn_pkt i = Ok b -> get32 m i = Ok b) by (intros i b E; pose proof (rf_get32 alpn_pkt x i) as K; rewrite E in K; exact K).
  assert (P : parse_rdata (S fuel) m 30 64 1 23 7 = UB OobRead).
  { unfold parse_rdata. replace (descr_for 64 1) with (Some [rdf_int16; rdf_name; rdf_svcparams]) by reflexivity.
    cbn [parse_fields]. change (7 =? 0) with false. cbv iota.
    pose proof (rf_field alpn_pkt x (S fuel) (S fuel) 30 rdf_int16 (23, 7, []) ltac:(lia)) as K1.
    replace (parse_field (S fuel) alpn_pkt 30 rdf_int16 (23, 7, [])) with (@Ok pstate (25, 5, [0; 1])) in K1 by reflexivity.
    cbn [rf] in K1. fold m in K1. rewrite K1. cbn [bind]. change (5 =? 0) with false. cbv iota.
    pose proof (rf_field alpn_pkt x (S fuel) (S fuel) 30 rdf_name (25, 5, [0; 1]) ltac:(lia)) as K2.
    replace (parse_field (S fuel) alpn_pkt 30 rdf_name (25, 5, [0; 1])) with (@Ok pstate (26, 4, [0; 1; 0])) in K2 by (vm_compute; reflexivity).
    cbn [rf] in K2. fold m in K2. rewrite K2. cbn [bind]. change (4 =? 0) with false. cbv iota. cbn [parse_field svc_loop].
    change (4 >? 0) with true. change (4 <? 4) with false. cbv iota.
    rewrite (R 26 0), (R (26 + 1) 1), (R (26 + 2) 255), (R (26 + 3) 253) by reflexivity. cbn [bind].
    change ((2 + 2 + be16 255 253) mod 2 ^ 16) with 1. change (1 >? 4) with false. cbv iota.
    unfold svcparam_key_validate. change (be16 0 1 =? 0) with false. change (be16 0 1 =? 1) with true. cbv iota.
    change (be16 255 253) with 65533. change (65533 =? 0) with false. cbv iota.
    rewrite alpn_overread; auto; lia. }
  assert (Q : parse_message_rr (S fuel) 1 m 30 12 = UB OobRead).
  { unfold parse_message_rr.
    pose proof (rf_unpack alpn_pkt x 30 12) as U. replace (unpack_name alpn_pkt 30 12) with (@Ok (list Z * Z) ([0], 1)) in U by (vm_compute; reflexivity).
    cbn [rf] in U. fold m in U. rewrite U.
    pose proof (rf_skip alpn_pkt x 30 12) as K. replace (skip_name alpn_pkt 30 12) with (@Ok Z 13) in K by (vm_compute; reflexivity).
    cbn [rf] in K. fold m in K. rewrite K. cbn [bind].
    change ((13 + 4 >? 30) || (negb (1 =? 0) && (13 + 10 >? 30))) with false. cbv iota.
    rewrite (G 13 64) by reflexivity. cbn [bind]. cbv zeta. rewrite (G (13 + 2) 1) by reflexivity. cbn [bind].
    change (1 =? 0) with false. cbv iota. rewrite (G4 (13 + 2 + 2) 0) by reflexivity. cbn [bind].
    rewrite (G (13 + 2 + 2 + 4) 7) by reflexivity. cbn [bind]. change (13 + 2 + 2 + 4 + 2 + 7 >? 30) with false. cbv iota.
    change (13 + 2 + 2 + 4 + 2) with 23. rewrite P. reflexivity. }
  unfold parse_message. change (30 <? 12) with false. cbv iota.
  rewrite (G 0 0), (G 2 33152), (G 4 0), (G 6 1), (G 8 0), (G 10 0) by reflexivity. cbn [bind].
  cbn [parse_sections]. change (Z.to_nat 0) with 0%nat. change (Z.to_nat 1) with 1%nat. cbn [parse_section bind].
  change (12 =? 30) with false. cbv iota. rewrite Q. reflexivity.
Qed.
Print Assumptions C28_alpn_overread_refuted.

(** ** C29 *)
(** What is stored for an RR depends only on its field values: two packets with the same abstract content, however
    their names are compressed, give the same parsed message. *)
Theorem C29_compression_independent : forall fuel pkt pkt' s, bytes_ok pkt -> bytes_ok pkt' -> 65535 < Z.of_nat fuel ->
  message_at pkt s -> message_at pkt' s -> parse_message fuel pkt (zlen pkt) = parse_message fuel pkt' (zlen pkt').
Proof. intros fuel pkt pkt' s A B Hf C D. rewrite !(message_complete fuel _ s) by auto. reflexivity. Qed.
Print Assumptions C29_compression_independent.

(** The stored rdata is the canonical form (names decompressed, other fields verbatim) and its length, provided that
    form is shorter than 65536 octets. Missing: longer canonical forms, see below. *)
Theorem C29_rdata_canonical_partial : forall fuel pkt s M r vs, bytes_ok pkt -> 65535 < Z.of_nat fuel -> message_at pkt s ->
  parse_message fuel pkt (zlen pkt) = Ok (res_success, M) -> In r (sm_an s ++ sm_ns s ++ sm_ar s) -> s_type r <> 41 ->
  s_data r = Some vs -> zlen (canon vs) < 65536 ->
  exists x, In x (a_rrs (m_an M) ++ a_rrs (m_ns M) ++ a_rrs (m_ar M)) /\
    x = {| rr_name := wire (s_name r); rr_type := s_type r; rr_class := s_class r; rr_ttl := s_ttl r; rr_rdata := Some (canon vs) |}.
Proof.
  intros fuel pkt s M r vs Hm Hf A E I T D L. rewrite (message_complete fuel pkt s Hm Hf A) in E. injection E as <-.
  exists (rr_of r). split.
  - destruct (C19_rr_lists s) as (_ & -> & -> & ->). rewrite <- !map_app. apply in_map. rewrite !in_app_iff in *.
    assert (K : forall k l, In (k, r) l -> In r (in_section k (without_first_opt l))).
    { intros k l. induction l as [|[k' r'] l IH]; intros J; [contradiction|]. cbn [without_first_opt]. unfold is_opt. destruct J as [J|J].
      - injection J as -> ->. replace (s_type r =? 41) with false by lia. unfold in_section. cbn [filter fst]. rewrite Z.eqb_refl. left. reflexivity.
      - destruct (s_type r' =? 41).
        + unfold in_section. apply in_map_iff. exists (k, r). split; auto. apply filter_In. split; auto. apply Z.eqb_refl.
        + unfold in_section in *. cbn [filter fst]. destruct (k' =? k); [right|]; apply IH; auto. }
    assert (J : forall (k : Z) l, In r l -> In (k, r) (map (pair k) l)) by (intros k l X; apply in_map_iff; eauto).
    unfold entries. destruct I as [I|[I|I]]; [left|right; left|right; right]; apply K; rewrite !in_app_iff; auto 10.
  - unfold rr_of. rewrite D. cbn [option_map]. unfold stored.
    rewrite Z.mod_small by (pose proof (zlen_nonneg _ (canon vs)); lia). unfold zlen. rewrite Nat2Z.id, firstn_all. reflexivity.
Qed.
Print Assumptions C29_rdata_canonical_partial.

(** An NXT record with rdlength 65535 whose compressed name expands by one octet: 65536 octets, stored with length 0. *)
Definition big_head : bytes := [0;0;129;128;0;0;0;1;0;0;0;0; 1;97;0; 0;30;0;1;0;0;0;0;255;255; 192;12].
Definition big_tail : bytes := repeat 0 (Z.to_nat 65533).
Definition big_pkt : bytes := big_head ++ big_tail.
Definition big_smsg : smsg :=
  {| sm_id := 0; sm_flags := 33152; sm_qd := []; sm_ns := []; sm_ar := [];
     sm_an := [{| s_name := [[97]]; s_type := 30; s_class := 1; s_ttl := 0; s_data := Some [VName [[97]]; VOctets big_tail] |}] |}.
Lemma big_tail_len : zlen big_tail = 65533.
Proof. unfold big_tail, zlen. rewrite repeat_length, Z2Nat.id; lia. Qed.
Lemma big_tail_zero : forall x, In x big_tail -> x = 0.
Proof. intros x X. apply repeat_spec in X. auto. Qed.
Opaque big_tail.
Lemma big_head_at : forall i l, 0 <= i -> firstn (length l) (skipn (Z.to_nat i) big_head) = l -> i + zlen l <= 27 -> octets_at big_pkt i l.
Proof. intros i l Hi E B. apply octets_at_ext. apply at_intro; auto. Qed.
Lemma big_len : zlen big_pkt = 65560.
Proof. unfold big_pkt. rewrite zlen_app, big_tail_len. reflexivity. Qed.
Lemma big_message : message_at big_pkt big_smsg.
Proof.
  assert (V : valid_label [97]) by (split; [cbv; intuition discriminate|repeat constructor; cbv; discriminate]).
  assert (D : denotes big_pkt 12 [[97]]).
  { apply den_label; auto; [apply big_head_at; [lia|reflexivity|cbv; discriminate]|]. apply den_root. apply big_head_at; [cbv; discriminate|reflexivity|cbv; discriminate]. }
  exists 0, 0, 129, 128, 0, 0, 0, 1, 0, 0, 0, 0, 12, 65560, 65560, 65560.
  split; [apply big_head_at; [lia|reflexivity|cbv; discriminate]|]. cbn [big_smsg sm_id sm_flags sm_qd sm_an sm_ns sm_ar].
  split; [reflexivity|]. split; [reflexivity|]. split; [constructor|]. split; [|split; constructor].
  assert (R : record_at big_pkt 12 {| s_name := [[97]]; s_type := 30; s_class := 1; s_ttl := 0; s_data := Some [VName [[97]]; VOctets big_tail] |} 65548).
  { exists 3, 0, 30, 0, 1, 0, 0, 0, 0, 255, 255, [VName [[97]]; VOctets big_tail]. cbn [s_name s_type s_class s_ttl s_data].
    split.
    - split; [exact D|]. split; [cbv; discriminate|]. change 3 with (1 + zlen [97] + 1). apply ext_label; auto.
      + apply big_head_at; [lia|reflexivity|cbv; discriminate].
      + apply ext_root. apply big_head_at; [cbv; discriminate|reflexivity|cbv; discriminate].
    - split; [apply big_head_at; [lia|reflexivity|cbv; discriminate]|]. split; [reflexivity|]. split; [reflexivity|]. split; [reflexivity|].
      cbv zeta. rewrite big_len. split; [lia|]. change (format_of 30 1) with [FName; FRest]. split; [|split; reflexivity].
      apply ra_name with (e := 2).
      + apply den_ptr with (hi := 192) (lo := 12); [apply big_head_at; [lia|reflexivity|cbv; discriminate]|lia|reflexivity|exact D].
      + cbv. discriminate.
      + apply ext_ptr with (hi := 192) (lo := 12); [|lia]. apply big_head_at; [lia|reflexivity|cbv; discriminate].
      + lia.
      + change (12 + 3 + 10 + 2) with 27. change (255 * 256 + 255 - 2) with 65533.
        refine (ra_octets _ FRest [] 27 65533 big_tail [] _ _ _ _ _); [exact I| |rewrite big_tail_len; lia|intros _; apply big_tail_len|rewrite big_tail_len; constructor].
        exists big_head, []. rewrite app_nil_r. split; reflexivity. }
  change (0 * 256 + 1) with 1. apply en_more with (k := 65548); [lia|rewrite big_len; lia|exact R|]. constructor.
Qed.
Theorem C29_rdata_length_refuted : exists pkt s r vs, bytes_ok pkt /\ message_at pkt s /\ sm_an s = [r] /\ s_data r = Some vs /\
  zlen (canon vs) = 65536 /\
  forall fuel, 65535 < Z.of_nat fuel -> exists M, parse_message fuel pkt (zlen pkt) = Ok (res_success, M) /\ map rr_rdata (a_rrs (m_an M)) = [Some []].
Proof.
  assert (C : zlen (canon [VName [[97]]; VOctets big_tail]) = 65536).
  { unfold canon. cbn [map concat canon1]. rewrite !zlen_app, big_tail_len. reflexivity. }
  exists big_pkt, big_smsg. do 2 eexists. split.
  { apply Forall_app. split; [apply bytes_okb_ok; reflexivity|]. apply Forall_forall. intros x X. apply big_tail_zero in X. subst. cbv. intuition discriminate. }
  split; [exact big_message|]. split; [reflexivity|]. split; [reflexivity|]. split; [exact C|].
  intros fuel Hf. exists (parsed big_smsg). split.
  - apply message_complete; auto using big_message. apply Forall_app. split; [apply bytes_okb_ok; reflexivity|].
    apply Forall_forall. intros x X. apply big_tail_zero in X. subst. cbv. intuition discriminate.
  - destruct (C19_rr_lists big_smsg) as (_ & -> & _ & _).
    change (in_section 1 (without_first_opt (entries big_smsg))) with (sm_an big_smsg). cbn [big_smsg sm_an map rr_of rr_rdata s_data option_map].
    unfold stored. rewrite C. reflexivity.
Qed.
Print Assumptions C29_rdata_length_refuted.

(** ** C30 *)
(** [fills fs d]: the octets [d] are filled by the fields [fs] one after the other; nothing is left over, no field is
    cut; trailing fields may be absent. *)
Inductive fills : list fmt -> bytes -> Prop :=
| fl_end : forall fs, fills fs []
| fl_field : forall f fs l d, field_octets f l -> l <> [] -> (to_end f = true -> d = []) -> fills fs d -> fills (f :: fs) (l ++ d).

(** A message with one answer RR. *)
Definition one_answer (ls : lname) (t c ttl : Z) (d : bytes) : bytes :=
  [0;0;0;0;0;0;0;1;0;0;0;0] ++ wire ls ++ (u16 t ++ u16 c ++ u32 ttl ++ u16 (zlen d)) ++ d.

Lemma fills_rdata : forall m fs i n vs, ~ In FName fs -> rdata_at m fs i n vs -> fills fs (canon vs) /\ octets_at m i (canon vs) /\ zlen (canon vs) = n \/ (n = 0 /\ vs = []).
Proof.
  intros m fs i n vs NF R. induction R as [fs i|fs i n ls e vs D L X N R IH|f fs i n l vs F O B T R IH].
  - right. auto.
  - exfalso. apply NF. left. reflexivity.
  - left. assert (NF' : ~ In FName fs) by (intros K; apply NF; right; auto). rewrite canon_cons. cbn [canon1].
    assert (Te : to_end f = true -> canon vs = []).
    { intros Te. specialize (T Te). assert (E : n - zlen l = 0) by lia. rewrite E in R. inversion R; subst; auto; [|lia].
      pose proof (extent_pos _ _ _ H1). lia. }
    destruct (IH NF') as [(A & C & E)|(E & ->)].
    + split; [apply fl_field; auto; intros ->; cbn in B; lia|]. split; [apply octets_at_app; auto|]. rewrite zlen_app. lia.
    + cbn [canon map concat]. rewrite app_nil_r. split; [|split; auto; lia]. rewrite <- (app_nil_r l).
      apply fl_field; auto; [intros ->; cbn in B; lia|constructor].
Qed.
Lemma rdata_fills : forall fs d, fills fs d -> forall m i, octets_at m i d -> exists vs, rdata_at m fs i (zlen d) vs.
Proof.
  induction 1 as [fs|f fs l d F Ne T Fi IH]; intros m i O; [eexists; constructor|].
  apply octets_at_app in O as [O1 O2]. destruct (IH m _ O2) as (vs & R). exists (VOctets l :: vs). rewrite zlen_app.
  pose proof (zlen_pos l Ne). pose proof (zlen_nonneg _ d). apply ra_octets; auto; try lia.
  - intros Te. rewrite (T Te). change (zlen (@nil Z)) with 0. lia.
  - replace (zlen l + zlen d - zlen l) with (zlen d) by lia. auto.
Qed.

(** For types without name fields: accepted exactly if the fields fill the rdata. *)
Theorem C30_accepts_iff_fields_fill : forall fuel ls t c ttl d, valid_name ls -> 0 <= t < 65536 -> 0 <= c < 65536 -> 0 <= ttl < 2 ^ 32 ->
  bytes_ok d -> zlen d < 65536 -> ~ In FName (format_of t c) -> 65535 < Z.of_nat fuel ->
  ((exists M, parse_message fuel (one_answer ls t c ttl d) (zlen (one_answer ls t c ttl d)) = Ok (res_success, M)) <-> fills (format_of t c) d).
Proof.
  intros fuel ls t c ttl d [V L] Ht Hc Httl Hd Ld NF Hf. set (m := one_answer ls t c ttl d).
  pose proof (zlen_nonneg _ d) as Pd.
  assert (Hm : bytes_ok m).
  { unfold m, one_answer, bytes_ok. rewrite !Forall_app. repeat split; try (apply u16_bytes; lia); auto; [apply bytes_okb_ok; reflexivity|apply wire_bytes; auto|apply u32_bytes; auto]. }
  pose proof (octets_at_self m) as O. unfold m in O at 2. unfold one_answer in O. apply octets_at_app in O as [O0 O].
  change (0 + zlen [0;0;0;0;0;0;0;1;0;0;0;0]) with 12 in O. apply octets_at_app in O as [O1 O]. apply octets_at_app in O as [O2 O3].
  change (zlen (u16 t ++ u16 c ++ u32 ttl ++ u16 (zlen d))) with 10 in O3. set (e := zlen (wire ls)) in *.
  assert (Lm : zlen m = 12 + e + 10 + zlen d). { unfold m, one_answer. rewrite !zlen_app. change (zlen (u16 t)) with 2. change (zlen (u16 c)) with 2. change (zlen (u32 ttl)) with 4. change (zlen (u16 (zlen d))) with 2. change (zlen [0;0;0;0;0;0;0;1;0;0;0;0]) with 12. unfold e. lia. }
  destruct (owner_wire ls m 12 (conj V L) O1) as (D & _ & X). fold e in X. pose proof (extent_pos _ _ _ X) as Pe.
  split.
  - intros (M & E). rewrite (parse_message_unfold _ _ _ _ _ _ _ _ _ _ _ _ _ _ O0) in E by lia. cbn [parse_sections] in E.
    change (Z.to_nat (0 * 256 + 0)) with 0%nat in E. change (Z.to_nat (0 * 256 + 1)) with 1%nat in E. cbn [parse_section bind] in E.
    replace (12 =? zlen m) with false in E by lia.
    destruct (parse_message_rr fuel 1 m (zlen m) 12) as [[r k]|er|f|] eqn:P; try discriminate.
    + unfold parse_message_rr in P. destruct (owner_ok m 12 ls e Hm (conj D (conj L X))) as (U & K & _). rewrite U, K in P. cbn [bind] in P.
      replace ((12 + e + 4 >? zlen m) || negb (1 =? 0) && (12 + e + 10 >? zlen m)) with false in P by lia.
      destruct (fixed10 _ _ _ _ _ _ _ _ _ _ _ _ O2) as (G1 & G2 & G3 & G4). rewrite G1, G2 in P. cbn [bind] in P. change (1 =? 0) with false in P. cbv iota in P.
      rewrite G3 in P. cbn [bind] in P. rewrite G4 in P. cbn [bind] in P. rewrite !u16_val in P.
      replace (12 + e + 2 + 2 + 4 + 2 + zlen d >? zlen m) with false in P by lia. replace (12 + e + 2 + 2 + 4 + 2) with (12 + e + 10) in P by lia.
      rewrite bind_ok in P. destruct P as (dd & P & _). apply parse_rdata_sound in P; auto; try lia.
      * destruct P as (vs & R & _). apply fills_rdata in R; auto. destruct R as [(F & O4 & E4)|(E4 & ->)].
        -- rewrite (octets_at_det _ _ _ _ O3 O4) by lia. auto.
        -- assert (d = []) as -> by (apply zlen_zero; lia). constructor.
      * intros ([-> | ->] & ->); exfalso; apply NF; cbn; auto.
    + injection E as E _. pose proof (ne_rr fuel 1 m (zlen m) 12) as N. rewrite P in N. rewrite E in N. cbn in N. intuition discriminate.
  - intros F. destruct (rdata_fills _ _ F m (12 + e + 10) O3) as (vs & R).
    set (r := {| s_name := ls; s_type := t; s_class := c; s_ttl := ttl; s_data := Some vs |}).
    exists (parsed {| sm_id := 0; sm_flags := 0; sm_qd := []; sm_an := [r]; sm_ns := []; sm_ar := [] |}).
    apply message_complete; auto.
    exists 0, 0, 0, 0, 0, 0, 0, 1, 0, 0, 0, 0, 12, (12 + (e + 10 + zlen d)), (12 + (e + 10 + zlen d)), (12 + (e + 10 + zlen d)).
    split; [exact O0|]. cbn [sm_id sm_flags sm_qd sm_an sm_ns sm_ar]. split; [reflexivity|]. split; [reflexivity|]. split; [constructor|].
    split; [|split; constructor]. change (0 * 256 + 1) with 1. eapply en_more; [lia|lia| |constructor].
    exists e. do 10 eexists. exists vs. split; [split; [exact D|split; [exact L|exact X]]|]. split; [exact O2|]. cbn [s_type s_class s_ttl s_data r].
    rewrite !u16_val, u32_val. cbv zeta. repeat (split; [first [reflexivity|exact R|lia]|]). reflexivity.
Qed.
Print Assumptions C30_accepts_iff_fields_fill.

(** Consequences in numbers: fixed-size types. *)
Lemma fills_fixed1 : forall n d, 0 < n -> (fills [FFixed n] d <-> d = [] \/ zlen d = n).
Proof.
  intros n d Hn. split.
  - intros F. inversion F as [|f fs l d' Fo Ne T F']; subst; auto. right. inversion F'; subst. rewrite app_nil_r. exact Fo.
  - intros [-> |E]; [constructor|]. rewrite <- (app_nil_r d). apply fl_field; [exact E|intros ->; rewrite zlen_nil in E; lia|auto|constructor].
Qed.
Theorem C30_a_record_length : forall fuel ls ttl d, valid_name ls -> 0 <= ttl < 2 ^ 32 -> bytes_ok d -> zlen d < 65536 -> 65535 < Z.of_nat fuel ->
  ((exists M, parse_message fuel (one_answer ls 1 1 ttl d) (zlen (one_answer ls 1 1 ttl d)) = Ok (res_success, M)) <-> d = [] \/ zlen d = 4).
Proof.
  intros fuel ls ttl d V Ht Hd Ld Hf. rewrite C30_accepts_iff_fields_fill; auto; try lia.
  - apply fills_fixed1. lia.
  - cbn. intuition discriminate.
Qed.
Print Assumptions C30_a_record_length.
Example C30_ex : forall fuel, (exists M, parse_message fuel (one_answer [[97]] 1 1 5 [1;2;3;4]) (zlen (one_answer [[97]] 1 1 5 [1;2;3;4])) = Ok (res_success, M)) /\
  (exists M, parse_message fuel (one_answer [[97]] 1 1 5 [1;2;3]) (zlen (one_answer [[97]] 1 1 5 [1;2;3])) = Ok (res_parse_error, M)) /\
  (exists M, parse_message fuel (one_answer [[97]] 1 1 5 [1;2;3;4;5]) (zlen (one_answer [[97]] 1 1 5 [1;2;3;4;5])) = Ok (res_out_of_bounds, M)).
Proof. intros fuel. repeat split; eexists; vm_compute; reflexivity. Qed.

(** In any tame packet, every RR listed by a successful parse fills its rdata: rdlength octets, field by field. *)
Theorem C30_every_record_fills_partial : forall fuel pkt M, bytes_ok pkt -> tame pkt -> 65535 < Z.of_nat fuel ->
  parse_message fuel pkt (zlen pkt) = Ok (res_success, M) ->
  exists s, M = parsed s /\ forall r, In r (sm_an s ++ sm_ns s ++ sm_ar s) -> exists i n, record_at pkt i r n.
Proof.
  intros fuel pkt M Hm T Hf E. destruct (C19_accepts_only_grammar_partial _ _ _ Hm T Hf E) as (s & A & ->). exists s. split; auto.
  destruct A as (i0 & i1 & f0 & f1 & q0 & q1 & a0 & a1 & n0 & n1 & r0 & r1 & j1 & j2 & j3 & j4 & O & _ & _ & _ & E2 & E3 & E4).
  assert (K : forall sec i n rs j, sec <> 0 -> entries_at sec pkt i n rs j -> forall r, In r rs -> exists i n, record_at pkt i r n).
  { intros sec i n rs j Hs En. induction En as [i|n Hn|i n x k rs j Hn Hi R En IH]; intros r I; try contradiction.
    destruct I as [<- |I]; [|auto]. unfold entry_at in R. replace (sec =? 0) with false in R by lia. eauto. }
  intros r I. rewrite !in_app_iff in I. destruct I as [I|[I|I]].
  - eapply (K 1); [discriminate|exact E2|exact I].
  - eapply (K 2); [discriminate|exact E3|exact I].
  - eapply (K 3); [discriminate|exact E4|exact I].
Qed.
Print Assumptions C30_every_record_fills_partial.

(** ** C37 *)
Theorem C37_compare_exact : forall r s, compare_rr_rrset r s = true <->
  lower_octets (rr_name r) = lower_octets (rs_name s) /\ rr_type r = rs_type s /\ rr_class r = rs_class s.
Proof. intros r s. rewrite compare_belongs. apply belongs_iff. Qed.
Print Assumptions C37_compare_exact.

(** For wire names: equal label sequences up to ASCII case. *)
Lemma app_inv_length : forall (a b c d : list Z), length a = length c -> a ++ b = c ++ d -> a = c /\ b = d.
Proof. induction a as [|x a IH]; intros b [|y c] d L E; try discriminate; auto. injection E as -> E. injection L as L. apply IH in E; auto. destruct E as [-> ->]. auto. Qed.
Theorem C37_compare_names : forall r s a b, valid_labels a -> valid_labels b -> rr_name r = wire a -> rs_name s = wire b ->
  (compare_rr_rrset r s = true <-> lower_name a = lower_name b /\ rr_type r = rs_type s /\ rr_class r = rs_class s).
Proof.
  intros r s a b Va Vb Ea Eb. rewrite C37_compare_exact, Ea, Eb.
  assert (lower_octets (wire a) = lower_octets (wire b) <-> lower_name a = lower_name b) as K; [|rewrite K; tauto].
  assert (forall ls, valid_labels ls -> lower_octets (wire ls) = wire (lower_name ls)) as W.
  { induction 1 as [|l ls [Bl _] V IH]; [reflexivity|]. change (lower_name (l :: ls)) with (lower_label l :: lower_name ls). rewrite !wire_cons.
    unfold lower_octets in *. cbn [map]. rewrite map_app, IH. unfold lower_octet at 1. replace ((65 <=? zlen l) && (zlen l <=? 90)) with false by lia.
    unfold lower_label at 1. unfold zlen at 2. rewrite map_length. reflexivity. }
  rewrite !W by auto. split; [|congruence]. clear.
  revert b. induction a as [|x a IH]; intros [|y b] E; auto.
  - exfalso. change (lower_name (y :: b)) with (lower_label y :: lower_name b) in E. rewrite wire_cons in E. change (wire (lower_name [])) with [0] in E. injection E as E1 E2. symmetry in E2. apply app_eq_nil in E2 as [_ E2]. apply app_eq_nil in E2 as [_ E2]. discriminate.
  - exfalso. change (lower_name (x :: a)) with (lower_label x :: lower_name a) in E. rewrite wire_cons in E. change (wire (lower_name [])) with [0] in E. injection E as E1 E2. apply app_eq_nil in E2 as [_ E2]. apply app_eq_nil in E2 as [_ E2]. discriminate.
  - change (lower_name (x :: a)) with (lower_label x :: lower_name a) in *. change (lower_name (y :: b)) with (lower_label y :: lower_name b) in *.
    rewrite !wire_cons in E. injection E as E1 E2. assert (length (lower_label x) = length (lower_label y)) as L by (unfold zlen in E1; lia).
    apply app_inv_length in E2; auto. destruct E2 as [-> E2]. f_equal. apply IH. auto.
Qed.
Print Assumptions C37_compare_names.

(** Changing the case of either name changes nothing. *)
Theorem C37_case_invariant : forall r r' s s', lower_octets (rr_name r) = lower_octets (rr_name r') -> rr_type r = rr_type r' -> rr_class r = rr_class r' ->
  lower_octets (rs_name s) = lower_octets (rs_name s') -> rs_type s = rs_type s' -> rs_class s = rs_class s' ->
  compare_rr_rrset r s = compare_rr_rrset r' s'.
Proof. intros. apply eq_true_iff_eq. rewrite !C37_compare_exact. intuition congruence. Qed.
Print Assumptions C37_case_invariant.
Example C37_ex : compare_rr_rrset {| rr_name := [1;65;0]; rr_type := 1; rr_class := 1; rr_ttl := 9; rr_rdata := None |} ex_set = true /\
  compare_rr_rrset {| rr_name := [1;66;0]; rr_type := 1; rr_class := 1; rr_ttl := 9; rr_rdata := None |} ex_set = false.
Proof. split; reflexivity. Qed.
