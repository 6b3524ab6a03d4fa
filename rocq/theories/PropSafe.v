(** PropSafe.v: C50-C52, C55, C58, C62: printing rdata, EDNS options, RRs and messages. Spec: SpecText.v, SpecMsgText.v. *)
From Coq Require Strings.String.
From Verif Require Import Base Lib ModelName SpecName SpecMessage SpecEncode SpecParsed SpecFormat SpecTables SpecText SpecMsgText Libc ModelFormat ModelTables ModelDescr ModelParse ModelToStr.
From Verif Require Import ProofCopy ProofGroup ProofMessage ProofRdata ProofSafe ProofSafe2 ProofOptions ProofMsgText PropParse.

(** ** C50: memory safety of rdata printing. The memory given to the function is exactly the rdata, so any read behind it is
    undefined behaviour in the model. *)

(** Safe, and printable, for all octets, types and classes, unless the rdata stops inside a name (missing). *)
Theorem C50_rdata_safe_partial : forall l t c, bytes_ok l -> zlen l < 65536 -> t <> 41 -> ~ ends_in_name (format_of t c) l ->
  exists s, rdata_to_str l (zlen l) t c = Ok s /\ printable s.
Proof.
  intros l t c B L N NE. destruct (rdata_safe [] l [] t c N ltac:(constructor) B ltac:(constructor) L NE) as (s & E & P). rewrite app_nil_r in E. eauto.
Qed.
Print Assumptions C50_rdata_safe_partial.
(** Types without a name in their rdata, and unknown types: always safe. *)
Theorem C50_no_names : forall l t c, bytes_ok l -> zlen l < 65536 -> t <> 41 -> ~ In FName (format_of t c) -> exists s, rdata_to_str l (zlen l) t c = Ok s /\ printable s.
Proof.
  intros l t c B L N F. apply C50_rdata_safe_partial; auto. intros (b & a & vs & ls & E & _). apply F. rewrite E. apply in_app_iff. right. left. auto.
Qed.
Print Assumptions C50_no_names.
(** Rdata that is well-formed (as the parser delivers it): always safe. *)
Theorem C50_well_formed : forall t c vs, wf_values (format_of t c) vs -> zlen (canon vs) < 65536 -> t <> 41 -> exists s, rdata_to_str (canon vs) (zlen (canon vs)) t c = Ok s /\ printable s.
Proof. intros t c vs W L N. apply C50_rdata_safe_partial; auto; [eapply canon_ok; eauto|apply wf_not_cut_of; auto]. Qed.
Print Assumptions C50_well_formed.
(** Rdata that stops inside a name: the octet behind it is read, in every case. *)
Theorem C50_truncated_name_refuted : forall l t c, bytes_ok l -> zlen l < 65536 -> ends_in_name (format_of t c) l -> rdata_to_str l (zlen l) t c = UB OobRead.
Proof. intros l t c B L E. apply rdata_cut; auto. Qed.
Print Assumptions C50_truncated_name_refuted.
Example C50_ex :
  ends_in_name (format_of 2 1) [1; 97] /\ rdata_to_str [1; 97] 2 2 1 = UB OobRead /\
  ~ ends_in_name (format_of 2 1) [5; 97] /\ rdata_to_str [5; 97] 2 2 1 = Ok (lit " ### PARSE ERROR #3 ###") /\
  rdata_to_str [0; 10; 3] 3 33 1 = Ok (lit "10  ### PARSE ERROR ###").
Proof.
  assert (V : forall ls, valid_labels ls -> prewire ls = [5; 97] -> False).
  { intros [|l ls] V E; [discriminate|]. inversion V as [|? ? [V1 _] _]; subst. change (prewire (l :: ls)) with (zlen l :: l ++ prewire ls) in E. injection E as E1 E2.
    assert (zlen (l ++ prewire ls) = 1) by (rewrite E2; reflexivity). rewrite zlen_app in H. pose proof (zlen_nonneg _ (prewire ls)). lia. }
  split. { exists [], [], [], [[97]]. split; [reflexivity|]. split; [constructor|]. split; [repeat constructor; cbv; intuition discriminate|]. split; [discriminate|]. split; reflexivity. }
  split; [vm_compute; reflexivity|]. split; [|split; vm_compute; reflexivity].
  intros (b & a & vs & ls & E & F & VL & N & _ & K). change (format_of 2 1) with [FName] in E. destruct b as [|f b]; [|destruct b; discriminate]. inversion F; subst. cbn [canon map concat app] in K. eapply V; eauto.
Qed.

(** ** C51: printing parsed messages *)

(** Every RR of every section, every RRset of the answer, authority and additional sections and the message itself. The
    parser's 16-bit length field must hold the length of each record's uncompressed rdata; missing: longer rdata, the
    RRsets of the question section, and packets excluded by [tame] (SpecMessage). *)
Theorem C51_parsed_safe_partial : forall fuel pkt M, bytes_ok pkt -> tame pkt -> 65535 < Z.of_nat fuel -> parse_message fuel pkt (zlen pkt) = Ok (res_success, M) ->
  (forall s r vs, message_at pkt s -> In r (sm_an s ++ sm_ns s ++ sm_ar s) -> s_data r = Some vs -> zlen (canon vs) < 65536) ->
  (exists t, message_to_str M = Ok t) /\
  (forall r, In r (a_rrs (m_qd M)) -> exists t, rr_to_str r 0 = Ok t) /\
  (forall r sec, In r (a_rrs (m_an M) ++ a_rrs (m_ns M) ++ a_rrs (m_ar M)) -> exists t, rr_to_str r sec = Ok t) /\
  (forall x sec, sec <> 0 -> In x (a_rrsets (m_an M) ++ a_rrsets (m_ns M) ++ a_rrsets (m_ar M)) -> exists t, rrset_to_str x sec = Ok t) /\
  (exists t, rrset_array_to_str (m_qd M) 0 = Ok t) /\
  (forall sec, (exists t, rrset_array_to_str (m_an M) sec = Ok t) /\ (exists t, rrset_array_to_str (m_ns M) sec = Ok t) /\ (exists t, rrset_array_to_str (m_ar M) sec = Ok t)).
Proof.
  intros fuel pkt M B T F E SZ. destruct (message_sound _ _ _ _ B T F E) as [(_ & s & MA & ->)|[(_ & R & _)|(_ & R & _)]]; [|discriminate|cbn in R; intuition discriminate].
  destruct (message_good pkt s B MA) as (G & _).
  assert (FI : forall k r, In (k, r) (entries s) -> fits r).
  { intros k r I vs D. rewrite Forall_forall in G. pose proof (G _ I) as (_ & _ & _ & W). unfold entries in I. rewrite !in_app_iff in I. destruct (Z.eq_dec k 0) as [-> |K]; [destruct W as [_ W]; congruence|].
    apply (SZ s r vs MA); auto. rewrite !in_app_iff. destruct I as [I|[I|[I|I]]]; apply in_map_iff in I as (x & X & I); injection X as <- <-; [congruence|auto..]. }
  assert (RO : forall k u r sec, In r (in_section k (without_first_opt (entries s))) -> sec = 0 \/ k <> 0 -> exists t, rr_to_ubuf u (rr_of r) sec = Ok t).
  { intros k u r sec I S. apply in_section_in, in_without in I. rewrite Forall_forall in G. eapply rr_of_ok; eauto. }
  assert (SS : forall k sec, sec = 0 \/ k <> 0 -> exists t, rrs_to_ubuf [] (map rr_of (in_section k (without_first_opt (entries s)))) sec = Ok t).
  { intros k sec S. apply rrs_ok. intros u x I. apply in_map_iff in I as (r & <- & I). eauto. }
  assert (RS : forall k x sec, k <> 0 -> sec <> 0 -> In x (a_rrsets (section_of (in_section k (without_first_opt (entries s))))) -> exists t, rrset_to_str x sec = Ok t).
  { intros k x sec K S. apply (rrset_ok k); auto. apply Forall_forall. intros r I. apply in_section_in, in_without in I. rewrite Forall_forall in G. split; eauto. }
  split; [apply message_ok; auto|].
  split. { intros r I. change (a_rrs (m_qd (parsed s))) with (map rr_of (in_section 0 (without_first_opt (entries s)))) in I. apply in_map_iff in I as (x & <- & I). eapply RO; eauto. }
  split. { intros r sec I. rewrite !in_app_iff in I. destruct I as [I|[I|I]]; apply in_map_iff in I as (x & <- & I); eapply RO; eauto; right; discriminate. }
  split. { intros x sec S I. rewrite !in_app_iff in I. destruct I as [I|[I|I]]; (eapply RS; [|exact S|exact I]); discriminate. }
  split; [apply SS; auto|]. intros sec. split; [apply SS; right; discriminate|]. split; apply SS; right; discriminate.
Qed.
Print Assumptions C51_parsed_safe_partial.

(** The RRset of a question has no rdata; printing it as such dereferences the null pointer. *)
Theorem C51_question_rrset_refuted : forall rs x, In x (a_rrsets (question_of rs)) -> rrset_to_str x 0 = UB NullDeref.
Proof. intros rs x I. unfold question_of in I. cbn [a_rrsets] in I. apply in_map_iff in I as (r & <- & _). reflexivity. Qed.
Print Assumptions C51_question_rrset_refuted.
Definition ask : bytes := [0;0;1;0;0;1;0;0;0;0;0;0; 1;97;0; 0;1;0;1].
Example C51_question_ex : exists M, parse_message (Z.to_nat 70000) ask (zlen ask) = Ok (res_success, M) /\ map (fun x => rrset_to_str x 0) (a_rrsets (m_qd M)) = [UB NullDeref] /\
  message_to_str M = Ok (lit ";; ->>HEADER<<- opcode: QUERY, rcode: NOERROR, id: 0
;; flags: rd; QUERY: 1, ANSWER: 0, AUTHORITY: 0, ADDITIONAL: 0

;; QUESTION SECTION:
;a. IN A

;; ANSWER SECTION:

;; AUTHORITY SECTION:

;; ADDITIONAL SECTION:
").
Proof. eexists. split; [vm_compute; reflexivity|]. split; vm_compute; reflexivity. Qed.

(** An NXT record whose uncompressed rdata has 65538 octets: the stored length is 2, and the two octets stop inside a name. *)
Definition big_head : bytes := [0;0;129;128;0;0;0;1;0;0;0;0; 1;97;1;98;0; 0;30;0;1;0;0;0;0;255;255; 192;12].
Definition big_tail : bytes := repeat 0 (Z.to_nat 65533).
Definition big_pkt : bytes := big_head ++ big_tail.
Definition big_name : lname := [[97]; [98]].
Definition big_data : list fval := [VName big_name; VOctets big_tail].
Definition big_rr : srr := {| s_name := big_name; s_type := 30; s_class := 1; s_ttl := 0; s_data := Some big_data |}.
Definition big_smsg : smsg := {| sm_id := 0; sm_flags := 33152; sm_qd := []; sm_ns := []; sm_ar := []; sm_an := [big_rr] |}.
Lemma big_tail_len : zlen big_tail = 65533.
Proof. unfold big_tail, zlen. rewrite repeat_length, Z2Nat.id; lia. Qed.
Lemma big_tail_zero : forall x, In x big_tail -> x = 0.
Proof. intros x X. apply repeat_spec in X. auto. Qed.
Opaque big_tail.
Lemma big_head_at : forall i l, 0 <= i -> firstn (length l) (skipn (Z.to_nat i) big_head) = l -> i + zlen l <= 29 -> octets_at big_pkt i l.
Proof. intros i l Hi E B. apply octets_at_ext. apply at_intro; auto. Qed.
Lemma big_len : zlen big_pkt = 65562.
Proof. unfold big_pkt. rewrite zlen_app, big_tail_len. reflexivity. Qed.
Lemma big_ok : bytes_ok big_pkt.
Proof. apply Forall_app. split; [apply bytes_okb_ok; reflexivity|]. apply Forall_forall. intros x X. apply big_tail_zero in X. subst. cbv. intuition discriminate. Qed.
Ltac bha := apply big_head_at; [cbv; discriminate|reflexivity|cbv; discriminate].
Lemma big_message : message_at big_pkt big_smsg.
Proof.
  assert (V : forall c, 0 <= c < 256 -> valid_label [c]) by (intros c C; split; [cbv; intuition discriminate|constructor; [exact C|constructor]]).
  pose proof (V 97 ltac:(lia)) as Va. pose proof (V 98 ltac:(lia)) as Vb.
  assert (D : denotes big_pkt 12 big_name).
  { apply den_label; auto; [bha|]. change (12 + 1 + zlen [97]) with 14. apply den_label; auto; [bha|]. change (14 + 1 + zlen [98]) with 16. apply den_root. bha. }
  exists 0, 0, 129, 128, 0, 0, 0, 1, 0, 0, 0, 0, 12, 65562, 65562, 65562.
  split; [bha|]. cbn [big_smsg sm_id sm_flags sm_qd sm_an sm_ns sm_ar].
  split; [reflexivity|]. split; [reflexivity|]. split; [constructor|]. split; [|split; constructor].
  assert (R : record_at big_pkt 12 big_rr 65550).
  { exists 5, 0, 30, 0, 1, 0, 0, 0, 0, 255, 255, big_data. cbn [big_rr s_name s_type s_class s_ttl s_data].
    split.
    - split; [exact D|]. split; [cbv; discriminate|]. change 5 with (1 + zlen [97] + (1 + zlen [98] + 1)). apply ext_label; auto; [bha|]. change (12 + 1 + zlen [97]) with 14. apply ext_label; auto; [bha|]. apply ext_root. bha.
    - split; [bha|]. split; [reflexivity|]. split; [reflexivity|]. split; [reflexivity|].
      cbv zeta. rewrite big_len. split; [lia|]. change (format_of 30 1) with [FName; FRest]. split; [|split; reflexivity].
      apply ra_name with (e := 2).
      + apply den_ptr with (hi := 192) (lo := 12); [bha|lia|reflexivity|exact D].
      + cbv. discriminate.
      + apply ext_ptr with (hi := 192) (lo := 12); [|lia]. bha.
      + lia.
      + change (12 + 5 + 10 + 2) with 29. change (255 * 256 + 255 - 2) with 65533.
        refine (ra_octets _ FRest [] 29 65533 big_tail [] _ _ _ _ _); [exact I| |rewrite big_tail_len; lia|intros _; apply big_tail_len|rewrite big_tail_len; constructor].
        exists big_head, []. rewrite app_nil_r. split; reflexivity. }
  change (0 * 256 + 1) with 1. apply en_more with (k := 65550); [lia|rewrite big_len; lia|exact R|]. constructor.
Qed.
Lemma bytes_text_over : forall src len, zlen src < len -> bytes_ok src -> bytes_text src len = UB OobRead.
Proof.
  induction src as [|c src IH]; intros len H B; cbn [bytes_text]; [change (zlen (@nil Z)) with 0 in H; replace (len =? 0) with false by lia; auto|]. rewrite zlen_cons in H. pose proof (zlen_nonneg _ src).
  replace (len =? 0) with false by lia. apply bytes_ok_cons in B as [Bc B]. change (c :: src) with ([c] ++ src). unfold hex1. rewrite IH by (auto; lia).
  destruct (bytes_to_hex_str ([c] ++ src) 1 true 3) as [[t k]|e|f|] eqn:X; try reflexivity; exfalso.
  - pose proof (ProofPrint.hex1_spec true 3 c src) as K. unfold hex1 in K. change ([c] ++ src) with (c :: src) in X. rewrite X in K. cbn [bind] in K. specialize (K Bc ltac:(lia)). discriminate.
  - pose proof (ProofPrint.hex1_spec true 3 c src) as K. unfold hex1 in K. change ([c] ++ src) with (c :: src) in X. rewrite X in K. cbn [bind] in K. specialize (K Bc ltac:(lia)). congruence.
  - pose proof (ProofPrint.hex1_spec true 3 c src) as K. unfold hex1 in K. change ([c] ++ src) with (c :: src) in X. rewrite X in K. cbn [bind] in K. specialize (K Bc ltac:(lia)). congruence.
Qed.
(** The parser accepts the packet; the message and the RR cannot be printed, whether the memory behind the record is taken
    to be its declared length or the whole block allocated for it. *)
Lemma long_print : forall T, bytes_ok T -> zlen T = 65533 -> rdata_to_str ([1; 97; 1; 98; 0] ++ T) 2 30 1 = UB OobRead.
Proof.
  intros T B L. unfold rdata_to_str, rdata_to_ubuf. change (lookup_descr 30) with (Some {| d_class := class_un; d_types := [rdf_name; rdf_bytes] |}). cbv iota. change (negb _) with false. cbv iota. cbn [d_types fields_text].
  change (2 =? 0) with false. cbv iota. cbn [field_text].
  assert (LU : len_uname ([1; 97; 1; 98; 0] ++ T) 2 = Ok 3) by reflexivity. rewrite LU.
  assert (DS : domain_to_str ([1; 97; 1; 98; 0] ++ T) 3 = Ok ([97; 46; 46], 5)) by reflexivity. rewrite DS. cbn [bind emit].
  change (2 - 3 =? 0) with false. cbv iota. change ((2 - 3) mod 2 ^ 64) with 18446744073709551615. change (adv ([1; 97; 1; 98; 0] ++ T) 3) with ([98; 0] ++ T).
  rewrite bytes_text_over; [reflexivity|rewrite zlen_app, L; reflexivity|]. apply Forall_app. split; [apply bytes_okb_ok; reflexivity|auto].
Qed.
Lemma long_canon : forall T, canon [VName [[97]; [98]]; VOctets T] = [1; 97; 1; 98; 0] ++ T.
Proof. intros T. unfold canon. cbn [map concat canon1]. rewrite app_nil_r. reflexivity. Qed.
Lemma long_first : forall T, firstn 2 ([1; 97; 1; 98; 0] ++ T) = [1; 97].
Proof. reflexivity. Qed.
Lemma big_canon : zlen (canon big_data) = 65538.
Proof. unfold big_data, big_name. rewrite long_canon, zlen_app, big_tail_len. reflexivity. Qed.
Lemma big_stored : stored big_data = [1; 97].
Proof. unfold stored. rewrite big_canon. unfold big_data, big_name. rewrite long_canon. apply long_first. Qed.
Definition big_made : rr := {| rr_name := wire big_name; rr_type := 30; rr_class := 1; rr_ttl := 0; rr_rdata := Some [1; 97] |}.
Lemma big_rr_of : rr_of big_rr = big_made.
Proof. unfold rr_of, big_made. cbn [big_rr s_data option_map s_name s_type s_class s_ttl]. rewrite big_stored. reflexivity. Qed.
Lemma big_printed : forall u, rr_to_ubuf u big_made 1 = UB OobRead.
Proof.
  intros u. unfold big_made. rewrite (rr_record u _ 1 (lit "a.b.") 5) by (cbn [rr_ttl]; first [lia|vm_compute; reflexivity|split; [lia|reflexivity]]). cbn [rr_rdata rr_type rr_class].
  rewrite rdata_cut; [reflexivity|apply bytes_okb_ok; reflexivity|reflexivity|].
  exists [], [FRest], [], [[97]]. split; [reflexivity|]. split; [constructor|]. split; [repeat constructor; cbv; intuition discriminate|]. split; [discriminate|]. split; reflexivity.
Qed.
Lemma one_answer : forall r, s_type r <> 41 -> a_rrs (m_an (parsed {| sm_id := 0; sm_flags := 33152; sm_qd := []; sm_ns := []; sm_ar := []; sm_an := [r] |})) = [rr_of r] /\
  a_rrs (m_qd (parsed {| sm_id := 0; sm_flags := 33152; sm_qd := []; sm_ns := []; sm_ar := []; sm_an := [r] |})) = [] /\
  m_edns (parsed {| sm_id := 0; sm_flags := 33152; sm_qd := []; sm_ns := []; sm_ar := []; sm_an := [r] |}) = edns_of None.
Proof.
  intros r N. assert (Q : is_opt r = false) by (unfold is_opt; lia). unfold parsed, parsed_entries, entries. cbn [sm_id sm_flags sm_qd sm_an sm_ns sm_ar map app first_opt without_first_opt]. rewrite Q. split; [reflexivity|]. split; reflexivity.
Qed.
Lemma big_answer : a_rrs (m_an (parsed big_smsg)) = [big_made] /\ a_rrs (m_qd (parsed big_smsg)) = [] /\ m_edns (parsed big_smsg) = edns_of None.
Proof. rewrite <- big_rr_of. apply one_answer. discriminate. Qed.
Lemma answer_bad : forall M r, a_rrs (m_an M) = [r] -> a_rrs (m_qd M) = [] -> m_edns M = edns_of None -> (forall u, rr_to_ubuf u r 1 = UB OobRead) -> message_to_str M = UB OobRead.
Proof.
  intros M r A1 A2 A3 P. unfold message_to_str. rewrite A3. cbn [edns_text edns_of e_present negb bind]. unfold rrset_array_to_ubuf. rewrite A2, A1. cbn [rrs_to_ubuf bind]. rewrite P. reflexivity.
Qed.
Lemma big_text : message_to_str (parsed big_smsg) = UB OobRead.
Proof. destruct big_answer as (A1 & A2 & A3). apply (answer_bad _ big_made); auto using big_printed. Qed.
Lemma big_tail_ok : bytes_ok big_tail.
Proof. apply Forall_forall. intros x X. apply big_tail_zero in X. subst. cbv. intuition discriminate. Qed.
Lemma big_block : zlen ([1; 97; 1; 98; 0] ++ big_tail) = 65538.
Proof. rewrite zlen_app, big_tail_len. reflexivity. Qed.
Theorem C51_long_rdata_refuted : exists pkt, bytes_ok pkt /\ forall fuel, 65535 < Z.of_nat fuel ->
  exists M r d, parse_message fuel pkt (zlen pkt) = Ok (res_success, M) /\ a_rrs (m_an M) = [r] /\ rr_rdata r = Some d /\ zlen d = 2 /\
    rr_to_str r 1 = UB OobRead /\ message_to_str M = UB OobRead /\
    exists block, zlen block = 65538 /\ firstn 2 block = d /\ rdata_to_str block (zlen d) (rr_type r) (rr_class r) = UB OobRead.
Proof.
  exists big_pkt. split; [exact big_ok|]. intros fuel F. exists (parsed big_smsg), big_made, [1; 97].
  split; [exact (message_complete fuel big_pkt big_smsg big_ok F big_message)|]. split; [exact (proj1 big_answer)|]. split; [reflexivity|]. split; [reflexivity|].
  split; [exact (big_printed [])|]. split; [exact big_text|].
  exists ([1; 97; 1; 98; 0] ++ big_tail). split; [exact big_block|]. split; [exact (long_first big_tail)|]. exact (long_print big_tail big_tail_ok big_tail_len).
Qed.
Print Assumptions C51_long_rdata_refuted.

(** ** C52: one line of printable ASCII *)
Theorem C52_one_line : forall r sec t, rr_type r <> 41 -> bytes_ok (rr_name r) -> 0 <= rr_ttl r < 2 ^ 32 -> 0 <= rr_type r < 65536 -> 0 <= rr_class r < 65536 ->
  (forall d, rr_rdata r = Some d -> bytes_ok d /\ zlen d < 65536) -> rr_to_str r sec = Ok t -> exists s, t = s ++ [10] /\ printable s.
Proof. exact rr_line. Qed.
Print Assumptions C52_one_line.
Theorem C52_rdata : forall l t c s, t <> 41 -> bytes_ok l -> zlen l < 65536 -> rdata_to_str l (zlen l) t c = Ok s -> printable s.
Proof.
  intros l t c s N B L E. assert (NE : ~ ends_in_name (format_of t c) l) by (intros X; unfold rdata_to_str in E; rewrite rdata_cut in E; auto; discriminate).
  destruct (C50_rdata_safe_partial l t c B L N NE) as (s' & E' & P). congruence.
Qed.
Print Assumptions C52_rdata.
Example C52_ex : rr_to_str {| rr_name := [3; 10; 59; 200; 0]; rr_type := 16; rr_class := 1; rr_ttl := 60; rr_rdata := Some [3; 10; 34; 97] |} 1 =
  Ok (lit "\010;\200. 60 IN TXT ""\010\""a""" ++ [10]).
Proof. vm_compute. reflexivity. Qed.

(** ** C55: EDNS options *)

(** Every list of options is rendered, or (exactly if some option has no text) flagged; the memory is exactly the options. *)
Theorem C55_rendered_or_flagged : forall l c, bytes_ok l -> zlen l < 65536 ->
  (exists opts ts, options_text l opts ts /\ rdata_to_str l (zlen l) 41 c = Ok (join_by 10 ts)) \/
  (exists s e, rdata_to_str l (zlen l) 41 c = Ok (s ++ e) /\ In e option_errors /\ forall opts ts, ~ options_text l opts ts).
Proof.
  intros l c B L. destruct (opt_print [] l [] c B ltac:(constructor) L) as [(opts & ts & O & E)|(s & e & E & I & N)]; rewrite app_nil_r in E.
  - left. exists opts, ts. split; [auto|]. unfold rdata_to_str. rewrite E. destruct ts; reflexivity.
  - right. exists s, e. auto.
Qed.
Print Assumptions C55_rendered_or_flagged.
Theorem C55_printable : forall l c, bytes_ok l -> zlen l < 65536 -> exists s, rdata_to_str l (zlen l) 41 c = Ok s /\ printable_lines s.
Proof. intros l c B L. destruct (opt_safe [] l [] c ltac:(constructor) B ltac:(constructor) L) as (s & E & P). rewrite app_nil_r in E. eauto. Qed.
Print Assumptions C55_printable.
Example C55_ex :
  let l := param (8, [0; 1; 24; 0; 192; 0; 2]) ++ param (15, [0; 6; 97; 10]) ++ param (10, [1; 171]) in
  rdata_to_str l (zlen l) 41 512 =
    Ok (lit "CLIENT-SUBNET: 192.0.2.0/24/0" ++ [10] ++ lit "EDE: 6 (DNSSEC Bogus): (a.)" ++ [10] ++ lit "OPT=10: 01 ab ("".."")") /\
  rdata_to_str (param (8, [0; 3; 24; 0; 192])) 9 41 512 = Ok (lit "CLIENT-SUBNET:  ### PARSE ERROR #12 ###") /\
  rdata_to_str [0; 10; 0] 3 41 512 = Ok (lit "OPT=10: ### PARSE ERROR ###").
Proof. repeat split; vm_compute; reflexivity. Qed.

(** ** C58: the header of the message text *)

(** Opcode, rcode, id, the flags that are set and the number of RRs of each section, for every message that can be printed. *)
Theorem C58_header : forall M t, 0 <= m_id M < 65536 -> 0 <= m_flags M < 65536 -> 0 <= m_rcode M < 65536 ->
  zlen (a_rrs (m_qd M)) < 65536 -> zlen (a_rrs (m_an M)) < 65536 -> zlen (a_rrs (m_ns M)) < 65536 -> zlen (a_rrs (m_ar M)) < 65536 ->
  message_to_str M = Ok t ->
  exists h rest, header_lines (m_id M) (m_flags M) (m_rcode M) (zlen (a_rrs (m_qd M))) (zlen (a_rrs (m_an M))) (zlen (a_rrs (m_ns M))) (zlen (a_rrs (m_ar M))) h /\ t = h ++ rest.
Proof.
  intros M t I F R Q A N AR E. exists (header_text M). unfold message_to_str in E. apply bind_ok in E as (e & _ & E). unfold rrset_array_to_ubuf in E.
  apply bind_ok in E as (u1 & E1 & E). apply rrs_prefix in E1 as (x1 & ->). apply bind_ok in E as (u2 & E2 & E). apply rrs_prefix in E2 as (x2 & ->). apply bind_ok in E as (u3 & E3 & E). apply rrs_prefix in E3 as (x3 & ->). apply rrs_prefix in E as (x4 & ->).
  eexists. split; [apply header_ok; auto|]. rewrite <- !app_assoc. reflexivity.
Qed.
Print Assumptions C58_header.
(** For a parsed message these are the values of the packet. *)
Theorem C58_parsed : forall pkt s, bytes_ok pkt -> message_at pkt s -> (forall k r, In (k, r) (entries s) -> fits r) ->
  exists t h rest, message_to_str (parsed s) = Ok t /\ t = h ++ rest /\
    header_lines (sm_id s) (sm_flags s) (rcode_of (sm_flags s) (first_opt (entries s)))
      (zlen (in_section 0 (without_first_opt (entries s)))) (zlen (in_section 1 (without_first_opt (entries s))))
      (zlen (in_section 2 (without_first_opt (entries s)))) (zlen (in_section 3 (without_first_opt (entries s)))) h.
Proof.
  intros pkt s B MA F. destruct (message_good pkt s B MA) as (G & RI & RF & L0 & L1 & L2 & L3). destruct (message_ok s G F) as (t & E). exists t.
  assert (ZM : forall l, zlen (map rr_of l) = zlen l) by (intros l; unfold zlen; rewrite map_length; auto).
  pose proof (section_len s 0 ltac:(lia)) as S0. pose proof (section_len s 1 ltac:(lia)) as S1. pose proof (section_len s 2 ltac:(lia)) as S2. pose proof (section_len s 3 ltac:(lia)) as S3. cbv iota in S0, S1, S2, S3.
  destruct (C58_header (parsed s) t) as (h & rest & H & ->); auto.
  - apply rcode_bound; auto.
  - change (a_rrs (m_qd (parsed s))) with (map rr_of (in_section 0 (without_first_opt (entries s)))). rewrite ZM. lia.
  - change (a_rrs (m_an (parsed s))) with (map rr_of (in_section 1 (without_first_opt (entries s)))). rewrite ZM. lia.
  - change (a_rrs (m_ns (parsed s))) with (map rr_of (in_section 2 (without_first_opt (entries s)))). rewrite ZM. lia.
  - change (a_rrs (m_ar (parsed s))) with (map rr_of (in_section 3 (without_first_opt (entries s)))). rewrite ZM. lia.
  - exists h, rest. split; [auto|]. split; [auto|].
    change (a_rrs (m_qd (parsed s))) with (map rr_of (in_section 0 (without_first_opt (entries s)))) in H. change (a_rrs (m_an (parsed s))) with (map rr_of (in_section 1 (without_first_opt (entries s)))) in H.
    change (a_rrs (m_ns (parsed s))) with (map rr_of (in_section 2 (without_first_opt (entries s)))) in H. change (a_rrs (m_ar (parsed s))) with (map rr_of (in_section 3 (without_first_opt (entries s)))) in H. rewrite !ZM in H. exact H.
Qed.
Print Assumptions C58_parsed.
Example C58_ex : exists M t rest, parse_message (Z.to_nat 70000) ask (zlen ask) = Ok (res_success, M) /\ message_to_str M = Ok t /\
  t = lit ";; ->>HEADER<<- opcode: QUERY, rcode: NOERROR, id: 0
;; flags: rd; QUERY: 1, ANSWER: 0, AUTHORITY: 0, ADDITIONAL: 0
" ++ rest.
Proof. eexists _, _, _. split; [vm_compute; reflexivity|]. split; vm_compute; reflexivity. Qed.

(** ** C62: the text of parsed RRs and messages *)

(** The whole text of a message: header, OPT pseudo section, one line per question and per record. The records' text must be
    defined: their uncompressed rdata fits 16 bits, SVCB/HTTPS parameters are plain and EDNS options have a text. *)
Theorem C62_message : forall fuel pkt s, bytes_ok pkt -> 65535 < Z.of_nat fuel -> message_at pkt s -> (forall k r, In (k, r) (entries s) -> printable_data r) ->
  exists M t, parse_message fuel pkt (zlen pkt) = Ok (res_success, M) /\ message_to_str M = Ok t /\ message_text s t.
Proof.
  intros fuel pkt s B F MA P. destruct (message_print pkt s B MA P) as (t & E & T). exists (parsed s), t. split; [apply message_complete; auto|auto].
Qed.
Print Assumptions C62_message.
(** One record, one question. *)
Theorem C62_record : forall r vs sec, sec <> 0 -> wf_record r -> s_data r = Some vs -> ((s_type r = 64 \/ s_type r = 65) /\ s_class r = 1 -> plain_values vs) ->
  (s_type r = 41 -> exists opts ts, options_text (canon vs) opts ts) -> exists t, rr_to_str (rr_of r) sec = Ok t /\ record_line r t.
Proof.
  intros r vs sec N (WO & T & vs' & D' & W & L) D P O. assert (vs' = vs) by congruence. subst vs'. apply (record_print [] sec r N).
  - split; [lia|]. split; [auto|]. split; [auto|]. exists vs. auto.
  - intros vs' D2. assert (vs' = vs) by congruence. subst vs'. auto.
Qed.
Print Assumptions C62_record.
Theorem C62_question : forall r, wf_question r -> exists t, rr_to_str (rr_of r) 0 = Ok t /\ question_line r t.
Proof. intros r (WO & T & D). apply (question_print [] r). split; [lia|]. split; [auto|]. rewrite T. split; [lia|]. split; [reflexivity|exact D]. Qed.
Print Assumptions C62_question.
Definition reply : bytes := [18;52;133;128;0;1;0;1;0;0;0;1; 2;78;83;0;0;15;0;1; 192;12;0;15;0;1;0;0;14;16;0;6;0;10;1;97;192;12; 0;0;41;16;0;0;0;128;0;0;6;0;10;0;2;97;0].
Example C62_ex : exists M, parse_message (Z.to_nat 70000) reply (zlen reply) = Ok (res_success, M) /\ message_to_str M = Ok (lit ";; ->>HEADER<<- opcode: QUERY, rcode: NOERROR, id: 4660
;; flags: qr aa rd ra; QUERY: 1, ANSWER: 1, AUTHORITY: 0, ADDITIONAL: 0

;; OPT PSEUDOSECTION:
; EDNS: version: 0, flags: do; udp: 4096
; OPT=10: 61 00 (""a."")
;; QUESTION SECTION:
;NS. IN MX

;; ANSWER SECTION:
NS. 3600 IN MX 10 a.NS.

;; AUTHORITY SECTION:

;; ADDITIONAL SECTION:
").
Proof. eexists. split; [vm_compute; reflexivity|]. vm_compute; reflexivity. Qed.
