(** ProofLoose2.v: wdns_parse_message accepts exactly the grammar of SpecLoose.v. *)
From Verif Require Import Base Lib SpecName ModelName ModelDescr ModelParse SpecMessage SpecParsed SpecLoose
  ProofUnpack ProofCopy ProofNameOps ProofRdata ProofRdata2 ProofGroup ProofMessage ProofLoose1.

Lemma rdf_svc_dec : forall t, t = rdf_svcparams \/ t <> rdf_svcparams.
Proof. intros []; auto; right; discriminate. Qed.
Lemma loose_parse_fields_sound : forall ts fuel m src sb u src' sb' u', bytes_ok m -> 0 <= src -> 0 <= sb -> src + sb <= zlen m ->
  ends_ok ts = true ->
  parse_fields fuel m (zlen m) ts (src, sb, u) = Ok (src', sb', u') -> sb' = 0 ->
  exists vs, loose_rdata m (map fmt_of ts) src sb vs /\ u' = u ++ canon vs.
Proof.
  induction ts as [|t ts IH]; intros fuel m src sb u src' sb' u' Hm H1 H2 H3 En E Z0; cbn [parse_fields] in E.
  - injection E as -> -> ->. subst. exists []. split; [apply lo_end|]. cbn. rewrite app_nil_r. auto.
  - destruct (sb =? 0) eqn:B.
    + injection E as -> -> ->. exists []. assert (sb' = 0) as -> by lia. split; [apply lo_end|]. cbn. rewrite app_nil_r. auto.
    + rewrite bind_ok in E. destruct E as (st & P & E).
      assert (ends_ok ts = true) as En' by (destruct ts; [reflexivity|]; cbn [ends_ok] in En; apply andb_prop in En; tauto).
      destruct (name_dec t) as [T|[T1 T2]].
      * apply name_field_sound in P; auto; try lia. destruct P as (ls & e & D & L & X & Be & ->).
        pose proof (extent_pos _ _ _ X).
        apply IH in E; auto; try lia.
        destruct E as (vs & R & ->). exists (VName ls :: vs). split.
        -- cbn [map]. rewrite (proj2 (fmt_name t) T). eapply lo_name; eauto.
        -- unfold canon. cbn [map concat canon1]. rewrite app_assoc. auto.
      * destruct (rdf_svc_dec t) as [->|Ns].
        { cbn [parse_field] in P. apply svc_loose_sound in P; auto; try lia. destruct P as (LP & l & O & L & ->).
          assert (ts = []) as -> by (destruct ts; [reflexivity|discriminate En]). cbn [parse_fields] in E. injection E as E1 E2 E3.
          exists [VOctets l]. split; [cbn [map fmt_of]; apply lo_params; auto; lia|]. unfold canon. cbn [map concat canon1]. rewrite app_nil_r. auto. }
        apply octets_field_sound in P; auto; try lia; try congruence.
        destruct P as (l & F & O & L & -> & C). pose proof (zlen_nonneg _ l).
        assert (fmt_of t = FTypes /\ zlen l = sb - 1 -> False) as C3.
        { intros (C1 & C2). destruct ts as [|t' ts]; [|cbn [ends_ok] in En; rewrite C1 in En; discriminate].
          cbn [parse_fields] in E. injection E as ? ? ?. lia. }
        apply IH in E; auto; try lia.
        destruct E as (vs & R & ->). exists (VOctets l :: vs). split.
        -- cbn [map]. apply lo_octets; auto; [intros X; apply Ns; destruct t; cbn in X; congruence| |intros; intuition congruence].
           destruct C as [(C1 & C2)|[(C1 & C2)|C]]; [lia|lia|exfalso; auto].
        -- unfold canon. cbn [map concat canon1]. rewrite app_assoc. auto.
Qed.

Lemma loose_parse_fields_complete : forall fs ts fuel m src sb u vs, bytes_ok m -> src + sb <= zlen m -> sb < Z.of_nat fuel ->
  loose_rdata m fs src sb vs -> fs = map fmt_of ts ->
  parse_fields fuel m (zlen m) ts (src, sb, u) = Ok (src + sb, 0, u ++ canon vs).
Proof.
  intros fs ts fuel m src sb u vs Hm B Hf R. revert ts u. induction R as [fs i|fs i n ls e vs D L X Be R IH|f fs i n l vs NF F O L T R IH|fs i n l O L Ln LP]; intros ts u E.
  - cbn [canon map concat]. destruct ts; cbn [parse_fields]; rewrite app_nil_r, Z.add_0_r; reflexivity.
  - destruct ts as [|t ts]; [discriminate|]. cbn [map] in E. injection E as E0 E1. pose proof (extent_pos _ _ _ X).
    cbn [parse_fields]. replace (n =? 0) with false by lia.
    rewrite (name_field_complete fuel m t i n u ls e) by (auto; try lia; apply fmt_name; auto). cbn [bind].
    rewrite IH by (auto; lia). apply ok_st3; [lia|auto|]. unfold canon. cbn [map concat canon1]. rewrite app_assoc. auto.
  - destruct ts as [|t ts]; [discriminate|]. cbn [map] in E. injection E as E0 E1. subst f.
    cbn [parse_fields]. replace (n =? 0) with false by lia.
    rewrite (octets_field_complete fuel m t i n u l) by (auto; lia). cbn [bind].
    rewrite IH by (auto; lia). apply ok_st3; [lia|auto|]. unfold canon. cbn [map concat canon1]. rewrite app_assoc. auto.
  - destruct ts as [|t ts]; [discriminate|]. cbn [map] in E. injection E as E0 E1.
    assert (t = rdf_svcparams) as -> by (destruct t; cbn in E0; congruence).
    cbn [parse_fields]. replace (n =? 0) with false by lia. cbn [parse_field]. pose proof (octets_at_bound _ _ _ O).
    destruct (svc_loose_complete m i n LP Hm fuel u) as (l' & O' & L' & ->); try lia.
    assert (l' = l) as -> by (apply (octets_at_det m i); auto; lia). cbn [bind].
    unfold canon. cbn [map concat canon1]. rewrite app_nil_r. destruct ts; reflexivity.
Qed.

Theorem loose_parse_rdata_sound : forall fuel m t c src n d, bytes_ok m -> 0 <= src -> 0 <= n -> src + n <= zlen m ->
  parse_rdata fuel m (zlen m) t c src n = Ok d ->
  exists vs, loose_rdata m (format_of t c) src n vs /\ d = load_rdata (canon vs).
Proof.
  intros fuel m t c src n d Hm H1 H2 H3 E. rewrite parse_rdata_fields in E by lia. rewrite bind_ok in E.
  destruct E as ([[a sb] u] & P & E). destruct (negb (sb =? 0)) eqn:B; [discriminate|]. injection E as <-.
  apply loose_parse_fields_sound in P; auto; try lia.
  - destruct P as (vs & R & ->). exists vs. rewrite format_of_fields. auto.
  - apply fields_for_ends.
Qed.

Theorem loose_parse_rdata_complete : forall fuel m t c src n vs, bytes_ok m -> 0 <= src -> 0 <= n -> src + n <= zlen m -> n < Z.of_nat fuel ->
  loose_rdata m (format_of t c) src n vs ->
  parse_rdata fuel m (zlen m) t c src n = Ok (load_rdata (canon vs)).
Proof.
  intros fuel m t c src n vs Hm H1 H2 H3 Hf R. rewrite parse_rdata_fields by lia. rewrite format_of_fields in R.
  rewrite (loose_parse_fields_complete _ (fields_for t c) fuel m src n [] vs Hm H3 Hf R eq_refl). reflexivity.
Qed.

Lemma loose_rr_complete : forall fuel sec m i s n, bytes_ok m -> 65535 < Z.of_nat fuel ->
  loose_entry sec m i s n -> parse_message_rr fuel sec m (zlen m) i = Ok (rr_of s, n) /\ 5 <= n /\ i + n <= zlen m /\ 0 <= i.
Proof.
  intros fuel sec m i s n Hm Hf E. unfold loose_entry in E. unfold parse_message_rr. destruct (sec =? 0) eqn:S.
  - destruct E as (e & t0 & t1 & c0 & c1 & W & O & Et & Ec & El & Ed & ->).
    destruct (owner_ok _ _ _ _ Hm W) as (U & K & Bi & Be & B & V). rewrite U, K. cbn [bind].
    pose proof (octets_at_bound _ _ _ O) as Ob. change (zlen [t0; t1; c0; c1]) with 4 in Ob.
    replace (i + e + 4 >? zlen m) with false by lia. cbn [negb andb orb].
    destruct (fixed4 _ _ _ _ _ _ O) as (G1 & G2). rewrite G1, G2. cbn [bind]. split; [|lia].
    unfold rr_of. rewrite Et, Ec, El, Ed. cbn [option_map]. match goal with |- Ok (_, ?a) = Ok (_, ?b) => replace b with a by lia end. reflexivity.
  - destruct E as (e & t0 & t1 & c0 & c1 & w & x & y & z & l0 & l1 & vs & W & O & Et & Ec & El & Q).
    cbv zeta in Q. destruct Q as (B2 & R & Ed & ->).
    destruct (owner_ok _ _ _ _ Hm W) as (U & K & Bi & Be & B & V). rewrite U, K. cbn [bind].
    pose proof (octets_at_bound _ _ _ O) as Ob. change (zlen [t0; t1; c0; c1; w; x; y; z; l0; l1]) with 10 in Ob.
    replace (i + e + 4 >? zlen m) with false by lia. replace (i + e + 10 >? zlen m) with false by lia. cbn [negb andb orb].
    destruct (fixed10 _ _ _ _ _ _ _ _ _ _ _ _ O) as (G1 & G2 & G3 & G4). rewrite G1, G2, G3. cbn [bind]. rewrite G4. cbn [bind].
    destruct (bytes10 _ _ _ _ _ _ _ _ _ _ _ _ Hm O) as (_ & _ & Bl).
    replace (i + e + 2 + 2 + 4 + 2 + (l0 * 256 + l1) >? zlen m) with false by lia.
    replace (i + e + 2 + 2 + 4 + 2) with (i + e + 10) by lia.
    rewrite <- Et, <- Ec. rewrite (loose_parse_rdata_complete fuel m _ _ _ _ vs) by (auto; lia). cbn [bind]. split; [|lia].
    unfold rr_of. rewrite El, Ed. cbn [option_map]. match goal with |- Ok (_, ?a) = Ok (_, ?b) => replace b with a by lia end. reflexivity.
Qed.

Lemma loose_entry_valid_at : forall sec m i s n, bytes_ok m -> 0 <= sec <= 3 -> loose_entry sec m i s n -> entry_valid (sec, s).
Proof.
  intros sec m i s n Hm Hs E. unfold loose_entry in E. unfold entry_valid. cbn [fst snd]. destruct (sec =? 0) eqn:S.
  - destruct E as (e & t0 & t1 & c0 & c1 & W & O & Et & Ec & El & Ed & ->).
    destruct (owner_ok _ _ _ _ Hm W) as (U & K & Bi & Be & B & V). rewrite El, Ed. repeat split; auto; try lia.
  - destruct E as (e & t0 & t1 & c0 & c1 & w & x & y & z & l0 & l1 & vs & W & O & Et & Ec & El & Q).
    cbv zeta in Q. destruct Q as (B2 & R & Ed & ->).
    destruct (owner_ok _ _ _ _ Hm W) as (U & K & Bi & Be & B & V).
    destruct (bytes10 _ _ _ _ _ _ _ _ _ _ _ _ Hm O) as (_ & Bt & _). rewrite El, Ed. repeat split; auto; try lia. discriminate.
Qed.

Lemma loose_rr_sound : forall fuel sec m i r n, bytes_ok m -> 0 <= i < zlen m ->
  parse_message_rr fuel sec m (zlen m) i = Ok (r, n) -> exists s, loose_entry sec m i s n /\ r = rr_of s.
Proof.
  intros fuel sec m i r n Hm Hi E. unfold parse_message_rr in E. rewrite bind_ok in E. destruct E as ([w k] & U & E).
  destruct (owner_inv _ _ _ _ Hm Hi U) as (ls & e & W & ->). destruct (owner_ok _ _ _ _ Hm W) as (_ & K & Bi & Be & B & V).
  rewrite K in E. cbn [bind] in E.
  destruct ((i + e + 4 >? zlen m) || negb (sec =? 0) && (i + e + 10 >? zlen m)) eqn:C; [discriminate|].
  unfold loose_entry. destruct (sec =? 0) eqn:S.
  - destruct (octets_4 m (i + e)) as (t0 & t1 & c0 & c1 & O); try lia.
    destruct (fixed4 _ _ _ _ _ _ O) as (G1 & G2). rewrite G1, G2 in E. cbn [bind] in E. injection E as <- <-.
    exists {| s_name := ls; s_type := t0 * 256 + t1; s_class := c0 * 256 + c1; s_ttl := 0; s_data := None |}.
    split; [|reflexivity]. exists e, t0, t1, c0, c1. cbn [s_name s_type s_class s_ttl s_data]. repeat split; auto; try lia; apply W.
  - cbn [negb andb] in C. destruct (octets_10 m (i + e)) as (t0 & t1 & c0 & c1 & x & y & z & v & l0 & l1 & O); try lia.
    destruct (fixed10 _ _ _ _ _ _ _ _ _ _ _ _ O) as (G1 & G2 & G3 & G4).
    rewrite G1, G2, G3 in E. cbn [bind] in E. rewrite G4 in E. cbn [bind] in E.
    destruct (bytes10 _ _ _ _ _ _ _ _ _ _ _ _ Hm O) as (_ & _ & Bl).
    destruct (i + e + 2 + 2 + 4 + 2 + (l0 * 256 + l1) >? zlen m) eqn:C2; [discriminate|].
    rewrite bind_ok in E. destruct E as (d & P & E). injection E as <- <-.
    apply loose_parse_rdata_sound in P; auto; try lia. destruct P as (vs & R & ->).
    exists {| s_name := ls; s_type := t0 * 256 + t1; s_class := c0 * 256 + c1; s_ttl := x * 16777216 + y * 65536 + z * 256 + v; s_data := Some vs |}.
    split; [|reflexivity]. exists e, t0, t1, c0, c1, x, y, z, v, l0, l1, vs. cbn [s_name s_type s_class s_ttl s_data].
    replace (i + e + 2 + 2 + 4 + 2) with (i + e + 10) in * by lia. repeat split; auto; try lia; apply W.
Qed.

Lemma loose_section_complete : forall fuel sec pkt i n rs j, bytes_ok pkt -> 65535 < Z.of_nat fuel -> 0 <= sec <= 3 ->
  loose_entries sec pkt i n rs j -> forall id flags l, Forall entry_valid l ->
  Forall entry_valid (l ++ tag sec rs) /\
  (parse_section fuel (Z.to_nat n) sec pkt (zlen pkt) i (parsed_entries id flags l) = Ok (Continue j (parsed_entries id flags (l ++ tag sec rs))) \/
   (j = zlen pkt /\ parse_section fuel (Z.to_nat n) sec pkt (zlen pkt) i (parsed_entries id flags l) = Ok (Return res_success (parsed_entries id flags (l ++ tag sec rs))))).
Proof.
  intros fuel sec pkt i n rs j Hm Hf Hs E. induction E as [i|n Hn|i n r k rs j Hn Hi R E IH]; intros id flags l F.
  - cbn [tag map]. rewrite app_nil_r. split; auto.
  - cbn [tag map]. rewrite app_nil_r. split; auto. right. split; auto.
    destruct (Z.to_nat n) as [|n'] eqn:Q; [lia|]. cbn [parse_section]. rewrite Z.eqb_refl. reflexivity.
  - pose proof (loose_entry_valid_at _ _ _ _ _ Hm Hs R) as V. destruct (loose_rr_complete fuel _ _ _ _ _ Hm Hf R) as (P & B & B2 & Bi).
    replace (Z.to_nat n) with (S (Z.to_nat (n - 1))) by lia.
    rewrite (parse_section_step _ _ _ _ _ _ _ (rr_of r) k) by (auto; lia). rewrite (take_step id flags l sec r F V). cbn [bind].
    cbn [tag map]. replace (l ++ (sec, r) :: map (pair sec) rs) with ((l ++ [(sec, r)]) ++ tag sec rs) by (rewrite <- app_assoc; reflexivity).
    apply IH. apply Forall_app. auto.
Qed.

Lemma loose_section_sound : forall n fuel sec pkt i id flags l fl, bytes_ok pkt -> 65535 < Z.of_nat fuel -> 0 <= sec <= 3 -> 0 <= i <= zlen pkt ->
  Forall entry_valid l ->
  parse_section fuel n sec pkt (zlen pkt) i (parsed_entries id flags l) = Ok fl ->
  (exists rs j, loose_entries sec pkt i (Z.of_nat n) rs j /\ i <= j <= zlen pkt /\ Forall entry_valid (l ++ tag sec rs) /\
     (fl = Continue j (parsed_entries id flags (l ++ tag sec rs)) \/ j = zlen pkt /\ fl = Return res_success (parsed_entries id flags (l ++ tag sec rs)))) \/
  (exists e l', fl = Return e (clear_message (parsed_entries id flags (l ++ l'))) /\ In e parse_codes /\ Forall entry_valid (l ++ l')).
Proof.
  induction n as [|n IH]; intros fuel sec pkt i id flags l fl Hm Hf Hs Hi F E.
  - cbn [parse_section] in E. injection E as <-. left. exists [], i. cbn [tag map]. rewrite app_nil_r. repeat split; auto; try lia. constructor.
  - destruct (Z.eq_dec i (zlen pkt)) as [Eq|Ne].
    + cbn [parse_section] in E. rewrite Eq, Z.eqb_refl in E. injection E as <-. left. exists [], i. cbn [tag map]. rewrite app_nil_r.
      subst i. repeat split; auto; try lia. apply ln_cut. lia.
    + destruct (parse_message_rr fuel sec pkt (zlen pkt) i) as [[r k]|e|f|] eqn:P.
      * assert (Hi' : 0 <= i < zlen pkt) by lia. destruct (loose_rr_sound _ _ _ _ _ _ Hm Hi' P) as (s & R & ->).
        pose proof (loose_entry_valid_at _ _ _ _ _ Hm Hs R) as V. destruct (loose_rr_complete fuel _ _ _ _ _ Hm Hf R) as (_ & B & B2 & Bi).
        rewrite (parse_section_step _ _ _ _ _ _ _ (rr_of s) k) in E by auto. rewrite (take_step id flags l sec s F V) in E. cbn [bind] in E.
        apply IH in E; auto; try lia; [|apply Forall_app; auto].
        destruct E as [(rs & j & En & Bj & Fv & Q)|(e & l' & Q & Q2 & Q3)].
        -- left. exists (s :: rs), j. cbn [tag map]. replace (l ++ (sec, s) :: map (pair sec) rs) with ((l ++ [(sec, s)]) ++ tag sec rs) by (rewrite <- app_assoc; reflexivity).
           repeat split; auto; try lia. eapply ln_more; eauto; try lia. replace (Z.of_nat (S n) - 1) with (Z.of_nat n) by lia. auto.
        -- right. exists e, ((sec, s) :: l'). rewrite <- app_assoc in Q, Q3. auto.
      * cbn [parse_section] in E. replace (i =? zlen pkt) with false in E by lia. rewrite P in E. injection E as <-.
        right. exists e, []. rewrite app_nil_r. repeat split; auto. pose proof (ne_rr fuel sec pkt (zlen pkt) i) as N. rewrite P in N. exact N.
      * cbn [parse_section] in E. replace (i =? zlen pkt) with false in E by lia. rewrite P in E. discriminate.
      * cbn [parse_section] in E. replace (i =? zlen pkt) with false in E by lia. rewrite P in E. discriminate.
Qed.

Lemma loose_entries_at_end : forall sec m n, 0 <= n -> loose_entries sec m (zlen m) n [] (zlen m).
Proof. intros sec m n H. destruct (Z.eq_dec n 0) as [->|]; [constructor|apply ln_cut; lia]. Qed.
Lemma loose_entries_end_inv : forall sec m n rs j, loose_entries sec m (zlen m) n rs j -> rs = [] /\ j = zlen m.
Proof. intros sec m n rs j H. inversion H; subst; auto. lia. Qed.

(** Sections one after the other; [l]: entries before them. *)
Fixpoint loose_all_entries (secs : list (Z * Z)) (pkt : bytes) (i : Z) (l : list (Z * srr)) : Prop :=
  match secs with
  | [] => l = []
  | (sec, n) :: secs' => exists rs j l', loose_entries sec pkt i n rs j /\ l = tag sec rs ++ l' /\ loose_all_entries secs' pkt j l'
  end.

Lemma loose_all_entries_end : forall secs pkt l, loose_all_entries secs pkt (zlen pkt) l -> l = [].
Proof.
  induction secs as [|[sec n] secs IH]; intros pkt l H; cbn [loose_all_entries] in H; auto.
  destruct H as (rs & j & l' & E & -> & H). apply loose_entries_end_inv in E as [-> ->]. apply IH in H. subst. reflexivity.
Qed.

Lemma loose_all_entries_end_intro : forall secs pkt, Forall (fun e => 0 <= snd e) secs -> loose_all_entries secs pkt (zlen pkt) [].
Proof.
  induction secs as [|[sec n] secs IH]; intros pkt F; cbn [loose_all_entries]; auto. inversion F; subst. exists [], (zlen pkt), [].
  repeat split; auto. apply loose_entries_at_end. auto.
Qed.

Lemma loose_sections_complete : forall secs fuel pkt i l id flags l0, bytes_ok pkt -> 65535 < Z.of_nat fuel ->
  Forall (fun e => 0 <= fst e <= 3) secs -> loose_all_entries secs pkt i l -> Forall entry_valid l0 ->
  parse_sections fuel secs pkt (zlen pkt) i (parsed_entries id flags l0) = Ok (res_success, parsed_entries id flags (l0 ++ l)).
Proof.
  induction secs as [|[sec n] secs IH]; intros fuel pkt i l id flags l0 Hm Hf Fs A F0; cbn [loose_all_entries] in A; cbn [parse_sections].
  - subst. rewrite app_nil_r. reflexivity.
  - destruct A as (rs & j & l' & E & -> & A). inversion Fs; subst.
    destruct (loose_section_complete fuel sec pkt i n rs j Hm Hf H1 E id flags l0 F0) as (Fv & [P|(-> & P)]); rewrite P; cbn [bind].
    + rewrite (IH fuel pkt j l' id flags (l0 ++ tag sec rs)); auto. rewrite app_assoc. reflexivity.
    + apply loose_all_entries_end in A. subst. rewrite app_nil_r. reflexivity.
Qed.

Lemma loose_sections_sound : forall secs fuel pkt i id flags l0 r M, bytes_ok pkt -> 65535 < Z.of_nat fuel ->
  Forall (fun e => 0 <= fst e <= 3 /\ 0 <= snd e) secs -> 0 <= i <= zlen pkt -> Forall entry_valid l0 ->
  parse_sections fuel secs pkt (zlen pkt) i (parsed_entries id flags l0) = Ok (r, M) ->
  (r = res_success /\ exists l, loose_all_entries secs pkt i l /\ M = parsed_entries id flags (l0 ++ l)) \/
  (In r parse_codes /\ exists l, M = clear_message (parsed_entries id flags (l0 ++ l)) /\ Forall entry_valid (l0 ++ l)).
Proof.
  induction secs as [|[sec n] secs IH]; intros fuel pkt i id flags l0 r M Hm Hf Fs Hi F0 E; cbn [parse_sections] in E.
  - injection E as <- <-. left. split; auto. exists []. rewrite app_nil_r. split; [reflexivity|auto].
  - rewrite bind_ok in E. destruct E as (fl & P & E). inversion Fs as [|? ? [Fa Fb] Fc]; subst. cbn [fst snd] in *.
    apply loose_section_sound in P; auto. rewrite Z2Nat.id in P by lia.
    destruct P as [(rs & j & En & Bj & Fv & [-> | (Ej & ->)])|(e & l' & -> & Ne & Fv)].
    + apply IH in E; auto; try lia. destruct E as [(-> & l & A & ->)|(Ne & l & -> & Fl)].
      * left. split; auto. exists (tag sec rs ++ l). rewrite app_assoc. split; auto. cbn [loose_all_entries]. exists rs, j, l. auto.
      * right. split; auto. exists (tag sec rs ++ l). rewrite app_assoc. auto.
    + injection E as <- <-. left. split; auto. exists (tag sec rs). split; auto. cbn [loose_all_entries]. exists rs, j, []. rewrite app_nil_r.
      repeat split; auto. rewrite Ej. apply loose_all_entries_end_intro. rewrite Forall_forall in *. intros x X. apply Fc; auto.
    + injection E as <- <-. right. split; auto. exists l'. auto.
Qed.

Theorem loose_message_complete : forall fuel pkt s, bytes_ok pkt -> 65535 < Z.of_nat fuel -> loose_message pkt s ->
  parse_message fuel pkt (zlen pkt) = Ok (res_success, parsed s).
Proof.
  intros fuel pkt s Hm Hf (i0 & i1 & f0 & f1 & q0 & q1 & a0 & a1 & n0 & n1 & r0 & r1 & j1 & j2 & j3 & j4 & O & Ei & Ef & E1 & E2 & E3 & E4).
  rewrite (parse_message_unfold _ _ _ _ _ _ _ _ _ _ _ _ _ _ O) by (apply octets_at_bound in O; cbn in O; lia).
  rewrite (loose_sections_complete _ fuel pkt 12 (entries s) _ _ []); auto.
  - unfold parsed. rewrite Ei, Ef. reflexivity.
  - repeat constructor; cbn; lia.
  - cbn [loose_all_entries]. exists (sm_qd s), j1. eexists. split; [exact E1|]. split; [unfold entries; reflexivity|].
    exists (sm_an s), j2. eexists. split; [exact E2|]. split; [reflexivity|].
    exists (sm_ns s), j3. eexists. split; [exact E3|]. split; [reflexivity|].
    exists (sm_ar s), j4, []. split; [exact E4|]. rewrite app_nil_r. split; reflexivity.
Qed.

Theorem loose_message_sound : forall fuel pkt r M, bytes_ok pkt -> 65535 < Z.of_nat fuel ->
  parse_message fuel pkt (zlen pkt) = Ok (r, M) ->
  (r = res_success /\ exists s, loose_message pkt s /\ M = parsed s) \/
  (zlen pkt < 12 /\ r = res_len /\ M = empty_message) \/
  (12 <= zlen pkt /\ In r parse_codes /\ (
    exists l i0 i1 f0 f1, octets_at pkt 0 [i0; i1; f0; f1] /\ M = clear_message (parsed_entries (i0 * 256 + i1) (f0 * 256 + f1) l) /\ Forall entry_valid l)).
Proof.
  intros fuel pkt r M Hm Hf E. destruct (Z_lt_ge_dec (zlen pkt) 12) as [L|L].
  - unfold parse_message in E. replace (zlen pkt <? 12) with true in E by lia. injection E as <- <-. right. left. auto.
  - destruct (octets_12 pkt) as (i0 & i1 & f0 & f1 & q0 & q1 & a0 & a1 & n0 & n1 & r0 & r1 & O); [lia|].
    rewrite (parse_message_unfold _ _ _ _ _ _ _ _ _ _ _ _ _ _ O) in E by lia.
    destruct (bytes12 _ _ _ _ _ _ _ _ _ _ _ _ _ Hm O) as (_ & B1 & B2 & B3 & B4).
    apply loose_sections_sound in E; auto; [|repeat constructor; cbn; lia|lia].
    destruct E as [(-> & l & A & ->)|(Ne & l & -> & Fl)].
    + left. split; auto. cbn [loose_all_entries] in A.
      destruct A as (qd & j1 & l1 & E1 & -> & an & j2 & l2 & E2 & -> & ns & j3 & l3 & E3 & -> & ar & j4 & l4 & E4 & -> & ->).
      exists {| sm_id := i0 * 256 + i1; sm_flags := f0 * 256 + f1; sm_qd := qd; sm_an := an; sm_ns := ns; sm_ar := ar |}.
      split; [|cbn [app]; rewrite app_nil_r; reflexivity].
      exists i0, i1, f0, f1, q0, q1, a0, a1, n0, n1, r0, r1, j1, j2, j3, j4. cbn [sm_id sm_flags sm_qd sm_an sm_ns sm_ar]. auto 10.
    + right. right. split; [lia|]. split; auto. exists l, i0, i1, f0, f1. split; [|auto].
      change [i0; i1; f0; f1; q0; q1; a0; a1; n0; n1; r0; r1] with ([i0; i1; f0; f1] ++ [q0; q1; a0; a1; n0; n1; r0; r1]) in O.
      apply octets_at_app in O. tauto.
Qed.

