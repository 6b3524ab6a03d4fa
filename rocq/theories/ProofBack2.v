(** ProofBack2.v: printed rdata that is read back as itself is readable: by type. *)
From Coq Require Strings.String.
From Verif Require Import Base Lib SpecName SpecStrName SpecMessage SpecEncode SpecFormat SpecTables SpecText SpecRead Libc ModelName ModelFormat ModelTables ModelDescr ModelFromStr ModelParse ModelToStr
  ProofUnpack ProofCopy ProofNameStr ProofStrName ProofNameMore ProofFormat ProofInet ProofInet6 ProofB64 ProofB32 ProofTables ProofRdata ProofPrint ProofPrint2 ProofField ProofVisible ProofRdataText ProofEncode ProofFromStr ProofBitmap ProofSvc ProofRoundTrip ProofRoundTrip2
  ProofWritten ProofRead3 ProofReadSvc ProofRead4 ProofBack.

Definition ordinary (p : pres) : Prop := match p with PType | PTypes | PPrefix6 | PParams => False | _ => True end.
Lemma ordinary_readable : forall ps1 ps2 vs, Forall ordinary ps1 -> (length vs <= length ps1)%nat -> all_readable (ps1 ++ ps2) vs.
Proof.
  induction ps1 as [|p ps1 IH]; intros ps2 vs F L.
  - destruct vs; [|cbn in L; lia]. destruct ps2; exact I.
  - destruct vs as [|v vs]; [exact I|]. inversion F; subst. cbn [app all_readable length] in *. split; [destruct p, v; try contradiction; exact I|apply IH; auto; lia].
Qed.
Lemma ordinary_more : forall ps1 ps2 vs1 vs2, Forall ordinary ps1 -> length vs1 = length ps1 -> all_readable ps2 vs2 -> all_readable (ps1 ++ ps2) (vs1 ++ vs2).
Proof.
  induction ps1 as [|p ps1 IH]; intros ps2 vs1 vs2 F L R.
  - destruct vs1; [exact R|discriminate].
  - destruct vs1 as [|v vs1]; [discriminate|]. inversion F; subst. cbn [app all_readable length] in *. split; [destruct p, v; try contradiction; exact I|apply IH; auto; lia].
Qed.
Lemma fields_split : forall ps1 ps2 vs toks, fields_tokens (ps1 ++ ps2) vs toks -> (length ps1 < length vs)%nat ->
  exists vs1 vs2 k1 k2, vs = vs1 ++ vs2 /\ toks = k1 ++ k2 /\ length vs1 = length ps1 /\ fields_tokens ps1 vs1 k1 /\ fields_tokens ps2 vs2 k2 /\ vs2 <> [].
Proof.
  induction ps1 as [|p ps1 IH]; intros ps2 vs toks F L.
  - exists [], vs, [], toks. repeat (split; [first [reflexivity|constructor|assumption]|]). destruct vs; [cbn in L; lia|discriminate].
  - cbn [app] in F. inversion F as [|p0 ps v vs' tk tk' FT FS]; subst; [cbn in L; lia|]. cbn [length] in L. destruct (IH ps2 vs' tk' FS ltac:(lia)) as (vs1 & vs2 & k1 & k2 & -> & -> & E & F1 & F2 & N).
    exists (v :: vs1), vs2, (tk ++ k1), k2. split; [reflexivity|]. split; [rewrite app_assoc; reflexivity|]. split; [cbn; lia|]. split; [constructor; auto|]. auto.
Qed.
Lemma wf_split : forall fs1 fs2 vs1 vs2, wf_values (fs1 ++ fs2) (vs1 ++ vs2) -> length vs1 = length fs1 -> wf_values fs1 vs1 /\ wf_values fs2 vs2.
Proof.
  induction fs1 as [|f fs1 IH]; intros fs2 vs1 vs2 W L.
  - destruct vs1; [|discriminate]. split; [constructor|exact W].
  - destruct vs1 as [|v vs1]; [discriminate|]. cbn [app length] in *. inversion W as [|? ls ? V W'|? ? l ? FO B N E W']; subst; destruct (IH fs2 vs1 vs2 W' ltac:(lia)) as [W1 W2]; (split; [|exact W2]); constructor; auto.
    intros T. specialize (E T). destruct vs1; [reflexivity|discriminate].
Qed.

Definition plain_rdf (t : rdf) : Prop := last_field t = false /\ t <> rdf_edns_opt_rdata /\ pres_of t <> PPrefix6 /\ ordinary (pres_of t).

Lemma sep_tail : forall (toks : list bytes), sep (match toks with [] => [] | _ => 32 :: join_by 32 toks end).
Proof. intros [|x toks]; [left; auto|right; eauto]. Qed.
Lemma join_tail : forall a b, a <> [] \/ b = [] -> join_by 32 (a ++ b) = join_by 32 a ++ (match b with [] => [] | _ => 32 :: join_by 32 b end).
Proof. intros a b [N| ->]; [apply join_app; auto|]. rewrite !app_nil_r. reflexivity. Qed.

(** Bit maps at the end. *)
Lemma bitmap_back : forall ts1 vs toks s, Forall plain_rdf ts1 -> ts1 <> [] -> wf_values (map fmt_of (ts1 ++ [rdf_type_bitmap])) vs -> fields_tokens (map pres_of (ts1 ++ [rdf_type_bitmap])) vs toks ->
  s = join_by 32 toks -> parse_text_fields (ts1 ++ [rdf_type_bitmap]) (Some s) = Ok (canon vs) -> all_readable (map pres_of (ts1 ++ [rdf_type_bitmap])) vs.
Proof.
  intros ts1 vs toks s PL NT W F -> P. rewrite map_app in *. assert (OR : Forall ordinary (map pres_of ts1)) by (apply Forall_forall; intros p I; apply in_map_iff in I as (t & <- & I); rewrite Forall_forall in PL; apply PL; auto).
  destruct (le_lt_dec (length vs) (length (map pres_of ts1))) as [L|L]; [apply ordinary_readable; auto|].
  destruct (fields_split _ _ _ _ F L) as (vs1 & vs2 & k1 & k2 & -> & -> & LE & F1 & F2 & N2). apply wf_split in W as [W1 W2]; [|rewrite map_length in *; auto].
  apply ordinary_more; auto. rewrite map_length in LE.
  assert (R1 : all_readable (map pres_of ts1) vs1) by (rewrite <- (app_nil_r (map pres_of ts1)); apply ordinary_readable; auto; rewrite map_length; lia).
  assert (NK : k1 <> []). { destruct ts1 as [|t1 ts1]; [congruence|]. destruct vs1 as [|v1 vs1]; [discriminate|]. intros ->. apply fields_tokens_nil in F1; [discriminate|eauto|auto]. }
  rewrite (fields_front ts1 [rdf_type_bitmap] vs1 k1 (match k2 with [] => [] | _ => 32 :: join_by 32 k2 end)) in P; auto.
  2:{ eapply Forall_impl; [|exact PL]. intros t T. unfold plain_rdf in T. tauto. } 2:{ apply sep_tail. } 2:{ rewrite join_tail by auto. reflexivity. }
  apply bind_ok in P as (o & P & E). assert (E2 : canon vs1 ++ o = canon vs1 ++ canon vs2) by (unfold canon in *; rewrite map_app, concat_app in E; congruence). apply app_inv_head in E2. subst o.
  cbn [map] in W2, F2. cbn [map pres_of]. inversion F2 as [|p ps v vs tk tk' FT FS]; subst; [congruence|]. inversion FS; subst. inversion FT as [| | | | | | | | | | | | | | | | |ws ts T|]; subst.
  cbn [all_readable readable]. split; [|exact I]. change (canon [VOctets (concat (map window ws))]) with (concat (map window ws) ++ []) in P. rewrite (app_nil_r (concat (map window ws))) in P.
  assert (NW : concat (map window ws) <> []) by (inversion W2; subst; auto).
  cbn [parse_text_fields] in P. match type of P with context [skip_space ?x] => destruct (skip_space x) as [|c r] end; [assert (concat (map window ws) = []) by congruence; congruence|].
  apply bind_ok in P as ([o e] & P & P2). cbn [parse_text_field] in P. apply bind_ok in P as (tl & T1 & P). apply bind_ok in P as (bm & T2 & P).
  destruct (proj1 (bitmap_iff (c :: r) bm)) as (ts' & ws' & _ & C & _ & E'); [eauto|]. assert (o = bm) by congruence. assert (concat (map window ws) = o ++ []) by (cbn [bind] in P2; congruence). rewrite app_nil_r in *. exists ws'. split; [auto|congruence].
Qed.

(** RRSIG: the type covered. *)
Lemma type_zero : forall s, type_text 0 s -> str_to_rrtype s = 0.
Proof.
  intros s [(m & I & ->)|(_ & d & D & ->)].
  - exfalso. assert (K : forallb (fun e : Z * _ => negb (fst e =? 0)) iana_types = true) by (vm_compute; reflexivity). rewrite forallb_forall in K. specialize (K _ I). cbn [fst] in K. lia.
  - assert (d = [48]) as ->; [|vm_compute; reflexivity]. rewrite (decimal_fmt_u 0 d ltac:(reflexivity) D). reflexivity.
Qed.
Lemma rrsig_back : forall ts1 vs toks, wf_values (map fmt_of (rdf_rrtype :: ts1)) vs -> Forall ordinary (map pres_of ts1) -> (length vs <= S (length ts1))%nat -> fields_tokens (map pres_of (rdf_rrtype :: ts1)) vs toks ->
  parse_text_fields (rdf_rrtype :: ts1) (Some (join_by 32 toks)) = Ok (canon vs) -> all_readable (map pres_of (rdf_rrtype :: ts1)) vs.
Proof.
  intros ts1 vs toks W OR LV F P. cbn [map pres_of] in *. inversion F as [|p ps v vs' tk tk' FT FS]; subst; [exact I|]. inversion FT as [| | | | | | | | | | | | | | | |l s T| |]; subst.
  cbn [all_readable]. split; [|rewrite <- (app_nil_r (map pres_of ts1)); apply ordinary_readable; auto; rewrite map_length; cbn in LV; lia].
  cbn [readable]. intros Z0. rewrite Z0 in T. pose proof (type_zero s T) as K. rewrite join_app in P by discriminate. cbn [join_by] in P.
  assert (VS : visible s /\ s <> []) by (eapply type_text_visible; eauto). destruct VS as [VS NS].
  cbn [parse_text_fields] in P. destruct s as [|c s]; [congruence|]. apply visible_cons in VS as VS'. destruct VS' as [Vc _]. cbn [app skip_space] in P. replace (isspace c) with false in P by (unfold isspace; lia).
  cbn [parse_text_field] in P. change (c :: s ++ ?x) with ((c :: s) ++ x) in P. rewrite token_visible in P by (auto; apply sep_tail). rewrite K in P. discriminate.
Qed.

(** A6 *)
Lemma a6_back : forall vs toks, wf_values (map fmt_of [rdf_ipv6prefix; rdf_uname]) vs -> fields_tokens [PPrefix6; PName] vs toks ->
  parse_text_fields [rdf_ipv6prefix; rdf_uname] (Some (join_by 32 toks)) = Ok (canon vs) -> all_readable [PPrefix6; PName] vs.
Proof.
  intros vs toks W F P. inversion F as [|p ps v next tk tk' FT FS]; subst; [exact I|].
  assert (NX : next = [] \/ exists ls, next = [VName ls] /\ valid_name ls /\ tk' = [pres_name ls]).
  { inversion FS as [|p ps v' next' tk1 tk1' FT1 FS1]; subst; [auto|]. inversion FS1; subst. inversion FT1; subst. right. exists ls. split; [reflexivity|]. split; [|reflexivity]. inversion W as [| |? ? ? ? ? ? ? ? W']; subst. inversion W'; subst; auto. }
  assert (RN : all_readable [PName] next) by (destruct NX as [->|(ls & -> & _)]; cbn; auto).
  cbn [all_readable] in *. split; [|exact RN]. inversion FT as [| | | | |E|p a s t L D T| | | | | | | | | | | |]; subst; cbn [readable].
  - split; [intros _|discriminate]. destruct NX as [->|(ls & -> & _)]; [|eauto]. exfalso. inversion FS; subst. vm_compute in P. discriminate.
  - split; [lia|]. intros ->. destruct NX as [->|(ls & -> & VN & ->)]; [reflexivity|]. exfalso.
    change (join_by 32 ([s; t] ++ [pres_name ls])) with (s ++ 32 :: t ++ 32 :: pres_name ls) in P.
    pose proof (ipv6_visible _ _ T) as [VT NT]. pose proof (decimal_visible _ _ D) as [VD ND]. destruct (pres_name_visible ls (proj1 VN)) as (VP & NP & _).
    destruct t as [|c0 t0]; [congruence|]. destruct s as [|c1 s1]; [congruence|]. pose proof VT as VT'. apply visible_cons in VT' as [V0 _]. pose proof VD as VD'. apply visible_cons in VD' as [V1 _].
    cbn [parse_text_fields] in P. cbn [app skip_space] in P. replace (isspace c1) with false in P by (unfold isspace; lia). cbn [parse_text_field] in P.
    change (c1 :: s1 ++ ?x) with ((c1 :: s1) ++ x) in P. rewrite (prefix_first 0) in P; auto; try lia.
    2:{ cbn [skip_space]. change (isspace 32) with true. cbv iota. replace (isspace c0) with false by (unfold isspace; lia). discriminate. } 2:{ right. eauto. }
    cbn [skip_space] in P. change (isspace 32) with true in P. cbv iota in P. replace (isspace c0) with false in P by (unfold isspace; lia). change (c0 :: t0 ++ ?x) with ((c0 :: t0) ++ x) in P.
    unfold prefix_second in P. rewrite token_visible in P by (auto; right; eauto). change (negb (0 =? 128)) with true in P. change (0 =? 0) with true in P. cbv iota zeta in P.
    destruct (inet_pton6 (c0 :: t0)) as [a'|]; [|discriminate]. destruct (rds a' _ _); cbn [bind end_or_null] in P; try discriminate.
    destruct (pres_name ls) as [|c2 q] eqn:EP; [congruence|]. apply visible_cons in VP as [V2 _]. cbn [skip_space] in P. replace (isspace c2) with false in P by (unfold isspace; lia). discriminate.
Qed.

(** SVCB and HTTPS *)
Lemma length_params : forall ps, (length ps <= length (concat (map param ps)))%nat.
Proof. induction ps as [|kv ps IH]; [cbn; lia|]. cbn [map concat length]. rewrite app_length. unfold param at 1. rewrite !app_length. cbn [u16 length]. lia. Qed.
Lemma svcb_back : forall vs s x, wf_values [FFixed 2; FName; FParams] vs -> zlen (canon vs) < 65536 ->
  fields_text [rdf_int16; rdf_name; rdf_svcparams] (canon vs) (zlen (canon vs)) = Ok (s, x) ->
  (forall a b, x = TNext a b -> parse_text_fields [rdf_int16; rdf_name; rdf_svcparams] (Some (strip_blank s)) = Ok (canon vs)) -> all_readable [PDec; PName; PParams] vs.
Proof.
  intros vs s x W L FT P. destruct (le_lt_dec (length vs) 2) as [LV|LV]; [apply (ordinary_readable [PDec; PName] [PParams]); auto; repeat constructor|].
  destruct vs as [|v1 [|v2 [|v3 vs]]]; try (cbn in LV; lia).
  inversion W as [| |f fs l1 vs1 F1 B1 N1 T1 W1]; subst. inversion W1 as [|? ls vs2 V2 W2|f2 fs2 l2 vs2 F2 B2 N2 T2 W2]; subst; [|cbn in F2; contradiction]. inversion W2 as [| |f fs l3 vs3 F3 B3 N3 T3 W3]; subst. inversion W3; subst.
  destruct F3 as (ps & PO & ->). cbn [all_readable readable]. split; [exact I|]. split; [exact I|]. split; [|exact I]. intros qs EQ _. apply params_unique in EQ. subst qs.
  assert (BP : Forall (fun kv => bytes_ok (snd kv)) ps) by (eapply Forall_impl; [|apply params_bound; exact B3]; cbn beta; tauto).
  assert (NP : ps <> []) by (intros ->; apply N3; reflexivity).
  destruct (params_printed ps PO B3) as (tx & TX & PT).
  set (C := concat (map param ps)) in *. assert (EC : canon [VOctets l1; VName ls; VOctets C] = l1 ++ wire ls ++ C) by (unfold canon; cbn [map concat canon1]; rewrite app_nil_r; reflexivity). rewrite EC in *.
  destruct (field_print rdf_int16 (VOctets l1) ltac:(discriminate)) as (k1 & K1 & Q1); [split; [exact F1|]; split; [auto|]; split; [auto|discriminate]|].
  destruct (field_print rdf_name (VName ls) ltac:(discriminate)) as (k2 & K2 & Q2); [split; [reflexivity|auto]|].
  pose proof (zlen_nonneg _ l1) as Z1. pose proof (zlen_nonneg _ (wire ls)) as Z2. pose proof (zlen_pos _ C N3) as Z3. rewrite !zlen_app in L.
  assert (BW : bytes_ok (wire ls)) by (apply wire_bytes; apply V2).
  assert (BR : bytes_ok (wire ls ++ C)) by (apply bytes_ok_app; auto).
  destruct (Q1 (wire ls ++ C) (zlen (l1 ++ wire ls ++ C)) BR ltac:(rewrite !zlen_app; cbn [canon1]; rewrite ?zlen_app; lia) ltac:(rewrite !zlen_app; lia) ltac:(discriminate)) as (s1 & R1 & S1). cbn [canon1] in R1, S1.
  rewrite S1 in R1 by (rewrite !zlen_app; lia). clear S1.
  replace (zlen (l1 ++ wire ls ++ C) - zlen l1) with (zlen (wire ls ++ C)) in R1 by (rewrite !zlen_app; lia).
  destruct (Q2 C (zlen (wire ls ++ C)) B3 ltac:(cbn [canon1]; rewrite ?zlen_app; lia) ltac:(rewrite !zlen_app; lia) ltac:(discriminate)) as (s2 & R2 & S2). cbn [canon1] in R2, S2.
  rewrite S2 in R2 by (rewrite !zlen_app; lia). clear S2. replace (zlen (wire ls ++ C) - zlen (wire ls)) with (zlen C) in R2 by (rewrite !zlen_app; lia).
  cbn [fields_text] in FT. replace (zlen (l1 ++ wire ls ++ C) =? 0) with false in FT by (rewrite !zlen_app; lia). rewrite R1 in FT. cbn [bind] in FT. replace (zlen (wire ls ++ C) =? 0) with false in FT by (rewrite !zlen_app; lia). rewrite R2 in FT. cbn [bind] in FT.
  replace (zlen C =? 0) with false in FT by lia. cbn [field_text] in FT. pose proof (PT (S (length C)) [] ltac:(unfold C; pose proof (length_params ps); lia)) as PT'. rewrite app_nil_r in PT'. rewrite PT' in FT. cbn [bind] in FT. unfold emit in FT. cbn [bind] in FT.
  assert (ES : s = sepd (k1 ++ k2) ++ tx) by (unfold ProofField.field_out, unblanked in FT; rewrite sepd_app, <- app_assoc; rewrite app_nil_r in FT; congruence). specialize (P [] 0 ltac:(congruence)). clear FT. subst s.
  assert (NK : k1 ++ k2 <> []) by (inversion K1; subst; discriminate). rewrite sepd_join in P by auto. rewrite <- app_assoc in P. cbn [app] in P.
  assert (X : exists tx', strip_blank (join_by 32 (k1 ++ k2) ++ 32 :: tx) = join_by 32 (k1 ++ k2) ++ 32 :: tx' /\ ptxt ps tx').
  { destruct (ptxt_head ps tx TX NP) as (c & r & -> & _). destruct (@exists_last _ (c :: r) ltac:(discriminate)) as (y & d & E). rewrite E in *. destruct (Z.eq_dec d 32) as [-> |ND].
    - exists y. split; [|eapply ptxt_strip; eauto]. replace (join_by 32 (k1 ++ k2) ++ 32 :: y ++ [32]) with ((join_by 32 (k1 ++ k2) ++ 32 :: y) ++ [32]) by (rewrite <- app_assoc; reflexivity). apply strip_blank_add.
    - exists (y ++ [d]). split; [|exact TX]. replace (join_by 32 (k1 ++ k2) ++ 32 :: y ++ [d]) with ((join_by 32 (k1 ++ k2) ++ 32 :: y) ++ [d]) by (rewrite <- app_assoc; reflexivity). apply strip_blank_keep. rewrite last_snoc. exact ND. }
  destruct X as (tx' & EX & TX'). rewrite EX in P. clear EX.
  rewrite (fields_front [rdf_int16; rdf_name] [rdf_svcparams] [VOctets l1; VName ls] (k1 ++ k2) (32 :: tx')) in P.
  - apply bind_ok in P as (o & P & E). assert (E2 : canon [VOctets l1; VName ls] ++ o = canon [VOctets l1; VName ls] ++ C).
    { replace (canon [VOctets l1; VName ls] ++ C) with (l1 ++ wire ls ++ C) by (unfold canon; cbn [map concat canon1]; rewrite app_nil_r, <- app_assoc; reflexivity). congruence. }
    apply app_inv_head in E2. subst o. cbn [parse_text_fields] in P. destruct (ptxt_head ps tx' TX' NP) as (c & r & EC' & SC). rewrite EC' in *. cbn [skip_space] in P. change (isspace 32) with true in P. cbv iota in P. rewrite SC in P.
    apply bind_ok in P as ([o e] & P & P2). cbn [parse_text_field] in P. apply bind_ok in P as (o2 & P & P3). apply params_iff in P; [|lia]. assert (o = C) by (cbn [bind] in P2; rewrite app_nil_r in P2; congruence). assert (o2 = C) by congruence. subst o2.
    eapply params_back; eauto; fold C; lia.
  - reflexivity.
  - change (map fmt_of [rdf_int16; rdf_name]) with [FFixed 2; FName]. apply wv_octets; auto; [discriminate|]. apply wv_name; auto; constructor.
  - cbn [map]. apply fs_field; auto. rewrite <- (app_nil_r k2). apply fs_field; auto. constructor.
  - cbn. auto.
  - repeat constructor; discriminate.
  - right. eauto.
  - reflexivity.
Qed.

(** ** All types *)
Lemma wf_length : forall fs vs, wf_values fs vs -> (length vs <= length fs)%nat.
Proof. induction 1; cbn [length]; lia. Qed.
Lemma tokens_length : forall ps vs toks, fields_tokens ps vs toks -> (length vs <= length ps)%nat.
Proof. induction 1; cbn [length]; lia. Qed.
Lemma read_back : forall t c vs s, t <> 41 -> has_fields t c = true -> wf_values (format_of t c) vs -> zlen (canon vs) < 65536 ->
  rdata_to_str (canon vs) (zlen (canon vs)) t c = Ok s -> str_to_rdata s t c = Ok (canon vs) -> all_readable (presentation_of t) vs.
Proof.
  intros t c vs s N H W L PR RD.
  destruct (in_dec Z.eq_dec t [64; 65]) as [SV|NSV].
  - destruct (table_fields t c H N) as (d & E1 & E2 & E3 & E4 & E5 & E6). rewrite format_of_fields, <- E3 in W. unfold rdata_to_str, rdata_to_ubuf in PR. unfold str_to_rdata in RD. rewrite E1, E2 in *. cbn [negb] in *.
    assert (ED : d_types d = [rdf_int16; rdf_name; rdf_svcparams]) by (cbn in SV; destruct SV as [<-|[<-|[]]]; unfold lookup_descr in E1; cbn in E1; injection E1 as <-; reflexivity).
    rewrite ED in *. apply bind_ok in PR as ([tx f] & FT & PR). rewrite E4.
    apply (svcb_back vs tx f W L FT). intros a b ->. assert (s = strip_blank tx) by (cbn [app] in PR; congruence). subst s. exact RD.
  - destruct (rdata_print [] t c vs [] N H W) as (toks & F & SOL & P); auto; [intros [->| ->]; exfalso; apply NSV; cbn; auto|constructor|]. rewrite app_nil_r in P. unfold rdata_to_str in PR.
    assert (ES : s = join_by 32 toks). { destruct toks as [|tk0 tks]; cbn [app] in P; [change (strip_blank []) with (@nil Z) in P; change (join_by 32 []) with (@nil Z)|]; congruence. } subst s.
    destruct (in_dec Z.eq_dec t [38; 46; 47; 50; 62]) as [SP|NSP].
    + destruct (table_fields t c H N) as (d & E1 & E2 & E3 & E4 & E5 & E6). rewrite format_of_fields, <- E3 in W. unfold str_to_rdata in RD. rewrite E1, E2 in RD. cbn [negb] in RD. rewrite E4 in *.
      cbn in SP. repeat (destruct SP as [<-|SP]; [unfold lookup_descr in E1; cbn in E1; injection E1 as <-; cbn [d_types] in *|]); [| | | | |contradiction].
      * apply (a6_back vs toks); auto.
      * eapply rrsig_back; eauto; [repeat constructor|]. apply wf_length in W. rewrite map_length in W. exact W.
      * eapply (bitmap_back [rdf_uname]); eauto; [repeat constructor; discriminate|discriminate].
      * eapply (bitmap_back [rdf_int8; rdf_int8; rdf_int16; rdf_salt; rdf_hash]); eauto; [repeat constructor; discriminate|discriminate].
      * eapply (bitmap_back [rdf_int32; rdf_int16]); eauto; [repeat constructor; discriminate|discriminate].
    + rewrite <- (app_nil_r (presentation_of t)). apply ordinary_readable; [|eapply tokens_length; eauto].
      assert (K : forallb (fun e : Z * list pres => existsb (Z.eqb (fst e)) [38; 41; 46; 47; 50; 62; 64; 65] || forallb (fun p => match p with PType | PTypes | PPrefix6 | PParams => false | _ => true end) (snd e)) rr_presentation = true) by (vm_compute; reflexivity).
      unfold presentation_of. destruct (find (fun e => fst e =? t) rr_presentation) as [[i ps]|] eqn:FE; [|constructor]. apply find_some in FE as [FE E]. cbn [fst] in E. apply Z.eqb_eq in E. subst i. rewrite forallb_forall in K. specialize (K _ FE). cbn [fst snd] in K.
      apply orb_true_iff in K as [K|K].
      * exfalso. apply existsb_exists in K as (x & X & E). apply Z.eqb_eq in E. subst x. cbn in X. cbn in NSP. cbn in NSV. intuition lia.
      * apply Forall_forall. intros p I. rewrite forallb_forall in K. specialize (K p I). destruct p; try discriminate; exact Logic.I.
Qed.
