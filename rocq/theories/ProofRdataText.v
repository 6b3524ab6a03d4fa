(** ProofRdataText.v: the text of whole rdata. *)
From Coq Require Strings.String.
From Verif Require Import Base Lib SpecName SpecMessage SpecEncode SpecFormat SpecTables SpecText Libc ModelName ModelFormat ModelTables ModelDescr ModelToStr ModelParse
  ProofUnpack ProofCopy ProofNameStr ProofNameOps ProofFormat ProofInet ProofInet6 ProofB64 ProofB32 ProofTables ProofRdata ProofPrint ProofPrint2 ProofField ProofVisible ProofEncode.

Lemma base64_nonempty : forall l, l <> [] -> base64 l <> [].
Proof. intros [|a [|b [|c l]]] H; cbn [base64]; try discriminate; congruence. Qed.
Lemma ht_nonempty : forall up l s, hex_text up l s -> l <> [] -> visible s /\ s <> [].
Proof. intros up l s H N. apply hex_text_visible in H as [V K]. auto. Qed.

Lemma field_tokens_solid : forall p v ts, field_tokens p v ts ->
  (match v with VName ls => valid_labels ls | VOctets l => bytes_ok l /\ l <> [] end) -> Forall solid ts.
Proof.
  intros p v ts H. destruct H; intros V; repeat match goal with |- Forall solid [_] => constructor; [|constructor] end;
    try (destruct V as [B NN]); try (apply quoted_solid); try (apply visible_solid; [apply (vis_lit_spec _)|]; [reflexivity|discriminate]).
  - apply pres_name_visible in V as (A & C & _). apply visible_solid; auto.
  - apply decimal_visible in H as [A C]. apply visible_solid; auto.
  - apply ht_nonempty in H as [A C]; auto. apply visible_solid; auto.
  - apply visible_solid; [apply (base64_visible (length l)); auto|apply base64_nonempty; auto].
  - constructor; [apply decimal_visible in H0 as [A C]; apply visible_solid; auto|]. constructor; [|constructor].
    apply ipv6_visible in H1 as [A C]. apply visible_solid; auto.
  - apply ht_nonempty in H0 as [A C]; auto. apply visible_solid; auto.
  - unfold char_string in B. apply bytes_ok_cons in B as [_ B]. apply visible_solid; [apply (base32_visible (length l)); auto|].
    intros K. pose proof (base32_length l H) as K2. rewrite K in K2. cbn in K2. lia.
  - apply ipv4_visible in H as [A C]. apply visible_solid; auto.
  - apply ipv6_visible in H as [A C]. apply visible_solid; auto.
  - assert (N2 : hs <> []) by (eapply Forall2_nonnil; eauto).
    destruct (join_visible 45 hs) as [A C]; [lia|auto|eapply Forall2_right; eauto; intros; eapply hex_octet_visible; eauto|]. apply visible_solid; auto.
  - apply Forall_forall. intros x X. apply in_map_iff in X as (y & <- & _). apply quoted_solid.
  - apply type_text_visible in H as [A C]. apply visible_solid; auto.
  - eapply Forall2_right; eauto. intros a b T. apply type_text_visible in T as [A C]. apply visible_solid; auto.
  - clear NN. revert B. induction H as [|kv s ps ts P F IH]; intros B; [constructor|]. cbn [map concat] in B. apply bytes_ok_app in B as [B1 B2].
    constructor; [|auto]. eapply param_text_solid; eauto. unfold param in B1. apply bytes_ok_app in B1 as [_ B1]. apply bytes_ok_app in B1 as [_ B1]. exact B1.
Qed.

Fixpoint unblanked_ok (ts : list rdf) : bool :=
  match ts with [] => true | [_] => true | t :: ts' => negb (unblanked t) && unblanked_ok ts' end.

Lemma unblanked_one : forall t v ts, unblanked t = true -> field_tokens (pres_of t) v ts -> exists x, ts = [x].
Proof. intros t v ts U F. destruct t; try discriminate; cbn [pres_of] in F; inversion F; subst; eauto. Qed.

Lemma canon_nil : forall fs vs, wf_values fs vs -> zlen (canon vs) = 0 -> vs = [].
Proof.
  intros fs vs W Z0. destruct W as [|fs ls vs V W|f fs l vs H B N E W]; auto; exfalso; unfold canon in Z0; cbn [map concat canon1] in Z0; rewrite zlen_app in Z0.
  - pose proof (zlen_nonneg _ (concat (map canon1 vs))). pose proof (zlen_nonneg _ (wire ls)). assert (zlen (wire ls) = 0) as Z1 by lia. apply zlen_zero in Z1. destruct ls; discriminate.
  - pose proof (zlen_nonneg _ (concat (map canon1 vs))). pose proof (zlen_hexw l N). lia.
Qed.
Lemma wf_bytes : forall fs vs, wf_values fs vs -> bytes_ok (canon vs).
Proof.
  induction 1 as [|fs ls vs V W IH|f fs l vs H B N E W IH]; [constructor| |]; unfold canon in *; cbn [map concat canon1]; apply bytes_ok_app; split; auto.
  apply wire_bytes. apply V.
Qed.

Lemma fields_print : forall ts vs after, wf_values (map fmt_of ts) vs -> ends_ok ts = true -> unblanked_ok ts = true -> ~ In rdf_edns_opt_rdata ts ->
  (In rdf_svcparams ts -> plain_values vs) -> zlen (canon vs) < 65536 -> bytes_ok after ->
  exists toks o src', fields_tokens (map pres_of ts) vs toks /\ Forall solid toks /\
    fields_text ts (canon vs ++ after) (zlen (canon vs)) = Ok (o, TNext src' 0) /\ (o = sepd toks \/ (toks <> [] /\ o = join_by 32 toks)).
Proof.
  induction ts as [|t ts IH]; intros vs after W EO UO NE PL L BA.
  { inversion W; subst. exists [], [], after. split; [constructor|]. split; [constructor|]. split; [reflexivity|left; reflexivity]. }
  destruct vs as [|v vs]; [exists [], [], after; split; [constructor|]; split; [constructor|]; split; [reflexivity|left; reflexivity]|].
  assert (NE1 : t <> rdf_edns_opt_rdata) by (intros ->; apply NE; left; auto).
  assert (VO : value_ok t v /\ wf_values (map fmt_of ts) vs /\ (to_end (fmt_of t) = true -> vs = []) /\
     (match v with VName ls => valid_labels ls | VOctets l => bytes_ok l /\ l <> [] end) /\ 1 <= zlen (canon1 v)).
  { cbn [map] in W. inversion W as [|? ls ? V W'|? ? l ? FO B N E W']; subst.
    - assert (FT : fmt_of t = FName) by congruence. split; [split; auto|]. split; [auto|]. split; [intros K; cbn in K; try rewrite FT in K; discriminate|]. split; [apply V|]. cbn [canon1].
      destruct (zlen (wire ls)) eqn:Z0; try lia; [apply zlen_zero in Z0; destruct ls; discriminate|pose proof (zlen_nonneg _ (wire ls)); lia].
    - split; [|split; [auto|split; [auto|split; [auto|apply zlen_hexw; auto]]]]. split; [auto|]. split; [auto|]. split; [auto|].
      intros -> ps E1 E2. apply (PL ltac:(left; reflexivity) l ps); auto. left. reflexivity. }
  destruct VO as (VO & W' & TE & VB & L1).
  assert (EO' : ends_ok ts = true /\ unblanked_ok ts = true /\ (unblanked t = true -> vs = [])).
  { destruct ts as [|t' ts]; [split; [auto|split; [auto|]]; intros _; inversion W'; auto|]. cbn [ends_ok unblanked_ok] in EO, UO. apply andb_prop in EO as [_ EO], UO as [U UO].
    split; [exact EO|split; [exact UO|]]. intros K. rewrite K in U. discriminate. }
  destruct EO' as (EO' & UO' & UV).
  assert (PL' : In rdf_svcparams ts -> plain_values vs). { intros I. specialize (PL (or_intror I)). intros l ps I2. apply PL. right. exact I2. }
  unfold canon in L |- *. cbn [map concat] in L |- *. fold (canon vs) in *. rewrite zlen_app in *. pose proof (zlen_nonneg _ (canon vs)) as NN.
  destruct (field_print t v NE1 VO) as (tk & T & P).
  destruct (IH vs after W' EO' UO' ltac:(intros I; apply NE; right; auto) PL' ltac:(lia) BA) as (toks & o & src' & F1 & F2 & F3 & F4).
  pose proof (field_tokens_solid _ _ _ T VB) as TS.
  assert (BR : bytes_ok (canon vs ++ after)) by (apply bytes_ok_app; split; auto; eapply wf_bytes; eauto).
  destruct (P (canon vs ++ after) (zlen (canon1 v) + zlen (canon vs)) BR) as (src1 & FT & S1).
  { rewrite !zlen_app. pose proof (zlen_nonneg _ after). lia. } { lia. }
  { intros K. rewrite (TE K). unfold canon. cbn [map concat]. change (zlen (@nil Z)) with 0. lia. }
  replace (zlen (canon1 v) + zlen (canon vs) - zlen (canon1 v)) with (zlen (canon vs)) in FT by lia.
  exists (tk ++ toks). 
  assert (R : exists src2, fields_text ts src1 (zlen (canon vs)) = Ok (o, TNext src2 0) /\ (zlen (canon vs) = 0 -> toks = [] /\ o = [])).
  { destruct (Z.eqb_spec (zlen (canon vs)) 0) as [Z0|NZ].
    - pose proof (canon_nil _ _ W' Z0) as ->. inversion F1; subst.
      assert (o = []) as ->. { destruct F4 as [-> |[K _]]; [reflexivity|congruence]. }
      exists src1. rewrite Z0. split; [destruct ts; reflexivity|auto].
    - rewrite S1 by lia. exists src'. split; [exact F3|lia]. }
  destruct R as (src2 & R & R0).
  exists (field_out t tk ++ o), src2.
  split; [cbn [map]; constructor; auto|]. split; [apply Forall_app; auto|]. split.
  { cbn [fields_text]. replace (zlen (canon1 v) + zlen (canon vs) =? 0) with false by lia. rewrite <- app_assoc. rewrite FT. cbn [bind]. rewrite R. reflexivity. }
  unfold field_out. destruct (unblanked t) eqn:U.
  - specialize (UV eq_refl). subst vs. destruct (R0 eq_refl) as [-> ->]. destruct (unblanked_one t v tk U T) as (x & ->). right. cbn [app concat join_by]. rewrite !app_nil_r. split; [discriminate|reflexivity].
  - destruct F4 as [-> |[N4 ->]].
    + left. rewrite sepd_app. reflexivity.
    + right. split; [destruct tk; [exact N4|discriminate]|]. clear - N4. induction tk as [|x tk IH]; [reflexivity|].
      cbn [app]. rewrite join_cons by (destruct tk; [exact N4|discriminate]). rewrite <- IH. unfold sepd. cbn [map concat]. rewrite <- !app_assoc. reflexivity.
Qed.

Lemma last_app_ne : forall (a b : bytes) d, b <> [] -> last (a ++ b) d = last b d.
Proof. induction a as [|x a IH]; intros b d H; [reflexivity|]. cbn [app]. rewrite last_cons; [auto|]. destruct a, b; try discriminate; congruence. Qed.
Lemma join_last : forall ts, ts <> [] -> Forall solid ts -> last (join_by 32 ts) 32 <> 32 /\ join_by 32 ts <> [].
Proof.
  induction ts as [|t ts IH]; intros N F; [congruence|]. inversion F as [|? ? S F']; subst. destruct S as (N1 & _ & L1). destruct ts as [|u ts]; [cbn [join_by]; auto|].
  rewrite join_cons by discriminate. destruct (IH ltac:(discriminate) F') as [L2 N2]. split; [|destruct t; [congruence|discriminate]].
  rewrite last_app_ne by discriminate. rewrite last_cons; auto.
Qed.
Lemma strip_blank_add : forall u, strip_blank (u ++ [32]) = u.
Proof. intros u. unfold strip_blank. rewrite rev_unit. cbn [Z.eqb Pos.eqb]. apply rev_involutive. Qed.
Lemma strip_blank_keep : forall u, last u 0 <> 32 -> strip_blank u = u.
Proof.
  intros u H. unfold strip_blank. destruct (rev u) as [|c r] eqn:E; [reflexivity|]. assert (u = rev r ++ [c]) as -> by (rewrite <- (rev_involutive u), E; reflexivity).
  rewrite last_snoc in H. replace (c =? 32) with false by lia. reflexivity.
Qed.
Lemma last_irrel : forall (l : bytes) a b, l <> [] -> last l a = last l b.
Proof. induction l as [|x l IH]; intros a b H; [congruence|]. destruct l as [|y l]; [reflexivity|]. rewrite !last_cons by discriminate. apply IH. discriminate. Qed.
Lemma strip_tokens : forall u o toks, Forall solid toks -> (o = sepd toks \/ (toks <> [] /\ o = join_by 32 toks)) ->
  strip_blank (u ++ o) = match toks with [] => strip_blank u | _ => u ++ join_by 32 toks end.
Proof.
  intros u o toks S H. destruct toks as [|t toks]; [destruct H as [-> |[K _]]; [cbn; rewrite app_nil_r; reflexivity|congruence]|].
  destruct (join_last (t :: toks) ltac:(discriminate) S) as [L N]. destruct H as [-> |[_ ->]].
  - rewrite sepd_join by discriminate. rewrite app_assoc. apply strip_blank_add.
  - apply strip_blank_keep. rewrite last_app_ne by auto. rewrite (last_irrel _ 0 32) by auto. exact L.
Qed.

(** ** The tables *)
Lemma no_fields_generic : forall t, find (fun e => fst e =? t) rr_formats = None -> lookup_descr t = None.
Proof.
  intros t H. unfold lookup_descr. apply assocZ_none. intros X.
  assert (G : forall (tb : list (Z * (bool * list fmt))) k, find (fun e => fst e =? k) tb = None -> ~ In k (map fst tb)).
  { clear. induction tb as [|[i d] tb IH]; intros k H; [auto|]. cbn [find fst] in H. destruct (Z.eqb_spec i k); [discriminate|]. cbn [map fst In]. intros [K|K]; [auto|]. eapply IH; eauto. }
  apply G in H. apply H. clear - X. cbn in *. tauto.
Qed.
Lemma table_fields : forall t c, has_fields t c = true -> t <> 41 -> exists d, lookup_descr t = Some d /\ (d_class d =? class_un) || (d_class d =? c) = true /\
  d_types d = fields_for t c /\ presentation_of t = map pres_of (d_types d) /\ unblanked_ok (d_types d) = true /\ ~ In rdf_edns_opt_rdata (d_types d).
Proof.
  intros t c H N. assert (I : In t (map fst rr_formats)).
  { destruct (in_dec Z.eq_dec t (map fst rr_formats)) as [I|I]; auto. unfold has_fields in H. rewrite find_none_key in H by auto. discriminate. }
  assert (G : exists d, lookup_descr t = Some d /\ (d_class d =? class_un) || (d_class d =? c) = true /\
     presentation_of t = map pres_of (d_types d) /\ unblanked_ok (d_types d) = true /\ ~ In rdf_edns_opt_rdata (d_types d)).
  { cbn in I. repeat (destruct I as [<-|I]; [first [congruence|eexists; split; [unfold lookup_descr; cbn; reflexivity|];
      unfold has_fields in H; cbn in H |- *; split; [first [reflexivity|destruct c as [|[]|]; first [discriminate|reflexivity]]|split; [reflexivity|split; [reflexivity|]]; intros K; repeat (destruct K as [K|K]; [discriminate|]); contradiction]]|]).
    contradiction. }
  destruct G as (d & L & C & P & U & K). exists d. split; [auto|]. split; [auto|]. split; [|auto]. unfold fields_for, descr_for. rewrite L, C. reflexivity.
Qed.

(** ** Rdata *)
Lemma rdata_print : forall u t c vs after, t <> 41 -> has_fields t c = true -> wf_values (format_of t c) vs -> (t = 64 \/ t = 65 -> plain_values vs) ->
  zlen (canon vs) < 65536 -> bytes_ok after ->
  exists toks, fields_tokens (presentation_of t) vs toks /\ Forall solid toks /\
    rdata_to_ubuf u (canon vs ++ after) (zlen (canon vs)) t c = Ok (match toks with [] => strip_blank u | _ => u ++ join_by 32 toks end).
Proof.
  intros u t c vs after N H W P L BA. destruct (table_fields t c H N) as (d & E1 & E2 & E3 & E4 & E5 & E6).
  rewrite format_of_fields, <- E3 in W.
  destruct (fields_print (d_types d) vs after W) as (toks & o & src & F1 & F2 & F3 & F4); auto.
  - rewrite E3. apply fields_for_ends.
  - intros I. apply P. rewrite E3 in I. apply svc_types in I. tauto.
  - exists toks. rewrite E4. split; [auto|]. split; [auto|]. unfold rdata_to_ubuf. rewrite E1, E2. cbn [negb]. rewrite F3. cbn [bind].
    f_equal. apply strip_tokens; auto.
Qed.
Lemma generic_print : forall u t c l after, find (fun e => fst e =? t) rr_formats = None -> bytes_ok l -> zlen l < 65536 -> 
  exists s, rdata_to_ubuf u (l ++ after) (zlen l) t c = Ok (u ++ s) /\ generic_text l s.
Proof.
  intros u t c l after F B L. apply no_fields_generic in F. unfold rdata_to_ubuf. rewrite F. pose proof (zlen_nonneg _ l).
  rewrite u64_text_fmt by lia. cbn [bind]. rewrite zlen_to_nat, hex_blanks_spec by (auto; lia). cbn [bind]. eexists. split; [reflexivity|]. eexists (fmt_u (zlen l)), _.
  split; [apply fmt_u_decimal; lia|]. split; [apply generic_hex_spec; auto|reflexivity].
Qed.
