(** ProofReadFault.v: the texts on which reading rdata is undefined behaviour, exactly. *)
From Verif Require Import Base Lib SpecName SpecStrName SpecMessage SpecFormat SpecText SpecRead SpecReadFault Libc ModelName ModelFormat ModelTables ModelDescr ModelFromStr.
From Verif Require Import ProofUnpack ProofFormat ProofB64 ProofB32 ProofRdata ProofStrName ProofStrName2 ProofField ProofFromStr ProofBitmap ProofFromSafe ProofRoundTrip ProofRoundTrip2 ProofSafe ProofWritten
  ProofRead1 ProofRead2 ProofRead3 ProofReadSvc ProofRead4 ProofRead5.

Lemma bind_ub : forall A B (o : outcome A) (k : A -> outcome B) x, bind o k = UB x <-> o = UB x \/ exists a, o = Ok a /\ k a = UB x.
Proof. intros A B [a|e|y|] k x; cbn [bind]; split; intros H; try discriminate; try (left; congruence); try (destruct H as [H|(a' & E & H)]; congruence). right; eauto. Qed.
Lemma fin_ub : forall A (o : outcome A) x, finished o -> o <> UB x.
Proof. intros A [a|e|y|] x; cbn; intros H E; try discriminate; auto. Qed.
Ltac nofault := split; [intros NF; exfalso; apply (fin_ub _ _ _) in NF; [exact NF|]|intros NF; exfalso; inversion NF].

(** ** Hexadecimal text *)
Lemma scan_octet_ub : forall s x, scan_octet s = UB x <-> Forall white s /\ x = Uninit.
Proof.
  intros s x. destruct (skip_space s) as [|c r] eqn:SK.
  - pose proof (proj1 (skip_space_nil s) SK) as W. unfold scan_octet, scan_hh. rewrite SK. split; [intros H; split; congruence|intros [_ ->]; reflexivity].
  - split.
    + intros H. exfalso. apply scan_hh_cases in SK. unfold scan_octet in H. destruct (scan_hh s); try discriminate. congruence.
    + intros [W _]. exfalso. apply skip_space_nil in W. congruence.
Qed.
Lemma hex_pairs_ub : forall f s x, (length s < f)%nat -> (hex_pairs f s = UB x <-> x = Uninit /\ exists k l e, hex_columns k s l e /\ Forall white e /\ 2 <= zlen e).
Proof.
  induction f as [|f IH]; intros s x L; [lia|]. cbn [hex_pairs]. destruct s as [|a [|b s]].
  - split; [discriminate|]. intros (_ & k & l & e & H & W & Z). inversion H; subst. cbn in Z. lia.
  - split; [discriminate|]. intros (_ & k & l & e & H & W & Z). inversion H; subst. cbn in Z. lia.
  - cbn [length] in L. rewrite bind_ub, scan_octet_ub. split.
    + intros [[W ->]|(v & V & H)].
      * split; auto. exists 0%nat, [], (a :: b :: s). split; [constructor|]. split; auto. rewrite !zlen_cons. pose proof (zlen_nonneg _ s). lia.
      * apply bind_ub in H as [H|(o & _ & H)]; [|discriminate]. apply IH in H as (-> & k & l & e & H & W & Z); [|lia]. split; auto. apply scan_octet_iff in V. exists (S k), (v :: l), e. split; [constructor; auto|auto].
    + intros (-> & k & l & e & H & W & Z). inversion H as [|k' a' b' s' v l' e' V H']; subst; [left; auto|]. right. exists v. split; [apply scan_octet_iff; auto|]. apply bind_ub. left. apply IH; [lia|]. eauto 10.
Qed.
Lemma salt_pairs_ub : forall n s x, 2 * Z.of_nat n <= zlen s -> (salt_pairs n s = UB x <-> x = Uninit /\ exists j l e, hex_columns j s l e /\ (j < n)%nat /\ Forall white e).
Proof.
  induction n as [|n IH]; intros s x L; cbn [salt_pairs].
  - split; [discriminate|]. intros (_ & j & l & e & _ & H & _). lia.
  - destruct s as [|a [|b s]]; try (rewrite ?zlen_cons in L; change (zlen (@nil Z)) with 0 in L; lia). rewrite !zlen_cons in L. rewrite bind_ub, scan_octet_ub. unfold skip. replace (zlen (a :: b :: s) <? 2) with false by (rewrite !zlen_cons; lia).
    change (adv (a :: b :: s) 2) with s. cbn [bind]. split.
    + intros [[W ->]|(v & V & H)].
      * split; auto. exists 0%nat, [], (a :: b :: s). split; [constructor|]. split; [lia|auto].
      * apply bind_ub in H as [H|([o q] & _ & H)]; [|discriminate]. apply IH in H as (-> & k & l & e & H & W & Z); [|lia]. split; auto. apply scan_octet_iff in V. exists (S k), (v :: l), e. split; [constructor; auto|]. split; [lia|auto].
    + intros (-> & k & l & e & H & W & Z). inversion H as [|k' a' b' s' v l' e' V H']; subst; [left; auto|]. right. exists v. split; [apply scan_octet_iff; auto|]. apply bind_ub. left. apply IH; [lia|]. split; auto. exists k', l', e. split; auto. split; [lia|auto].
Qed.

(** ** Base 64 *)
Lemma base64_ub : forall s x, bytes_ok s -> (base64_str_to_bytes s = UB x <-> In 123 s /\ x = OobRead).
Proof.
  intros s x B. destruct (in_dec Z.eq_dec 123 s) as [I|I].
  - assert (E : base64_str_to_bytes s = UB OobRead) by (apply decode_brace; auto; cbn; lia). rewrite E. split; [intros H; split; congruence|intros [_ ->]; auto].
  - destruct (base64_decode_safe s B I) as (o & E). rewrite E. split; [discriminate|tauto].
Qed.

(** ** Service parameters *)
Lemma svcparam_ub : forall k v x, 0 <= k < 65535 -> bytes_ok v ->
  (str_to_svcparam k (Some v) = UB x <-> x = OobRead /\ k = 5 /\ exists u t ts, up_to_nul v u /\ tokens 32 u (t :: ts) /\ zlen t <= 255 /\ In 123 t).
Proof.
  intros k v x K B. destruct (Z.eq_dec k 5) as [->|N5].
  - unfold str_to_svcparam. change (5 =? spr_invalid) with false. change (5 =? spr_nd_alpn) with false. change (5 =? spr_mandatory) with false. change (5 =? spr_port) with false. change (5 =? spr_ech) with true. cbv iota zeta.
    pose proof (proj1 (cstr_iff v (cstr v)) eq_refl) as UP. pose proof (up_bytes _ _ UP B) as [BU LU].
    assert (UPF : forall u, up_to_nul v u -> u = cstr v) by (intros u U; apply cstr_iff in U; auto).
    destruct (strtok 32 (cstr v)) as [[t r]|] eqn:SK.
    + destruct (proj1 (tokens_first 32 (cstr v) t) (ex_intro _ _ SK)) as (ts32 & T32). pose proof (tokens_bytes _ _ _ T32 BU) as BT. apply Forall_inv in BT.
      assert (Q : (exists u t0 ts, up_to_nul v u /\ tokens 32 u (t0 :: ts) /\ zlen t0 <= 255 /\ In 123 t0) <-> zlen t <= 255 /\ In 123 t).
      { split; [|intros [L I]; eauto 10]. intros (u & t' & ts & U & T & L & I). apply UPF in U. subst u. apply strtok_tokens in T as (r' & E & _). assert (t' = t) by congruence. subst. auto. }
      rewrite Q. destruct (zlen t >? 255) eqn:G; [split; [discriminate|lia]|]. rewrite !bind_ub, base64_ub by auto. split.
      * intros [[[I ->]|(o & _ & H)]|([o vl] & _ & H)]; try discriminate. split; auto. split; auto. split; auto. lia.
      * intros (-> & _ & L & I). left. left. auto.
    + split; [discriminate|]. intros (_ & _ & u & t & ts & U & T & _). apply UPF in U. subst u. apply strtok_tokens in T as (r' & E & _). congruence.
  - split; [|intros (_ & E & _); lia]. intros E. exfalso. revert E. apply fin_ub. unfold str_to_svcparam. change spr_invalid with 65535. change spr_nd_alpn with 2. change spr_mandatory with 0. change spr_port with 3. change spr_ech with 5. change spr_ipv4hint with 4. change spr_ipv6hint with 6. change spr_alpn with 1.
    replace (k =? 65535) with false by lia. destruct (k =? 2); [exact I|]. cbv zeta. pose proof (cstr_len v) as CL.
    assert (D : forall r : outcome (bytes * Z), finished r -> finished ('(o, vl) <- r ;; Ok (be16_octets k ++ be16_octets vl ++ o))) by (intros r F; apply finished_bind; [auto|intros [o vl] _; exact I]).
    destruct (k =? 0). { destruct (strtok 44 (cstr v)); [|exact I]. apply D. apply finished_bind; [apply mandatory_fin; lia|intros; exact I]. }
    destruct (k =? 3). { destruct (strtok 32 (cstr v)) as [[t r]|]; [|exact I]. destruct (strtoul t) as [y rest]. destruct (_ || _); exact I. }
    replace (k =? 5) with false by lia.
    destruct (k =? 4). { destruct (strtok 44 (cstr v)); [|exact I]. apply D. apply finished_bind; [apply hint_fin; lia|intros; exact I]. }
    destruct (k =? 6). { destruct (strtok 44 (cstr v)); [|exact I]. apply D. apply finished_bind; [apply hint_fin; lia|intros; exact I]. }
    destruct (k =? 1). { apply D. apply (alpn_fin (length v)). auto. }
    exact I.
Qed.
Lemma params_ub : forall f s x, (length s < f)%nat -> (svcparams_parse f s = UB x <-> x = OobRead /\ params_break s).
Proof.
  induction f as [|f IH]; intros s x L; [lia|]. destruct s as [|c r].
  { cbn [svcparams_parse]. split; [discriminate|]. intros [_ H]. exfalso. inversion H as [k ? ? ? ? ? ? ? ? ? ? ? ? ? Q|?|k e F E K P Q|k ? ? ? ? ? ? ? ? ? ? Q].
    - destruct k; discriminate.
    - destruct k; [rewrite svckey_nil in K; lia|discriminate].
    - destruct k; discriminate. }
  cbn [length] in L. cbn [svcparams_parse]. destruct (c =? 32) eqn:C.
  { replace c with 32 by lia. rewrite IH by lia. split; [intros [-> H]; split; auto; apply pb_blank; auto|]. intros [-> H]. split; auto.
    inversion H as [k s v e u t ts F K S U T ZL I Q|s P Q|k e F E K P Q|k s v w n e F K S V P Q]; subst; auto; destruct k as [|y k]; try (rewrite svckey_nil in K; lia); injection Q as -> Q; inversion F; lia. }
  destruct (split_at _ (c :: r)) as [ks val] eqn:SP. cbv zeta. change spr_invalid with 65535. change spr_nd_alpn with 2.
  pose proof SP as SP'. apply split_at_eq in SP' as (EQ & HV & FK). assert (FK' : Forall (fun x => x <> 61 /\ x <> 32) ks) by (eapply Forall_impl; [|exact FK]; cbn beta; intros; lia).
  assert (LV : ks <> [] -> (length val < S (length r))%nat). { intros N. apply (f_equal (@length Z)) in EQ. rewrite app_length in EQ. cbn [length] in EQ. destruct ks; [congruence|]. cbn [length] in EQ. lia. }
  assert (INV : params_break (c :: r) -> (str_to_svckey ks = 2 /\ (val = [] \/ exists x, val = 32 :: x) /\ params_break val) \/
    (str_to_svckey ks <> 65535 /\ exists s v e, val = 61 :: s /\ string_read s v e /\
      ((str_to_svckey ks = 5 /\ exists u t ts, up_to_nul v u /\ tokens 32 u (t :: ts) /\ zlen t <= 255 /\ In 123 t) \/ ((exists w n, value_reads (str_to_svckey ks) v w n) /\ params_break e)))).
  { intros H. inversion H as [k s v e u t ts F K S U T ZL I Q|s P Q|k e F E K P Q|k s v w n e F K S V P Q]; subst; [|lia| |].
    - right. rewrite <- Q in SP. rewrite key_split in SP; auto. 2:{ right. eauto. } assert (k = ks) by congruence. assert (val = 61 :: s) by congruence. subst. split; [lia|]. exists s, v, e. split; auto. split; auto. left. eauto 10.
    - left. rewrite <- Q in SP. rewrite key_split in SP; auto. 2:{ destruct E as [->|(y & ->)]; [auto|right; eauto]. } assert (k = ks) by congruence. assert (e = val) by congruence. subst. eauto 10.
    - right. rewrite <- Q in SP. rewrite key_split in SP; auto. 2:{ right. eauto. } assert (k = ks) by congruence. assert (val = 61 :: s) by congruence. subst. split; auto. exists s, v, e. eauto 10. }
  destruct (str_to_svckey ks =? 65535) eqn:KI.
  { split; [discriminate|]. intros [_ H]. apply INV in H as [(K & _)|(K & _)]; lia. }
  assert (NK : ks <> []) by (intros ->; rewrite svckey_nil in KI; lia). specialize (LV NK).
  assert (KR : 0 <= str_to_svckey ks < 65535). { destruct (svckey_range ks) as [KR _]; [change spr_invalid with 65535; lia|lia]. }
  assert (BARE : (val = [] \/ exists x, val = 32 :: x) -> ((if negb (str_to_svckey ks =? 2) then Err res_parse_error else o0 <- str_to_svcparam (str_to_svckey ks) None;; (o' <- svcparams_parse f val;; Ok (o0 ++ o'))) = UB x <-> x = OobRead /\ params_break (c :: r))).
  { intros HE. destruct (str_to_svckey ks =? 2) eqn:K2; cbn [negb].
    - replace (str_to_svckey ks) with 2 by lia. assert (Q0 : str_to_svcparam 2 None = Ok (u16 2 ++ u16 0)) by (vm_compute; reflexivity). rewrite Q0. cbn [bind]. rewrite bind_ub, IH by lia. split.
      + intros [[-> H]|(o & _ & H)]; [|discriminate]. split; auto. rewrite EQ. apply pb_flag; auto. lia.
      + intros [-> H]. apply INV in H as [(_ & _ & H)|(_ & s & v & e & -> & _)]; [auto|]. destruct HE as [HE|(y & HE)]; discriminate.
    - split; [discriminate|]. intros [_ H]. apply INV in H as [(K & _)|(_ & s & v & e & -> & _)]; [lia|]. destruct HE as [HE|(y & HE)]; discriminate. }
  destruct val as [|y v]; [apply BARE; auto|]. destruct (y =? 61) eqn:X61.
  - replace y with 61 in * by lia. cbn [length] in LV. destruct (from_str_string v) as [[l e]|] eqn:FS.
    + apply string_iff in FS. pose proof (string_bytes _ _ _ FS) as BL. pose proof (string_len _ _ _ FS) as LE. rewrite bind_ub, svcparam_ub by auto. split.
      * intros [(-> & K & u & t & ts & U & T & ZL & I)|(o & H0 & H)].
        -- split; auto. rewrite EQ. eapply pb_ech; eauto.
        -- apply bind_ub in H as [H|(o' & _ & H)]; [|discriminate]. apply IH in H as [-> H]; [|lia]. split; auto. apply svcparam_iff in H0 as (w & n & V & _); auto. rewrite EQ. eapply pb_value; eauto. lia.
      * intros [-> H]. apply INV in H as [(_ & [E|(z & E)] & _)|(_ & s & v' & e' & E & S & H)]; try discriminate. injection E as <-.
        apply string_iff in S. apply string_iff in FS. rewrite FS in S. assert (v' = l) by congruence. assert (e' = e) by congruence. subst.
        destruct H as [(K & H)|((w & n & V) & P)]; [left; auto|]. right. eexists. split; [apply svcparam_iff; eauto|]. apply bind_ub. left. apply IH; [lia|auto].
    + split; [discriminate|]. intros [_ H]. apply INV in H as [(_ & [E|(z & E)] & _)|(_ & s & v' & e' & E & S & H)]; try discriminate. injection E as <-. apply string_iff in S. congruence.
  - apply BARE. right. exists v. f_equal. destruct HV as [HV|(y' & z & HV & Y)]; [discriminate|]. injection HV as -> ->. lia.
Qed.

(** ** Fields *)
Lemma safe_field_ub : forall t c r x, t <> rdf_edns_opt_rdata -> SpecName.c_string (c :: r) -> isspace c = false -> field_ok t (c :: r) ->
  parse_text_field t (c :: r) <> UB x.
Proof. intros. apply fin_ub. apply field_fin; auto. Qed.
Lemma field_ub : forall t c r x, t <> rdf_edns_opt_rdata -> SpecName.c_string (c :: r) -> isspace c = false ->
  (parse_text_field t (c :: r) = UB x <-> field_breaks (pres_of t) (c :: r) x).
Proof.
  intros t c r x NE CS W. pose proof (c_string_bytes _ CS) as BO.
  destruct (token (c :: r)) as [tk te] eqn:TK. pose proof (proj1 (word_token c r tk te W) TK) as TW.
  assert (NAME : (match token (c :: r) with (t0, e) => '(d, len) <- str_to_name_case t0 [] ;; l <- take_rd d len ;; Ok (l, end_or_null e) end = UB x) <-> field_breaks PName (c :: r) x).
  { rewrite TK. assert (CT : SpecName.c_string tk) by (destruct (word_c_string _ _ _ CS TW); auto). cbv iota beta. rewrite bind_ub. split.
    - intros [H|([d n] & H & H2)].
      + assert (x = OobRead) as ->. { destruct (gen_total false tk CT) as [(ls & _ & _ & K)|[[_ K]|[[_ K]|[_ K]]]]; unfold str_to_name_case in H; rewrite K in H; congruence. }
        eapply fb_name; eauto. apply (gen_cut_iff false); auto.
      + exfalso. destruct (gen_total false tk CT) as [(ls & _ & _ & K)|[[_ K]|[[_ K]|[_ K]]]]; unfold str_to_name_case in H; rewrite K in H; try discriminate. assert (d = wire ls) by congruence. assert (n = zlen (wire ls)) by congruence. subst. rewrite take_rd_all in H2. discriminate.
    - intros H. inversion H as [s0 t0 e WD CE| | | |]; subst. destruct (word_fun _ _ _ _ _ WD TW) as [-> ->]. left. apply (gen_cut_iff false) in CE; auto. }
  destruct t; cbn [pres_of]; try congruence; auto;
    try (split; [intros H; exfalso; revert H; apply safe_field_ub; auto; exact I|intros H; inversion H]).
  - (* bytes *) cbn [parse_text_field]. rewrite bind_ub, hex_pairs_ub by lia. split.
    + intros [(-> & k & l & e & H)|(o & _ & H)]; [|discriminate]. destruct H as (H & Wh & Z). eapply fb_hex; eauto.
    + intros H. inversion H; subst. left. split; auto. eauto 10.
  - (* base64 *) cbn [parse_text_field]. rewrite bind_ub, base64_ub by auto. split.
    + intros [[I ->]|(o & H1 & H)]; [constructor; auto|]. exfalso. unfold base64_str_to_bytes in H1. apply decode_le in H1. change (zlen (@nil Z)) with 0 in H1. unfold skip in H. replace (zlen (c :: r) <? zlen o) with false in H by lia. discriminate.
    + intros H. inversion H; subst. left. auto.
  - (* salt *) cbn [parse_text_field]. rewrite TK. cbv iota beta. pose proof TW as (EQ & NT & _). pose proof (zlen_nonneg _ te) as ZTE. pose proof (zlen_nonneg _ tk) as ZTK.
    pose proof (Z.div_mod (zlen tk) 2 ltac:(lia)) as DM. pose proof (Z.mod_pos_bound (zlen tk) 2 ltac:(lia)) as MB. 
    assert (ZT : zlen (c :: r) = zlen tk + zlen te) by (rewrite EQ, zlen_app; auto).
    destruct ((nth 0 (c :: r) 0 =? 45) && (zlen tk =? 1)) eqn:B.
    { apply andb_prop in B as [B1 B2]. cbn [nth] in B1. unfold skip. replace (zlen (c :: r) <? 1) with false by lia. cbn [bind]. split; [discriminate|]. intros H. exfalso. inversion H as [| | |s0 t0 e j l e' WD ND L EV HC J Wh|]; subst.
      destruct (word_fun _ _ _ _ _ WD TW) as [-> ->]. destruct EV as (q & EV). lia. }
    destruct ((zlen tk >? 510) || (zlen tk mod 2 =? 1)) eqn:B2.
    { split; [discriminate|]. intros H. exfalso. inversion H as [| | |s0 t0 e j l e' WD ND L EV HC J Wh|]; subst. destruct (word_fun _ _ _ _ _ WD TW) as [-> ->]. destruct EV as (q & EV). rewrite EV in B2. replace (2 * q) with (q * 2) in B2 by lia. rewrite Z.mod_mul in B2 by lia. lia. }
    rewrite bind_ub, salt_pairs_ub by lia. split.
    + intros [(-> & j & l & e & HC & J & Wh)|([o q] & _ & H)]; [|discriminate]. eapply fb_salt; eauto; try lia.
      * intros ->. cbn [app] in EQ. injection EQ as -> _. cbn [nth] in B. change (zlen [45]) with 1 in B. discriminate.
      * exists (zlen tk / 2). lia.
    + intros H. inversion H as [| | |s0 t0 e j l e' WD ND L EV HC J Wh|]; subst. destruct (word_fun _ _ _ _ _ WD TW) as [-> ->]. left. split; auto. exists j, l, e'. split; auto. split; [lia|auto].
  - (* svcparams *) cbn [parse_text_field]. rewrite bind_ub, params_ub by lia. split.
    + intros [[-> H]|(o & _ & H)]; [|discriminate]. constructor; auto.
    + intros H. inversion H; subst. left. auto.
Qed.

(** ** Errors: a name that is too long, everything else is a parse error; and the fuel suffices. *)
Definition tidy {A} (o : outcome A) : Prop := match o with Err e => e = res_parse_error | NoFuel => False | _ => True end.
Lemma tidy_bind : forall A B (o : outcome A) (k : A -> outcome B), tidy o -> (forall a, o = Ok a -> tidy (k a)) -> tidy (bind o k).
Proof. intros A B [a|e|x|] k H K; cbn [bind] in *; auto. Qed.
Lemma scan_octet_tidy : forall s, tidy (scan_octet s).
Proof. intros s. unfold scan_octet. destruct (scan_hh s); cbn; auto. Qed.
Lemma hex_pairs_tidy : forall f s, (length s < f)%nat -> tidy (hex_pairs f s).
Proof.
  induction f as [|f IH]; intros s L; [lia|]. cbn [hex_pairs]. destruct s as [|a [|b s]]; [exact I|reflexivity|]. cbn [length] in L. apply tidy_bind; [apply scan_octet_tidy|]. intros v _. apply tidy_bind; [apply IH; lia|intros; exact I].
Qed.
Lemma salt_pairs_tidy : forall n s, tidy (salt_pairs n s).
Proof.
  induction n as [|n IH]; intros s; cbn [salt_pairs]; [exact I|]. apply tidy_bind; [apply scan_octet_tidy|]. intros v _. apply tidy_bind; [unfold skip; destruct (_ <? _); exact I|]. intros s' _. apply tidy_bind; [apply IH|intros [? ?] _; exact I].
Qed.
Lemma cs_tidy : forall s, tidy (str_to_cs s).
Proof. intros s. unfold str_to_cs. destruct (from_str_string s) as [[l r]|]; [|reflexivity]. destruct (negb _); cbn; auto. Qed.
Lemma strings_tidy : forall f s, (length s < f)%nat -> tidy (strings_parse f s).
Proof.
  induction f as [|f IH]; intros s L; [lia|]. cbn [strings_parse]. destruct s as [|c r]; [exact I|]. cbn [length] in L. destruct (isspace c); [apply IH; lia|]. apply tidy_bind; [apply cs_tidy|]. intros [o e] E. apply cs_rest in E as [E1 E2]. pose proof (proper_len _ _ E1 E2). cbn [length] in *. apply tidy_bind; [apply IH; lia|intros; exact I].
Qed.
Lemma mandatory_tidy : forall f s, (length s < f)%nat -> tidy (mandatory_toks f s).
Proof. induction f as [|f IH]; intros s L; [lia|]. cbn [mandatory_toks]. destruct (strtok 44 s) as [[t r]|] eqn:T; [|exact I]. apply strtok_parts in T as [T _]. cbv zeta. destruct (_ =? _); [reflexivity|]. apply tidy_bind; [apply IH; lia|intros; exact I]. Qed.
Lemma hint_tidy : forall f v4 s, (length s < f)%nat -> tidy (hint_toks f v4 s).
Proof. induction f as [|f IH]; intros v4 s L; [lia|]. cbn [hint_toks]. destruct (strtok 44 s) as [[t r]|] eqn:T; [|exact I]. apply strtok_parts in T as [T _]. destruct (if v4 then inet_pton4 t else inet_pton6 t); [|reflexivity]. apply tidy_bind; [apply IH; lia|intros; exact I]. Qed.
Lemma alpn_tidy : forall n v out cur oc vl, (length v <= n)%nat -> tidy (alpn_parse v out cur oc vl).
Proof.
  induction n as [|n IH]; intros v out cur oc vl L; destruct v as [|c r]; cbn [length] in L; try lia; cbn [alpn_parse]; try (destruct (negb _); exact I).
  destruct (c =? 92); [|destruct (c =? 44); apply IH; lia]. destruct r as [|d r]; [reflexivity|]. cbn [length] in L. destruct (_ && _); [reflexivity|apply IH; lia].
Qed.
Lemma base64_tidy : forall s, bytes_ok s -> tidy (base64_str_to_bytes s).
Proof.
  intros s B. destruct (in_dec Z.eq_dec 123 s) as [I|I].
  - pose proof (proj2 (base64_ub s OobRead B) (conj I eq_refl)) as E. rewrite E. exact Logic.I.
  - destruct (base64_decode_safe s B I) as (o & E). rewrite E. exact Logic.I.
Qed.
Lemma svcparam_tidy : forall k v, bytes_ok v -> tidy (str_to_svcparam k (Some v)).
Proof.
  intros k v B. unfold str_to_svcparam. destruct (k =? spr_invalid); [exact I|]. destruct (k =? spr_nd_alpn); [reflexivity|]. cbv zeta. pose proof (cstr_len v) as CL.
  assert (D : forall r : outcome (bytes * Z), tidy r -> tidy ('(o, vl) <- r ;; Ok (be16_octets k ++ be16_octets vl ++ o))) by (intros r F; apply tidy_bind; [auto|intros [o vl] _; exact I]).
  destruct (k =? spr_mandatory). { destruct (strtok 44 (cstr v)); [|reflexivity]. apply D. apply tidy_bind; [apply mandatory_tidy; lia|intros; exact I]. }
  destruct (k =? spr_port). { destruct (strtok 32 (cstr v)) as [[t r]|]; [|reflexivity]. destruct (strtoul t) as [x rest]. destruct (_ || _); [reflexivity|exact I]. }
  destruct (k =? spr_ech).
  { destruct (strtok 32 (cstr v)) as [[t r]|] eqn:T; [|reflexivity]. destruct (zlen t >? 255); [reflexivity|]. apply D. apply tidy_bind; [|intros; exact I]. apply strtok_parts in T as [_ T].
    apply base64_tidy. apply Forall_forall; intros x X; eapply Forall_forall in B; [exact B|]; apply cstr_In; auto. }
  destruct (k =? spr_ipv4hint). { destruct (strtok 44 (cstr v)); [|reflexivity]. apply D. apply tidy_bind; [apply hint_tidy; lia|intros; exact I]. }
  destruct (k =? spr_ipv6hint). { destruct (strtok 44 (cstr v)); [|reflexivity]. apply D. apply tidy_bind; [apply hint_tidy; lia|intros; exact I]. }
  destruct (k =? spr_alpn). { apply D. apply (alpn_tidy (length v)). auto. }
  exact I.
Qed.
Lemma params_tidy : forall f s, (length s < f)%nat -> tidy (svcparams_parse f s).
Proof.
  induction f as [|f IH]; intros s L; [lia|]. cbn [svcparams_parse]. destruct s as [|c r]; [exact I|]. cbn [length] in L. destruct (c =? 32); [apply IH; lia|]. destruct (split_at _ (c :: r)) as [ks val] eqn:SP.
  cbv zeta. destruct (str_to_svckey ks =? spr_invalid) eqn:KI; [reflexivity|].
  assert (KE : ks <> []). { intros ->. vm_compute in KI. discriminate. }
  apply split_at_eq in SP as (EQ & _ & _). assert (LV : (length val < f)%nat). { apply (f_equal (@length Z)) in EQ. rewrite app_length in EQ. cbn [length] in EQ. destruct ks; [congruence|]. cbn [length] in EQ. lia. }
  assert (BARE : tidy (if negb (str_to_svckey ks =? spr_nd_alpn) then Err res_parse_error else o <- str_to_svcparam (str_to_svckey ks) None ;; o' <- svcparams_parse f val ;; Ok (o ++ o'))).
  { destruct (negb _) eqn:Q; [reflexivity|]. unfold str_to_svcparam. rewrite KI. replace (str_to_svckey ks =? spr_nd_alpn) with true by (destruct (str_to_svckey ks =? spr_nd_alpn); auto; discriminate). cbn [bind].
    apply tidy_bind; [apply IH; auto|intros; exact I]. }
  destruct val as [|d v]; auto. destruct (d =? 61) eqn:DE; auto. destruct (from_str_string v) as [[l e]|] eqn:FS; [|reflexivity]. apply string_iff in FS. pose proof (string_bytes _ _ _ FS) as BL. pose proof (string_len _ _ _ FS) as LE. cbn [length] in LV.
  apply tidy_bind; [apply svcparam_tidy; auto|]. intros o _. apply tidy_bind; [apply IH; lia|intros; exact I].
Qed.
Lemma bitmap_tidy : forall f s, (length s < f)%nat -> tidy (bitmap_toks f s).
Proof.
  induction f as [|f IH]; intros s L; [lia|]. pose proof (bitmap_fin (S f) s L) as _. cbn [bitmap_toks]. destruct s as [|c r]; [exact I|]. cbn [length] in L. destruct (isspace c) eqn:W; [apply IH; lia|].
  destruct (token (c :: r)) as [t e] eqn:T. cbv zeta. destruct (_ && _); [reflexivity|]. apply tidy_bind; [|intros; exact I]. apply IH. apply word_token in T as (EQ & N & _); auto. apply (f_equal (@length Z)) in EQ. cbn [length] in EQ. rewrite app_length in EQ. destruct t; [congruence|]. cbn [length] in EQ. lia.
Qed.
Lemma int_tidy : forall n s, tidy (int_field n s).
Proof. intros n s. unfold int_field. destruct (token s). destruct (negb _); [reflexivity|]. destruct (scan_u s); try exact I. destruct (negb _); [reflexivity|exact I]. Qed.
Lemma eui_tidy : forall n s, tidy (eui_field n s).
Proof.
  intros n s. unfold eui_field. destruct (negb _); [reflexivity|]. apply tidy_bind.
  - revert s. induction n as [|n IH]; intros s; cbn [eui_check]; [exact I|]. unfold hd_rd. destruct s as [|a s]; [exact I|]. cbn [tl bind]. destruct s as [|b s]; [exact I|]. cbn [bind]. destruct (_ || _); [exact I|]. destruct n; [exact I|]. destruct s as [|d s]; [exact I|]. cbn [tl bind]. destruct (negb _); [exact I|]. apply IH.
  - intros [] _; cbn [negb]; [|reflexivity]. destruct (eui_scan n s); [exact I|reflexivity].
Qed.
Lemma prefix_tidy : forall c r, isspace c = false -> tidy (prefix_field (c :: r)).
Proof.
  intros c r W. unfold prefix_field. destruct (token (c :: r)) as [t e]. destruct (negb _); [reflexivity|]. destruct (scan_u (c :: r)) as [| |v q]; [exact I|reflexivity|]. cbv zeta. destruct (_ >? 128); [reflexivity|]. destruct (skip_space e) as [|d s] eqn:SK; [reflexivity|]. destruct (token (d :: s)) as [t' e'].
  destruct (inet_pton6 t') as [a|]; [|destruct (negb _); [reflexivity|exact I]]. apply tidy_bind.
  - unfold rds. destruct (_ || _); exact I.
  - intros o _. destruct (end_or_null e') as [z|]; [|exact I]. destruct (_ =? 0); [|exact I]. destruct (skip_space z); [exact I|reflexivity].
Qed.
(** The only other error: a name that is too long. *)
Definition long_name (p : pres) (s : bytes) : Prop := p = PName /\ exists t e, word s t e /\ size_failure same t.
Definition neat {A} (o : outcome A) (P : Prop) : Prop := o <> NoFuel /\ (forall e, o = Err e -> e = res_parse_error \/ e = res_name_overflow) /\ (o = Err res_name_overflow <-> P).
Lemma tidy_neat : forall A (o : outcome A) (P : Prop), tidy o -> ~ P -> neat o P.
Proof.
  intros A o P T N. destruct o as [a|e|x|]; cbn in T; try contradiction; (split; [discriminate|split; [intros e' E|split; intros E; try (exfalso; auto; fail)]]); try discriminate.
  - left. congruence.
  - subst e. discriminate.
Qed.
Lemma field_neat : forall t c r, t <> rdf_edns_opt_rdata -> SpecName.c_string (c :: r) -> isspace c = false -> neat (parse_text_field t (c :: r)) (long_name (pres_of t) (c :: r)).
Proof.
  intros t c r NE CS W. pose proof (c_string_bytes _ CS) as BO.
  destruct (token (c :: r)) as [tk te] eqn:TK. pose proof (proj1 (word_token c r tk te W) TK) as TW.
  assert (NAME : neat (match token (c :: r) with (t0, e) => '(d, len) <- str_to_name_case t0 [] ;; l <- take_rd d len ;; Ok (l, end_or_null e) end) (long_name PName (c :: r))).
  { rewrite TK. cbv iota beta. assert (CT : SpecName.c_string tk) by (destruct (word_c_string _ _ _ CS TW); auto).
    assert (LN : long_name PName (c :: r) <-> size_failure same tk). { split; [intros (_ & t' & e' & WD & SF); destruct (word_fun _ _ _ _ _ WD TW) as [-> ->]; auto|intros SF; split; eauto]. }
    unfold neat. rewrite LN. rewrite <- (gen_ovf_iff false tk CT). unfold str_to_name_case. destruct (gen_total false tk CT) as [(ls & _ & _ & K)|[[_ K]|[[_ K]|[_ K]]]]; rewrite K; cbn [bind].
    - rewrite take_rd_all. cbn [bind]. split; [discriminate|]. split; [discriminate|]. split; discriminate.
    - split; [discriminate|]. split; [intros e E; left; congruence|]. split; discriminate.
    - split; [discriminate|]. split; [intros e E; right; congruence|]. tauto.
    - split; [discriminate|]. split; [discriminate|]. split; discriminate. }
  destruct t; cbn [pres_of]; try congruence; auto; (apply tidy_neat; [|intros [Q _]; discriminate Q]); cbn [parse_text_field]; rewrite ?TK; cbv iota beta; try apply int_tidy; try apply eui_tidy.
  - apply tidy_bind; [apply hex_pairs_tidy; lia|intros; exact I].
  - apply tidy_bind; [apply base64_tidy; auto|]. intros o _. apply tidy_bind; [unfold skip; destruct (_ <? _); exact I|intros; exact I].
  - destruct (_ && _); [|reflexivity]. destruct (from_str_string (c :: r)) as [[l q]|]; [exact I|reflexivity].
  - destruct (inet_pton4 tk); [exact I|reflexivity].
  - destruct (inet_pton6 tk); [exact I|reflexivity].
  - apply prefix_tidy; auto.
  - apply tidy_bind; [apply cs_tidy|intros [? ?] _; exact I].
  - apply tidy_bind; [apply strings_tidy; lia|intros; exact I].
  - cbv zeta. destruct (_ >? 0); [exact I|reflexivity].
  - apply tidy_bind; [apply bitmap_tidy; lia|]. intros ts E. apply bitmap_toks_range in E. apply types_to_bitmap_spec in E as (ws & -> & _). exact I.
  - destruct (_ && _); [apply tidy_bind; [unfold skip; destruct (_ <? _); exact I|intros; exact I]|]. destruct (_ || _); [reflexivity|]. apply tidy_bind; [apply salt_pairs_tidy|intros [? ?] _; exact I].
  - destruct (_ =? 1); [apply tidy_bind; [unfold skip; destruct (_ <? _); exact I|intros; exact I]|]. unfold base32_decode. destruct (b32_dloop_safe tk (zlen tk) [] false [] ltac:(cbn; lia)) as (x & ->). cbn [bind]. destruct x; [|reflexivity]. destruct (negb _); [reflexivity|exact I].
  - apply tidy_bind; [apply params_tidy; lia|intros; exact I].
Qed.

(** ** All fields *)
Section All.
  (** Some event of the result: a fault or an error. [here]: when it happens at a field. *)
  Context (ev : forall A : Type, outcome A -> Prop) (B : pres -> bytes -> Prop)
    (ev_ok : forall A (a : A), ~ ev A (Ok a))
    (ev_bind : forall A C (o : outcome A) (k : A -> outcome C), ev C (bind o k) <-> ev A o \/ exists a, o = Ok a /\ ev C (k a))
    (here : forall t c r, t <> rdf_edns_opt_rdata -> SpecName.c_string (c :: r) -> isspace c = false -> (ev _ (parse_text_field t (c :: r)) <-> B (pres_of t) (c :: r))).
  Lemma fields_ev : forall ts s, ends_ok ts = true -> ~ In rdf_edns_opt_rdata ts -> SpecName.c_string s ->
    (ev _ (parse_text_fields ts (Some s)) <-> fields_upto B (combine (map fmt_of ts) (map pres_of ts)) s).
  Proof.
    induction ts as [|t ts IH]; intros s EN NE CS.
    - cbn [parse_text_fields map combine]. split; [intros H; exfalso; eapply ev_ok; eauto|]. intros H. inversion H.
    - assert (NE' : ~ In rdf_edns_opt_rdata ts) by (intros X; apply NE; right; auto).
      assert (NE1 : t <> rdf_edns_opt_rdata) by (intros ->; apply NE; left; auto).
      apply ends_tail in EN as [EN LAST]. cbn [parse_text_fields map combine]. destruct (skip_space s) as [|c r] eqn:SK.
      { apply skip_space_nil in SK. split; [intros H; exfalso; eapply ev_ok; eauto|]. intros H. exfalso. inversion H; subst; apply Forall_app in SK as [_ SK]; inversion SK; contradiction. }
      pose proof (skip_suffix s) as SS. rewrite SK in SS. destruct (skip_space_split _ _ _ SK) as (w & EQ & FW & NW). assert (W : isspace c = false) by (apply white_isspace; auto).
      assert (CS' : SpecName.c_string (c :: r)) by (eapply c_string_suffix; eauto).
      assert (REST : forall o e, parse_text_field t (c :: r) = Ok (o, e) -> (ev _ (parse_text_fields ts e) <-> fields_upto B (combine (map fmt_of ts) (map pres_of ts)) (skipped t e))).
      { intros o e PF. unfold skipped. destruct (to_end (fmt_of t)) eqn:TE.
        - destruct ts as [|t2 ts]; [|exfalso; assert (t2 :: ts <> []) as Q by discriminate; apply LAST in Q; congruence]. cbn [parse_text_fields map combine]. split; [intros H; exfalso; eapply ev_ok; eauto|]. intros H. inversion H.
        - rewrite parse_norm. apply IH; auto. apply field_rest in PF. destruct e as [e|]; cbn [norm]; [|constructor]. cbn in PF. eapply c_string_suffix; eauto. }
      assert (SAME : forall w' c' r', Forall white w' -> ~ white c' -> w' ++ c' :: r' = s -> c' = c /\ r' = r).
      { intros w' c' r' F N E. assert (E2 : skip_space (w' ++ c' :: r') = c' :: r') by (apply skip_space_app; auto). rewrite E, SK in E2. split; congruence. }
      rewrite ev_bind, here by auto. split.
      + intros [H|([o e] & PF & H)].
        * rewrite EQ. apply fs_here; auto.
        * apply ev_bind in H as [H|(o' & _ & H)]; [|exfalso; eapply ev_ok; eauto]. rewrite EQ. apply fs_later with (o := o) (e := skipped t e); auto; [apply field_iff; eauto|]. apply (REST o e PF). auto.
      + intros H. inversion H as [f p fs w' c' r' FW' NW' FB Q1 Q2|f p fs w' c' r' o e FW' NW' RF RS Q1 Q2]; subst f p fs.
        * destruct (SAME _ _ _ FW' NW' Q2) as [-> ->]. left. auto.
        * destruct (SAME _ _ _ FW' NW' Q2) as [-> ->]. right. apply field_iff in RF as (e' & PF & ->); auto. exists (o, e'). split; auto. apply ev_bind. left. apply (REST o e' PF). auto.
  Qed.
End All.
Lemma fields_ub : forall ts s x, ends_ok ts = true -> ~ In rdf_edns_opt_rdata ts -> SpecName.c_string s ->
  (parse_text_fields ts (Some s) = UB x <-> fields_break (combine (map fmt_of ts) (map pres_of ts)) s x).
Proof.
  intros ts s x EN NE CS. apply (fields_ev (fun A o => o = UB x) (fun p s => field_breaks p s x)); auto; [discriminate|intros; apply bind_ub|]. intros. apply field_ub; auto.
Qed.
Lemma bind_err : forall A B (o : outcome A) (k : A -> outcome B) x, bind o k = Err x <-> o = Err x \/ exists a, o = Ok a /\ k a = Err x.
Proof. intros A B [a|e|y|] k x; cbn [bind]; split; intros H; try discriminate; try (left; congruence); try (destruct H as [H|(a' & E & H)]; congruence). right; eauto. Qed.
Lemma fields_long : forall ts s, ends_ok ts = true -> ~ In rdf_edns_opt_rdata ts -> SpecName.c_string s ->
  (parse_text_fields ts (Some s) = Err res_name_overflow <-> fields_too_long (combine (map fmt_of ts) (map pres_of ts)) s).
Proof.
  intros ts s EN NE CS. apply (fields_ev (fun A o => o = Err res_name_overflow) long_name); auto; [discriminate|intros; apply bind_err|]. intros t c r N C W. apply (field_neat t c r N C W).
Qed.
Lemma upto_never : forall fs s, ~ fields_upto (fun _ _ => False) fs s.
Proof. intros fs s H. induction H; auto. Qed.
Lemma fields_codes : forall ts s, ends_ok ts = true -> ~ In rdf_edns_opt_rdata ts -> SpecName.c_string s ->
  parse_text_fields ts (Some s) <> NoFuel /\ (forall e, parse_text_fields ts (Some s) = Err e -> e = res_parse_error \/ e = res_name_overflow).
Proof.
  intros ts s EN NE CS.
  assert (G : ~ match parse_text_fields ts (Some s) with NoFuel => True | Err e => e <> res_parse_error /\ e <> res_name_overflow | _ => False end).
  { rewrite (fields_ev (fun A o => match o with NoFuel => True | Err e => e <> res_parse_error /\ e <> res_name_overflow | _ => False end) (fun _ _ => False)); auto.
    - apply upto_never.
    - intros A C [a|e|x|] k; cbn [bind]; split; intros H; auto; try (destruct H as [H|(a' & E & H)]; first [contradiction|discriminate|auto]; fail).
      + right. eauto.
      + destruct H as [H|(a' & E & H)]; [contradiction|]. assert (a' = a) by congruence. subst. auto.
    - intros t c r N C W. destruct (field_neat t c r N C W) as (F1 & F2 & _). destruct (parse_text_field t (c :: r)) as [a|e|x|]; split; try tauto; try congruence. intros [X Y]. destruct (F2 e eq_refl); contradiction. }
  split; [intros E; rewrite E in G; apply G; exact I|]. intros e E. rewrite E in G. clear E. destruct e; auto; exfalso; apply G; split; discriminate.
Qed.

(** ** The generic form *)
Lemma generic_ub : forall s x, str_to_generic_rdata s = UB x <-> generic_breaks s /\ x = Uninit.
Proof.
  intros s x. unfold str_to_generic_rdata, generic_breaks.
  destruct s as [|a [|b s]]; [cbn; split; [discriminate|intros ((w & E & _) & _); discriminate]|cbn [prefix_eq]; rewrite andb_false_r; cbn; split; [discriminate|intros ((w & E & _) & _); discriminate]|].
  destruct (negb (prefix_eq [92; 35] (a :: b :: s))) eqn:P.
  { split; [discriminate|]. intros ((w & E & _) & _). injection E as -> -> ->. cbn [prefix_eq] in P. change (92 =? 92) with true in P. change (35 =? 35) with true in P. discriminate. }
  cbn [prefix_eq] in P. apply negb_false_iff in P. assert (a = 92 /\ b = 35) as [-> ->] by lia. cbn [skipn].
  destruct s as [|c s]; [split; [discriminate|intros ((w & E & N & _) & _); injection E as <-; congruence]|].
  destruct (isspace c) eqn:W; cbn [negb].
  2:{ split; [discriminate|]. intros ((w & E & N & F) & _). injection E as <-. inversion F; subst. apply white_isspace in W. contradiction. }
  destruct (skip_space (c :: s)) as [|d q] eqn:SK.
  { pose proof (proj1 (skip_space_nil _) SK) as F. change (scan_u []) with ScanEof. cbn. split; [intros H; split; [|congruence]; exists (c :: s); split; auto; split; [discriminate|auto]|intros [_ ->]; reflexivity]. }
  split.
  - intros H. exfalso. destruct (skip_space_split _ _ _ SK) as (w & EQ & FW & NW). apply white_isspace in NW. revert H. destruct (split_at isspace (d :: q)) as [t e]. destruct (negb (forallb is_digit t)); [discriminate|]. pose proof (scan_u_head d q NW).
    destruct (scan_u (d :: q)) as [| |v y]; [congruence|discriminate|]. cbn [bind]. apply fin_ub. apply finished_bind; [apply generic_octets_fin; lia|]. intros o _. destruct (negb (zlen o =? _)); exact I.
  - intros ((w & E & N & F) & _). exfalso. injection E as <-. apply skip_space_nil in F. congruence.
Qed.

Lemma generic_tidy : forall s, tidy (str_to_generic_rdata s).
Proof.
  intros s. unfold str_to_generic_rdata. destruct (negb _); [reflexivity|]. cbv zeta. destruct (skipn 2 s) as [|c q]; [reflexivity|]. destruct (negb (isspace c)); [reflexivity|]. destruct (split_at isspace (skip_space (c :: q))) as [t e]. destruct (negb _); [reflexivity|].
  apply tidy_bind; [destruct (scan_u (skip_space (c :: q))); [exact I|reflexivity|exact I]|]. intros o _. apply tidy_bind.
  - generalize (S (length e)) as f, (Nat.lt_succ_diag_r (length e)). intros f. revert e. induction f as [|f IH]; intros e L; [lia|]. cbn [generic_octets]. destruct e as [|a e]; [exact I|]. cbn [length] in L. destruct (isspace a); [apply IH; lia|]. destruct e as [|b e]; [reflexivity|]. cbn [length] in L. apply tidy_bind; [apply scan_octet_tidy|]. intros v _. apply tidy_bind; [apply IH; lia|intros; exact I].
  - intros l _. destruct o; [|exact I]. destruct (negb _); [reflexivity|exact I].
Qed.
