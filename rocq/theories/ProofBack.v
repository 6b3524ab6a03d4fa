(** ProofBack.v: which printed rdata is read back as itself (necessity of the conditions of C48). *)
From Coq Require Strings.String.
From Verif Require Import Base Lib SpecName SpecStrName SpecMessage SpecEncode SpecFormat SpecTables SpecText SpecRead Libc ModelName ModelFormat ModelTables ModelDescr ModelFromStr ModelParse ModelToStr
  ProofUnpack ProofCopy ProofNameStr ProofStrName ProofNameMore ProofFormat ProofInet ProofInet6 ProofB64 ProofB32 ProofTables ProofRdata ProofPrint ProofPrint2 ProofField ProofVisible ProofRdataText ProofEncode ProofFromStr ProofBitmap ProofSvc ProofRoundTrip ProofRoundTrip2
  ProofWritten ProofRead3 ProofReadSvc ProofRead4.

(** ** Service parameters *)
(** Printed parameters, the blank at the end of the whole text removed or not. *)
Inductive ptxt : list (Z * bytes) -> bytes -> Prop :=
| px_nil : ptxt [] []
| px_plain : forall k v h ps r, param_text (k, v) h -> plain_param (k, v) -> ptxt ps r -> ptxt ((k, v) :: ps) (h ++ 32 :: r)
| px_stop : forall k v h, param_text (k, v) h -> plain_param (k, v) -> ptxt [(k, v)] h
| px_bad : forall k v h ps tx, ~ plain_param (k, v) -> key_text k h -> ptxt ((k, v) :: ps) (h ++ 61 :: tx).

Lemma key_free : forall k h, key_text k h -> Forall (fun c => c <> 61 /\ c <> 32) h /\ h <> [] /\ str_to_svckey h = k /\ 0 <= k < 65535.
Proof.
  intros k h K. pose proof (key_chars _ _ K) as O. pose proof (key_text_visible _ _ K) as [_ N]. destruct (key_text_parse _ _ K) as [P R]. split; [|auto].
  unfold only in O. rewrite forallb_forall in O. apply Forall_forall. intros x X. specialize (O x X). lia.
Qed.
Lemma back_value : forall k h s o, key_text k h -> service_params (h ++ 61 :: s) o ->
  exists v w n e o', string_read s v e /\ value_reads k v w n /\ service_params e o' /\ o = u16 k ++ u16 n ++ w ++ o'.
Proof.
  intros k h s o K H. destruct (key_free _ _ K) as (F & N & P & R). pose proof (key_split h (61 :: s) F ltac:(eauto 6)) as SP.
  inversion H as [Q|s0 o0 H0 Q|k0 e o0 F0 E0 K0 H0 Q|k0 s0 v w n e o0 F0 K0 S0 V0 H0 Q]; subst.
  - destruct h; discriminate.
  - destruct h as [|c h]; [congruence|]. injection Q as <- Q. inversion F; lia.
  - rewrite <- Q, key_split in SP; auto; [|destruct E0 as [->|(x & ->)]; eauto 6]. assert (e = 61 :: s) by congruence. subst e. destruct E0 as [E0|(x & E0)]; discriminate.
  - rewrite <- Q, key_split in SP; eauto 6. assert (k0 = h) by congruence. assert (s0 = s) by congruence. subst. eauto 10.
Qed.
Lemma back_flag : forall h e o, key_text 2 h -> (e = [] \/ exists r, e = 32 :: r) -> service_params (h ++ e) o -> exists o', service_params e o' /\ o = u16 2 ++ u16 0 ++ o'.
Proof.
  intros h e o K E H. destruct (key_free _ _ K) as (F & N & P & R). pose proof (key_split h e F ltac:(destruct E as [->|(r & ->)]; eauto 6)) as SP.
  inversion H as [Q|s0 o0 H0 Q|k0 e0 o0 F0 E0 K0 H0 Q|k0 s0 v w n e0 o0 F0 K0 S0 V0 H0 Q]; subst.
  - destruct h; [congruence|discriminate].
  - destruct h as [|c h]; [congruence|]. injection Q as <- Q. inversion F; lia.
  - rewrite <- Q, key_split in SP; auto; [|destruct E0 as [->|(x & ->)]; eauto 6]. assert (e0 = e) by congruence. subst. eauto.
  - rewrite <- Q, key_split in SP; eauto 6. assert (e = 61 :: s0) by congruence. subst e. destruct E as [E|(x & E)]; discriminate.
Qed.
Lemma back_blank : forall s o, service_params (32 :: s) o -> service_params s o.
Proof.
  intros s o H. inversion H as [|s0 o0 H0 Q|k0 e0 o0 F0 E0 K0 H0 Q|k0 s0 v w n e0 o0 F0 K0 S0 V0 H0 Q]; subst; auto.
  - destruct k0 as [|c k0]; [rewrite svckey_nil in K0; lia|]. injection Q as -> Q. inversion F0; lia.
  - destruct k0 as [|c k0]; [rewrite svckey_nil in K0; lia|]. injection Q as -> Q. inversion F0; lia.
Qed.

Lemma u16s_unique : forall ks js, concat (map u16 ks) = concat (map u16 js) -> ks = js.
Proof.
  induction ks as [|k ks IH]; intros [|j js] E; cbn [map concat] in E; try discriminate; auto. apply app_zlen_inj in E as [E1 E2]; [|reflexivity]. apply u16_inj in E1. f_equal; auto.
Qed.
Lemma strings_unique : forall ks js, concat (map char_string ks) = concat (map char_string js) -> ks = js.
Proof.
  induction ks as [|k ks IH]; intros [|j js] E; cbn [map concat] in E; try discriminate; auto. unfold char_string in E. cbn [app] in E. injection E as E0 E. apply app_zlen_inj in E as [E1 E2]; [|exact E0]. f_equal; auto.
Qed.

Lemma u16_len_eq : forall n m, 0 <= n < 65536 -> 0 <= m < 65536 -> u16 n = u16 m -> n = m.
Proof. intros. apply u16_inj; auto. Qed.

Lemma alpn_ids_text : forall ids, ids <> [] -> alpn_ids (join_by 44 (map (fun i => concat (map list_octet i)) ids)) ids.
Proof.
  assert (ID : forall i, SpecRead.alpn_id (concat (map list_octet i)) i).
  { induction i as [|c i IH]; [constructor|]. cbn [map concat]. apply an_cons; auto. unfold list_octet. destruct ((c =? 44) || (c =? 92)) eqn:E; [apply ao_escaped; lia|apply ao_plain; lia]. }
  induction ids as [|i ids IH]; intros N; [congruence|]. destruct ids as [|j ids].
  - cbn [map join_by]. apply as_last. apply ID.
  - cbn [map] in *. rewrite join_cons by discriminate. apply as_more; [apply ID|]. apply IH. discriminate.
Qed.
Lemma alpn_length_text : forall ids, ids <> [] -> Forall (fun s => zlen s <= 255) ids -> alpn_length ids = zlen (concat (map char_string ids)) - (if zlen (last ids []) =? 0 then 1 else 0).
Proof.
  induction ids as [|i ids IH]; intros N F; [congruence|]. inversion F as [|? ? F1 F2]; subst. pose proof (zlen_nonneg _ i). destruct ids as [|j ids].
  - cbn [alpn_length map concat last]. rewrite app_nil_r, Z.mod_small by lia. unfold char_string. rewrite zlen_cons. destruct (zlen i =? 0) eqn:E; lia.
  - change (alpn_length (i :: j :: ids)) with (zlen i mod 256 + 1 + alpn_length (j :: ids)). rewrite IH by (auto; discriminate). change (last (i :: j :: ids) []) with (last (j :: ids) []).
    change (concat (map char_string (i :: j :: ids))) with (char_string i ++ concat (map char_string (j :: ids))). rewrite zlen_app. unfold char_string at 2. rewrite zlen_cons, Z.mod_small by lia. lia.
Qed.
Lemma alpn_octets_text : forall ids, Forall (fun s => zlen s <= 255) ids -> alpn_octets ids = concat (map char_string ids).
Proof.
  induction 1 as [|i ids F1 F2 IH]; [reflexivity|]. unfold alpn_octets in *. cbn [map concat]. rewrite IH. pose proof (zlen_nonneg _ i). rewrite Z.mod_small by lia. reflexivity.
Qed.

Lemma zlen_pos : forall A (l : list A), l <> [] -> 1 <= zlen l.
Proof. intros A [|a l] H; [congruence|]. rewrite zlen_cons. pose proof (zlen_nonneg _ l). lia. Qed.
(** A parameter that was printed from its defined text and read back with its own octets is readable. *)
Lemma back_readable : forall k v t r s w n e rest o', value_text k v t -> plain_param (k, v) -> bytes_ok v -> zlen v < 65536 -> sep r ->
  string_read (t ++ r) s e -> value_reads k s w n -> zlen w + zlen o' < 65536 -> u16 n ++ w ++ o' = u16 (zlen v) ++ v ++ rest -> readable_param (k, v).
Proof.
  intros k v t r s w n e rest o' VT PP B L S SR VR LW EQ. pose proof (zlen_nonneg _ v) as LV. apply string_iff in SR. apply app_zlen_inj in EQ as [EN EQ]; [|reflexivity]. apply u16_inj in EN. assert (EN' : 0 + n = 0 + zlen v) by lia. clear EN. rename EN' into EN. 
  split; [exact PP|]. cbn [fst snd]. split; intros ->.
  - intros ids EV. inversion VT as [|ids' NE F E1 E2| | | | |]; subst; [|lia]. apply strings_unique in E2. subst ids'.
    assert (BI : Forall bytes_ok ids) by (apply char_strings_bytes; auto).
    assert (BJ : bytes_ok (join_by 44 (map (fun i => concat (map list_octet i)) ids))).
    { clear - BI. induction BI as [|i ids Bi _ IH]; [constructor|]. assert (BL : bytes_ok (concat (map list_octet i))).
      { clear IH. induction Bi as [|c i Hc _ IH]; [constructor|]. cbn [map concat]. apply bytes_ok_app. split; [|exact IH]. unfold list_octet. unfold is_byte in Hc. destruct ((c =? 44) || (c =? 92)); repeat (apply Forall_cons || apply Forall_nil); unfold is_byte; lia. }
      cbn [map]. destruct ids as [|j ids]; [exact BL|]. cbn [map] in *. rewrite join_cons by discriminate. apply bytes_ok_app. split; [exact BL|]. apply bytes_ok_cons. split; [unfold is_byte; lia|exact IH]. }
    unfold alpn_value_text in SR. rewrite from_str_quoted in SR by auto. assert (s = join_by 44 (map (fun i => concat (map list_octet i)) ids)) by congruence. subst s.
    inversion VR as [|v0 ls A| | | | |]; subst; [|match goal with K : ~ In 1 _ |- _ => exfalso; apply K; cbn; tauto end].
    pose proof (alpn_complete _ _ A [] 0 ltac:(lia)) as A1. pose proof (alpn_complete _ _ (alpn_ids_text ids NE) [] 0 ltac:(lia)) as A2. rewrite A1 in A2.
    assert (EL : alpn_length ls mod 65536 = alpn_length ids mod 65536) by (rewrite !Z.add_0_l in A2; congruence).
    pose proof (alpn_length_text ids NE F) as AL. rewrite !Z.add_0_l in EN. rewrite EN in EL. intros LL. rewrite LL in AL. change (zlen (@nil Z)) with 0 in AL. change (0 =? 0) with true in AL. cbv iota in AL.
    pose proof (zlen_char_strings_pos ids NE) as PS. rewrite AL, Z.mod_small in EL by lia. lia.
  - inversion VT as [| | | |l| |]; subst; [|lia]. assert (NV : v <> []).
    { intros ->. change (base64 []) with (@nil Z) in SR. cbn [app] in SR. destruct S as [->|(x & ->)]; [discriminate|]. cbn in SR. discriminate. }
    pose proof (zlen_hexw v NV). split; [lia|]. pose proof (base64_visible (length v) v (le_n _) B) as V. pose proof (base64_nonempty v NV) as N.
    assert (NS : no_char 32 (base64 v)) by (eapply Forall_impl; [|exact V]; cbn beta; intros; lia).
    rewrite plain_read in SR; auto; [|eapply only_weaken; [apply (b64_only (length v) v); auto|]; unfold plain_char; cbn beta; intros; lia].
    assert (s = base64 v) by congruence. subst s.
    inversion VR as [| | | |v0 u t ts vs l U TK LE BC OO| |]; subst; [|match goal with K : ~ In 5 _ |- _ => exfalso; apply K; cbn; tauto end].
    apply cstr_iff in U. rewrite visible_cstr in U by auto. subst u. assert (strtok 32 (base64 v) = Some (base64 v, [])) as ST by (apply strtok_one; auto).
    destruct (proj2 (tokens_first 32 (base64 v) t) (ex_intro _ ts TK)) as (x & ST'). assert (t = base64 v) by congruence. subst t.
    rewrite (base64_len_eq (length v)) in LE by lia. pose proof (Z.div_mod (zlen v + 2) 3 ltac:(lia)). pose proof (Z.mod_pos_bound (zlen v + 2) 3 ltac:(lia)). lia.
Qed.
(** A parameter without a defined text is not read back, whatever was printed behind its key. *)
Lemma back_bad : forall k v s w n e rest o', ~ plain_param (k, v) -> param_ok k v -> zlen v < 65536 -> bytes_ok v ->
  string_read s v e \/ True -> forall x, value_reads k x w n -> zlen w + zlen o' < 65536 -> u16 n ++ w ++ o' = u16 (zlen v) ++ v ++ rest -> False.
Proof.
  intros k v s w n e rest o' NP PO L B _ x VR LW EQ. pose proof (zlen_nonneg _ v) as LV. pose proof (zlen_nonneg _ o') as LO. apply app_zlen_inj in EQ as [EN EQ]; [|reflexivity]. apply u16_inj in EN. assert (EN' : 0 + n = 0 + zlen v) by lia. clear EN. rename EN' into EN. 
  apply NP. unfold plain_param. cbn [fst snd]. split; [|split]; intros ->.
  - inversion VR as [v0 u ts U TK NE F| | | | | |]; subst; [|match goal with K : ~ In 0 _ |- _ => exfalso; apply K; cbn; tauto end].
    set (ks := map str_to_svckey ts). assert (EW : concat (map (fun t => u16 (str_to_svckey t)) ts) = concat (map u16 ks)) by (unfold ks; rewrite map_map; reflexivity). rewrite EW in *.
    pose proof (ProofPrint2.zlen_u16s ks) as LK. assert (zlen ks = zlen ts) as LT by (unfold ks, zlen; rewrite map_length; reflexivity). rewrite LT in LK.
    pose proof (zlen_nonneg _ ts). rewrite Z.mod_small in EN by lia. apply app_zlen_inj in EQ as [EQ _]; [|lia]. exists ks. split; [unfold ks; destruct ts; [congruence|discriminate]|]. split; [|auto].
    unfold ks. apply Forall_forall. intros y Y. apply in_map_iff in Y as (t & <- & I). rewrite Forall_forall in F. specialize (F t I). destruct (svckey_range t) as [R _]; [exact F|exact R].
  - inversion VR as [| | |v0 u ts az U TK NE F| | |]; subst; [|match goal with K : ~ In 4 _ |- _ => exfalso; apply K; cbn; tauto end].
    assert (LA : zlen (concat az) = 4 * zlen ts) by (apply (zlen_addrs _ _ _ _ (fun t a P => proj2 (inet_pton4_out t a P)) F)). pose proof (zlen_pos _ ts NE). rewrite Z.mod_small in EN by lia. intros ->. change (zlen (@nil Z)) with 0 in EN. lia.
  - inversion VR as [| | | | |v0 u ts az U TK NE F|]; subst; [|match goal with K : ~ In 6 _ |- _ => exfalso; apply K; cbn; tauto end].
    assert (LA : zlen (concat az) = 16 * zlen ts) by (apply (zlen_addrs _ _ _ _ (fun t a P => proj2 (inet_pton6_out t a P)) F)). pose proof (zlen_pos _ ts NE). rewrite Z.mod_small in EN by lia. intros ->. change (zlen (@nil Z)) with 0 in EN. lia.
Qed.

Lemma params_back : forall ps s, ptxt ps s -> Forall (fun kv => param_ok (fst kv) (snd kv) /\ zlen (snd kv) < 65532) ps -> bytes_ok (concat (map param ps)) ->
  zlen (concat (map param ps)) < 65536 -> service_params s (concat (map param ps)) -> Forall readable_param ps.
Proof.
  assert (STEP : forall k v h ps r, param_text (k, v) h -> plain_param (k, v) -> param_ok k v -> zlen v < 65532 -> bytes_ok v -> sep r ->
    zlen (param (k, v) ++ concat (map param ps)) < 65536 -> service_params (h ++ r) (param (k, v) ++ concat (map param ps)) ->
    readable_param (k, v) /\ service_params r (concat (map param ps))).
  { intros k v h ps r PT PP PO LV B SR LT SP. inversion PT as [s0 K E1 E2|k0 v0 s0 t K VT E1 E2]; subst.
    - split.
      { split; [exact PP|]. cbn [fst snd]. split; intros; lia. }
      destruct (back_flag h r _ K SR SP) as (o' & P & E). change (param (2, [])) with (u16 2 ++ u16 0 ++ @nil Z) in E. rewrite <- !app_assoc in E. apply app_zlen_inj in E as [_ E]; [|reflexivity]. apply app_zlen_inj in E as [_ E]; [|reflexivity]. cbn [app] in E. rewrite E. exact P.
    - rewrite <- app_assoc in SP. cbn [app] in SP. destruct (back_value k s0 (t ++ r) _ K SP) as (x & w & n & e & o' & S1 & V1 & P1 & E). unfold param in E, LT. cbn [fst snd] in E, LT. rewrite <- !app_assoc in E. rewrite <- !app_assoc in LT.
      apply app_zlen_inj in E as [_ E]; [|reflexivity]. symmetry in E. assert (LE : zlen w + zlen o' < 65536).
      { rewrite <- E in LT. rewrite !zlen_app in LT. pose proof (zlen_nonneg _ (u16 k)). pose proof (zlen_nonneg _ (u16 n)). lia. }
      assert (RP : readable_param (k, v)) by (eapply (back_readable k v t r x w n e _ o'); eauto; lia). split; [exact RP|].
      destruct (value_read k v t r VT RP B ltac:(lia) SR) as (l & F1 & F2). apply string_iff in S1. assert (x = l) by congruence. assert (e = r) by congruence. subst x e.
      destruct (key_free _ _ K) as (_ & _ & _ & KR). apply string_iff in S1. pose proof (string_bytes _ _ _ S1) as BL.
      pose proof (proj2 (svcparam_iff k l (u16 k ++ u16 n ++ w) KR BL) ltac:(eauto)) as F3. assert (F4 : u16 k ++ u16 n ++ w = param (k, v)) by congruence. unfold param in F4. cbn [fst snd] in F4. apply app_zlen_inj in F4 as [_ F4]; [|reflexivity].
      assert (E' : (u16 n ++ w) ++ o' = (u16 (zlen v) ++ v) ++ concat (map param ps)) by (rewrite <- !app_assoc; exact E). rewrite F4 in E'. apply app_inv_head in E'. subst o'. exact P1. }
  induction 1 as [|k v h ps r PT PP X IH|k v h PT PP|k v h ps tx NP K]; intros F B L SP; [constructor| | |]; inversion F as [|? ? [PO LV] F']; subst; cbn [fst snd] in *; cbn [map concat] in B, L, SP.
  - apply bytes_ok_app in B as [B1 B2]. assert (Bv : bytes_ok v) by (unfold param in B1; rewrite !bytes_ok_app in B1; tauto).
    destruct (STEP k v h ps (32 :: r) PT PP PO LV Bv ltac:(right; eauto) L SP) as [R SP']. apply back_blank in SP'. constructor; auto. apply IH; auto. rewrite zlen_app in L. pose proof (zlen_nonneg _ (param (k, v))). lia.
  - apply bytes_ok_app in B as [B1 B2]. assert (Bv : bytes_ok v) by (unfold param in B1; rewrite !bytes_ok_app in B1; tauto). rewrite <- (app_nil_r h) in SP.
    destruct (STEP k v h [] [] PT PP PO LV Bv ltac:(left; auto) L SP) as [R _]. constructor; auto.
  - exfalso. apply bytes_ok_app in B as [B1 B2]. assert (Bv : bytes_ok v) by (unfold param in B1; rewrite !bytes_ok_app in B1; tauto).
    destruct (back_value k h tx _ K SP) as (x & w & n & e & o' & S1 & V1 & P1 & E). unfold param in E, L. cbn [fst snd] in E, L. rewrite <- !app_assoc in E. rewrite <- !app_assoc in L.
    apply app_zlen_inj in E as [_ E]; [|reflexivity]. symmetry in E. eapply (back_bad k v [] w n [] _ o' NP PO ltac:(lia) Bv ltac:(auto) x V1); [|exact E].
    rewrite <- E in L. rewrite !zlen_app in L. pose proof (zlen_nonneg _ (u16 k)). pose proof (zlen_nonneg _ (u16 n)). lia.
Qed.

(** What is printed is of this form. *)
Lemma u16_pairs : forall n v, bytes_ok v -> zlen v = 2 * Z.of_nat n -> exists ks, v = concat (map u16 ks) /\ Forall (fun k => 0 <= k < 65536) ks.
Proof.
  induction n as [|n IH]; intros v B L.
  - exists []. destruct v; [auto|]. rewrite zlen_cons in L. pose proof (zlen_nonneg _ v). lia.
  - destruct v as [|a [|b v]]; try (unfold zlen in L; cbn [length] in L; lia). apply bytes_ok_cons in B as [Ba B]. apply bytes_ok_cons in B as [Bb B]. rewrite !zlen_cons in L. destruct (IH v B ltac:(lia)) as (ks & -> & F).
    exists (be16 a b :: ks). cbn [map concat]. rewrite u16_be16 by auto. split; [reflexivity|]. constructor; auto. unfold is_byte in *. unfold be16. lia.
Qed.
Lemma plain_dec : forall k v, bytes_ok v -> param_ok k v -> plain_param (k, v) \/ ~ plain_param (k, v).
Proof.
  intros k v B PO. destruct PO as (_ & P0 & _). unfold plain_param. cbn [fst snd].
  assert (N4 : (k = 4 -> v <> []) \/ ~ (k = 4 -> v <> [])) by (destruct (Z.eq_dec k 4); destruct v; try (left; intros; congruence); right; intros H; apply H; auto).
  assert (N6 : (k = 6 -> v <> []) \/ ~ (k = 6 -> v <> [])) by (destruct (Z.eq_dec k 6); destruct v; try (left; intros; congruence); right; intros H; apply H; auto).
  assert (N0 : (k = 0 -> exists ks, ks <> [] /\ Forall (fun k => 0 <= k < 65535) ks /\ v = concat (map u16 ks)) \/ ~ (k = 0 -> exists ks, ks <> [] /\ Forall (fun k => 0 <= k < 65535) ks /\ v = concat (map u16 ks))); [|tauto].
  destruct (Z.eq_dec k 0) as [-> |N]; [|left; congruence]. destruct (P0 eq_refl) as (n & En). pose proof (zlen_nonneg _ v). destruct (u16_pairs (Z.to_nat n) v B ltac:(lia)) as (ks & EV & F).
  destruct ks as [|j ks].
  - right. intros H1. destruct (H1 eq_refl) as (js & NJ & _ & E). rewrite EV in E. change (concat (map u16 [])) with (concat (map u16 (@nil Z))) in E. apply u16s_unique in E. congruence.
  - destruct (existsb (Z.eqb 65535) (j :: ks)) eqn:X.
    + right. intros H1. destruct (H1 eq_refl) as (js & NJ & FJ & E). rewrite EV in E. apply u16s_unique in E. subst js. apply existsb_exists in X as (y & Y & Q). apply Z.eqb_eq in Q. subst y. rewrite Forall_forall in FJ. specialize (FJ _ Y). lia.
    + left. intros _. exists (j :: ks). split; [discriminate|]. split; [|exact EV]. rewrite Forall_forall in *. intros y Y. specialize (F y Y). assert (y <> 65535); [|lia]. intros ->. assert (existsb (Z.eqb 65535) (j :: ks) = true) by (apply existsb_exists; exists 65535; split; [exact Y|reflexivity]). congruence.
Qed.

Lemma svcparam_bad : forall k v, bytes_ok v -> param_ok k v -> ~ plain_param (k, v) -> k <> 2 /\ exists t, forall rest, svcparam_to_str k (v ++ rest) (zlen v) = Ok (t, None).
Proof.
  intros k v B PO NP. pose proof PO as (_ & P0 & _). unfold plain_param in NP. cbn [fst snd] in NP.
  assert (C : k = 0 \/ (k = 4 /\ v = []) \/ (k = 6 /\ v = [])).
  { destruct (Z.eq_dec k 0); [auto|]. destruct (Z.eq_dec k 4) as [->|]; [destruct v; [auto|exfalso; apply NP; split; [congruence|split; congruence]]|].
    destruct (Z.eq_dec k 6) as [->|]; [destruct v; [auto|exfalso; apply NP; split; [congruence|split; congruence]]|]. exfalso. apply NP. split; [congruence|split; congruence]. }
  destruct C as [->|[[-> ->]|[-> ->]]]; (split; [lia|]).
  - destruct (P0 eq_refl) as (n & En). pose proof (zlen_nonneg _ v). destruct (u16_pairs (Z.to_nat n) v B ltac:(lia)) as (ks & -> & F). destruct ks as [|j ks].
    + exists []. intros rest. reflexivity.
    + eexists. intros rest. change (svcparam_to_str 0 (concat (map u16 (j :: ks)) ++ rest) (zlen (concat (map u16 (j :: ks))))) with (mandatory_loop (S (length (concat (map u16 (j :: ks)) ++ rest))) (concat (map u16 (j :: ks)) ++ rest) (zlen (concat (map u16 (j :: ks))))).
      apply mandatory_text; [discriminate|]. rewrite app_length. pose proof (length_u16s (j :: ks)). lia.
  - exists []. intros rest. reflexivity.
  - exists []. intros rest. reflexivity.
Qed.

Lemma params_printed : forall ps, Forall (fun kv => param_ok (fst kv) (snd kv) /\ zlen (snd kv) < 65532) ps -> bytes_ok (concat (map param ps)) ->
  exists txt, ptxt ps txt /\
  forall f rest, (length ps < f)%nat -> svcparams_text f (concat (map param ps) ++ rest) (zlen (concat (map param ps))) = Ok (txt, TNext rest 0).
Proof.
  induction ps as [|[k v] ps IH]; intros V B.
  - exists []. split; [constructor|]. intros [|f] rest F; [cbn in F; lia|]. reflexivity.
  - inversion V as [|? ? [V1 V1'] V2]; subst. cbn [map concat] in B |- *. apply bytes_ok_app in B as [B1 B2].
    assert (Bv : bytes_ok v) by (unfold param in B1; rewrite !bytes_ok_app in B1; tauto).
    destruct (IH V2 B2) as (tx & T & E). cbn [fst snd] in *.
    assert (KR : 0 <= k < 65535) by (destruct V1; auto).
    assert (G : exists t, ptxt ((k, v) :: ps) ((svckey_to_str k ++ (if negb (k =? 2) then [61] else []) ++ t) ++ tx) /\
              forall rest, svcparam_to_str k (v ++ rest) (zlen v) = Ok (t, None)).
    { destruct (plain_dec k v Bv V1) as [P1|NP].
      - destruct (Z.eq_dec k 2) as [-> |N2].
        + destruct V1 as (_ & _ & _ & X & _). rewrite (X eq_refl) in *. exists [32]. split; [|reflexivity]. change (negb (2 =? 2)) with false. cbv iota. cbn [app]. rewrite <- app_assoc. cbn [app]. apply px_plain; auto. apply pt_flag. apply key_text_spec; lia.
        + destruct (svcparam_text k v Bv V1 ltac:(lia) P1 N2) as (t & T1 & T2). exists (t ++ [32]). split; [|exact T2]. replace (k =? 2) with false by lia. cbn [negb].
          replace ((svckey_to_str k ++ [61] ++ t ++ [32]) ++ tx) with ((svckey_to_str k ++ [61] ++ t) ++ 32 :: tx) by (repeat (rewrite <- app_assoc; cbn [app]); reflexivity). apply px_plain; auto. apply pt_value; auto. apply key_text_spec; lia.
      - destruct (svcparam_bad k v Bv V1 NP) as (N2 & t & T2). exists t. split; [|exact T2]. replace (k =? 2) with false by lia. cbn [negb].
        replace ((svckey_to_str k ++ [61] ++ t) ++ tx) with (svckey_to_str k ++ 61 :: (t ++ tx)) by (repeat (rewrite <- app_assoc; cbn [app]); reflexivity). apply px_bad; auto. apply key_text_spec; lia. }
    destruct G as (t & Ps & G). eexists. split; [exact Ps|]. intros [|f] rest F; [cbn in F; lia|].
    assert (ES : (param (k, v) ++ concat (map param ps)) ++ rest = u16 k ++ u16 (zlen v) ++ v ++ concat (map param ps) ++ rest).
    { unfold param at 1. cbn [fst snd]. repeat rewrite <- app_assoc. reflexivity. }
    rewrite ES. rewrite zlen_app, zlen_param. cbn [snd]. pose proof (zlen_nonneg _ v). pose proof (zlen_nonneg _ (concat (map param ps))).
    set (R := zlen (concat (map param ps))) in *. cbn [svcparams_text].
    replace (4 + zlen v + R >? 0) with true by lia. replace (4 + zlen v + R <? 2) with false by lia.
    rewrite (take_rd_app (u16 k)) by reflexivity. rewrite (adv_app (u16 k)) by reflexivity. cbn [bind].
    rewrite (take_rd_app (u16 (zlen v))) by reflexivity. rewrite (adv_app (u16 (zlen v))) by reflexivity.
    unfold u16. cbn [nth bind]. rewrite !ProofRdata.be16_u16. unfold spr_invalid, spr_nd_alpn. replace (k =? 65535) with false by lia.
    replace (4 + zlen v + R - 2 <? 2) with false by lia. replace (4 + zlen v + R - 2 - 2 <? zlen v) with false by lia.
    rewrite G. cbn [bind]. unfold after_res. rewrite adv_app by reflexivity.
    replace (4 + zlen v + R - 2 - 2 - zlen v) with R by lia. rewrite E by (cbn in F; lia). unfold emit. cbn [bind].
    repeat (rewrite <- app_assoc; cbn [app]). reflexivity.
Qed.

Lemma ptxt_head : forall ps s, ptxt ps s -> ps <> [] -> exists c r, s = c :: r /\ isspace c = false.
Proof.
  assert (KH : forall k h x, key_text k h -> exists c r, h ++ x = c :: r /\ isspace c = false).
  { intros k h x K. apply key_text_visible in K as [V N]. destruct h as [|c h]; [congruence|]. apply visible_cons in V as [V _]. exists c, (h ++ x). split; [reflexivity|]. unfold isspace. lia. }
  assert (PH : forall kv h x, param_text kv h -> exists c r, h ++ x = c :: r /\ isspace c = false).
  { intros kv h x [s K|k v s t K VT]; [eauto|]. rewrite <- app_assoc. eauto. }
  intros ps s [|k v h ps' r PT PP X|k v h PT PP|k v h ps' tx NP K] N; [congruence| | |]; eauto. rewrite <- (app_nil_r h). eauto.
Qed.
(** Removing the blank at the end. *)
Lemma ptxt_strip : forall ps s, ptxt ps s -> Forall (fun kv => bytes_ok (snd kv)) ps -> forall x, s = x ++ [32] -> ptxt ps x.
Proof.
  induction 1 as [|k v h ps r PT PP X IH|k v h PT PP|k v h ps tx NP K]; intros B x E.
  - destruct x; discriminate.
  - inversion B as [|? ? B1 B2]; subst. destruct (list_eq_dec Z.eq_dec r []) as [-> |NR].
    + apply app_inj_tail in E as [-> _]. assert (ps = []) as ->; [|apply px_stop; auto]. destruct ps as [|q ps]; [reflexivity|]. destruct (ptxt_head _ _ X) as (c & y & Y & _); [discriminate|discriminate].
    + destruct (exists_last NR) as (r' & c & ->). replace (h ++ 32 :: r' ++ [c]) with ((h ++ 32 :: r') ++ [c]) in E by (rewrite <- app_assoc; reflexivity). apply app_inj_tail in E as [<- ->]. apply px_plain; auto.
  - inversion B as [|? ? B1 B2]; subst. pose proof (param_text_solid _ _ B1 PT) as (_ & _ & S). exfalso. apply S. apply last_snoc.
  - destruct (list_eq_dec Z.eq_dec tx []) as [-> |NR].
    + apply app_inj_tail in E as [_ E]. discriminate.
    + destruct (exists_last NR) as (r' & c & ->). replace (h ++ 61 :: r' ++ [c]) with ((h ++ 61 :: r') ++ [c]) in E by (rewrite <- app_assoc; reflexivity). apply app_inj_tail in E as [<- ->]. apply px_bad; auto.
Qed.

(** ** Fields read from the front of a text *)
Lemma fields_front : forall ts1 ts2 vs toks rest s, length vs = length ts1 -> wf_values (map fmt_of ts1) vs -> fields_tokens (map pres_of ts1) vs toks -> all_readable (map pres_of ts1) vs ->
  Forall (fun t => last_field t = false /\ t <> rdf_edns_opt_rdata /\ pres_of t <> PPrefix6) ts1 -> sep rest -> skip_space s = skip_space (join_by 32 toks ++ rest) ->
  parse_text_fields (ts1 ++ ts2) (Some s) = (o <- parse_text_fields ts2 (Some rest) ;; Ok (canon vs ++ o)).
Proof.
  assert (SKP : forall ts s s', skip_space s = skip_space s' -> parse_text_fields ts (Some s) = parse_text_fields ts (Some s')) by (intros [|t ts] s s' E; [reflexivity|cbn [parse_text_fields]; rewrite E; reflexivity]).
  induction ts1 as [|t ts1 IH]; intros ts2 vs toks rest s L W F R Q SX SK.
  { destruct vs; [|discriminate]. inversion F; subst. cbn [app join_by] in *. rewrite (SKP ts2 s rest SK). destruct (parse_text_fields ts2 (Some rest)); reflexivity. }
  destruct vs as [|v vs]; [discriminate|]. cbn [map] in *. inversion F as [|p ps v' vs' tk tk' FT FS E1 E2 E3]; subst. cbn [all_readable] in R. destruct R as [R1 R2]. inversion Q as [|? ? (Q1 & Q2 & Q3) Q']; subst.
  assert (W' : wf_values (map fmt_of ts1) vs) by (inversion W; subst; auto).
  assert (VOK : match v with VName ls => valid_name ls | VOctets l => field_octets (fmt_of t) l /\ bytes_ok l /\ l <> [] end) by (destruct v; inversion W; subst; auto).
  assert (SOL : Forall solid tk). { eapply field_tokens_solid; [exact FT|]. destruct v; [apply VOK|tauto]. }
  assert (NT : tk <> []). { eapply (tokens_nonempty _ _ _ vs FT); [destruct v; tauto|auto]. }
  set (rest0 := match tk' with [] => rest | _ => 32 :: join_by 32 tk' ++ rest end). assert (J : join_by 32 (tk ++ tk') ++ rest = join_by 32 tk ++ rest0).
  { rewrite join_app by auto. unfold rest0. rewrite <- app_assoc. destruct tk'; reflexivity. }
  assert (S0 : sep rest0) by (unfold rest0; destruct tk'; [auto|right; eauto]).
  destruct (field_parse t v tk rest0 Q2 FT VOK) as (e' & PE & LO); auto.
  - intros next _. destruct (pres_of t); try congruence; destruct v; cbn [readable] in *; auto.
  - congruence.
  - congruence.
  - congruence.
  - destruct LO as [LO|LO]; [|congruence].
    assert (SKH : skip_space (join_by 32 tk ++ rest0) = join_by 32 tk ++ rest0).
    { inversion SOL as [|u us SU SOL2]; subst; [congruence|]. destruct us as [|u2 us]; [cbn [join_by]; apply solid_skip; auto|]. rewrite join_cons by discriminate. rewrite <- app_assoc. apply solid_skip; auto. }
    cbn [app parse_text_fields]. rewrite SK, J, SKH. destruct (join_by 32 tk ++ rest0) as [|c0 r0] eqn:EJ.
    { exfalso. apply app_eq_nil in EJ as [EJ _]. pose proof (join_last tk NT SOL) as [_ K]. congruence. }
    rewrite PE. cbn [bind].
    assert (E' : parse_text_fields (ts1 ++ ts2) e' = parse_text_fields (ts1 ++ ts2) (Some rest0)).
    { clear - LO SKP. destruct rest0 as [|c r]; cbn [left_over] in LO.
      - destruct LO as [->| ->]; [destruct (ts1 ++ ts2); reflexivity|reflexivity].
      - destruct LO as (e1 & -> & E1). apply SKP. exact E1. }
    rewrite E'. rewrite (IH ts2 vs tk' rest rest0); auto.
    + destruct (parse_text_fields ts2 (Some rest)); cbn [bind]; unfold canon; cbn [map concat]; rewrite ?app_assoc; reflexivity.
    + unfold rest0. destruct tk'; reflexivity.
Qed.
