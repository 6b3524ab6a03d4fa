(** ProofReject.v: the return code of wdns_parse_message on the packets it rejects. *)
From Verif Require Import Base Lib SpecName ModelName ModelDescr ModelParse SpecMessage SpecParsed SpecLoose SpecFault SpecReject
  ProofUnpack ProofCopy ProofNameOps ProofRdata ProofRdata2 ProofGroup ProofMessage ProofLoose1 ProofLoose2 ProofFault.

Lemma err_bind : forall A B (o : outcome A) (k : A -> outcome B) e, bind o k = Err e <-> o = Err e \/ exists a, o = Ok a /\ k a = Err e.
Proof.
  intros A B [a|e0|f|] k e; cbn [bind]; split.
  - intros H. right. eauto.
  - intros [H|(a' & E & H)]; [discriminate|]. congruence.
  - intros H. left. congruence.
  - intros [H|(a' & E & H)]; congruence.
  - discriminate.
  - intros [H|(a' & E & H)]; discriminate.
  - discriminate.
  - intros [H|(a' & E & H)]; discriminate.
Qed.

(** ** Names *)
Lemma unpack_err : forall m i e, bytes_ok m -> 0 <= i < zlen m -> (unpack_name m (zlen m) i = Err e <-> name_wrong m i e).
Proof.
  intros m i e Hm Hi. split.
  - destruct (unpack_name_case m (zlen m) i Hm Hi) as (r & C & E). intros H. rewrite E in H.
    destruct C as [ls j R P X|ls j c R P X Y|ls j hi lo R P X Y Z1 Z2|ls j c R P X Y Z1|ls j c R X Y Z1 Z2|ls j c R P X Y Z1|ls j R P X|ls j hi R P X Y Z1|ls j c R X Y Z1 Z2]; cbn [finish] in H; try discriminate;
    injection H as H; subst e; exists ls, j; (split; [exact R|]); fold (prewire ls); cbv zeta.
    + split; [lia|]. left. exists c. auto.
    + split; [lia|]. right. left. exists hi, lo. split; [auto|]. split; [lia|auto].
    + split; [lia|]. right. right. left. exists c. split; [auto|]. split; [lia|]. split; [lia|auto].
    + split; [lia|]. right. right. right. exists c. split; [auto|]. split; [lia|]. split; [lia|]. split; [lia|auto].
    + exfalso. apply octets_at_bound in X. change (zlen [c]) with 1 in X. lia.
  - intros (ls & j & R & K). fold (prewire ls) in K. cbv zeta in K. destruct K as (L & K).
    assert (C : unpack_case m (zlen m) i 255 (Err e)).
    { destruct K as [(c & O & B & ->)|[(hi & lo & O & B & T & ->)|[(c & O & B & T & ->)|(c & O & B & T & T2 & ->)]]].
      - apply (uc_len m (zlen m) i 255 ls j c); auto; lia.
      - pose proof (octets_at_bound _ _ _ O) as Ob. change (zlen [hi; lo]) with 2 in Ob. apply (octets_at_bytes _ _ _ Hm) in O as Bh. inversion Bh as [|? ? Bc _]; subst. unfold is_byte in Bc.
        apply (uc_ptr m (zlen m) i 255 ls j hi lo); auto; lia.
      - apply (uc_ovf m (zlen m) i 255 ls j c); auto; lia.
      - apply (uc_oob_label m (zlen m) i 255 ls j c); auto; lia. }
    rewrite (unpack_case_complete m (zlen m) i _ Hm Hi C). reflexivity.
Qed.

(** ** SvcParams *)
Lemma validate_false : forall m key n val, bytes_ok m -> 0 <= key < 65536 -> 0 < n -> 0 <= val ->
  (svcparam_key_validate m key n val = Ok false <-> ~ announced_ok m key val n /\ ~ (key = 1 /\ alpn_off m val n)).
Proof.
  intros m key n val Hm Hk Hn Hv. pose proof (validate_iff m key n val Hm Hk ltac:(lia)) as V. pose proof (validate_evt false m key n val Hm Hv Hn) as W.
  pose proof (validate_evt true m key n val Hm Hv Hn) as W2.
  destruct (svcparam_key_validate m key n val) as [[|]|e|f|] eqn:E; cbn [evt] in W, W2.
  - split; [discriminate|]. intros [A _]. destruct A. apply V. reflexivity.
  - split; [|auto]. intros _. split; [intros A; apply V in A; discriminate|intros A; apply W; auto].
  - exfalso. unfold svcparam_key_validate in E. repeat match type of E with context [if ?b then _ else _] => destruct b; try discriminate end.
    assert (AL : forall f o e, alpn_loop f m val n o <> Err e). { clear. induction f as [|f IH]; intros o e; [discriminate|]. cbn [alpn_loop]. destruct (o <? n); [|discriminate]. destruct (rd_cases m (val + o)) as [(b & -> & _)|(-> & _)]; cbn [bind]; [apply IH|discriminate]. }
    apply err_bind in E as [E|(a & _ & E)]; [|discriminate]. eapply AL; eauto.
  - split; [discriminate|]. intros [_ B]. exfalso. apply B. apply W. reflexivity.
  - exfalso. destruct W2 as [W2 _]. destruct (W2 eq_refl); discriminate.
Qed.
Lemma params_pos : forall m i n e, params_wrong m i n e -> 0 < n.
Proof. intros m i n e H. destruct H; try lia. pose proof (zlen_nonneg _ (snd kv)). rewrite zlen_param in *. lia. pose proof (zlen_nonneg _ (snd kv)). rewrite zlen_param in *. lia. Qed.
Lemma svc_err_complete : forall m src n e, params_wrong m src n e -> bytes_ok m -> forall f u, 0 <= src -> src + n <= zlen m -> n < Z.of_nat f ->
  svc_loop f m (src, n, u) = Err e.
Proof.
  intros m src n e H Hm. induction H as [i n B|i n k0 k1 l0 l1 O N4 W L|i n [key val] O K P V L|i n k0 k1 l1 O W N4 A A2|i n [key val] e O P V L H IH|i n k0 k1 l1 e O W N4 A H IH]; intros f u Hs Bm F.
  - destruct f as [|f]; [lia|]. cbn [svc_loop]. replace (n >? 0) with true by lia. replace (n <? 4) with true by lia. reflexivity.
  - destruct f as [|f]; [lia|]. rewrite (svc_iter m i n u f _ _ _ _ Hm N4 O). destruct (octets4_bytes _ _ _ _ _ _ Hm O) as (_ & _ & V0 & V1).
    change (be16 l0 l1) with (l0 * 256 + l1). rewrite Z.mod_small by lia. replace (_ >? n) with true by lia. reflexivity.
  - pose proof (zlen_nonneg _ val). rewrite zlen_param in *. cbn [fst snd] in *. destruct f as [|f]; [lia|]. unfold param in O. cbn [fst snd] in O. unfold u16 in O.
    change ([key / 256; key mod 256] ++ [zlen val / 256; zlen val mod 256] ++ val) with ([key / 256; key mod 256; zlen val / 256; zlen val mod 256] ++ val) in O. apply octets_at_app in O as [O1 O2].
    rewrite (svc_iter m i n u f _ _ _ _ Hm ltac:(lia) O1). rewrite !be16_u16. rewrite Z.mod_small by lia. replace (4 + zlen val >? n) with false by lia.
    change (zlen [key / 256; key mod 256; zlen val / 256; zlen val mod 256]) with 4 in O2.
    destruct (svc_validate_spec m key (zlen val) (i + 4) val) as (b & Vb & Vs); auto; try lia. rewrite Vb. cbn [bind].
    destruct b; [exfalso; apply P; apply Vs; auto|]. reflexivity.
  - destruct f as [|f]; [lia|]. destruct (octets4_bytes _ _ _ _ _ _ Hm O) as (K0 & K1 & _ & V1). rewrite (svc_iter m i n u f k0 k1 255 l1 Hm N4 O).
    assert (E : (4 + be16 255 l1) mod 65536 = l1 - 252) by (destruct (wrap_len 255 l1) as [[X _]|(_ & _ & X)]; try lia; unfold be16 in X; lia).
    rewrite E. replace (l1 - 252 >? n) with false by lia. replace (65280 + l1) with (be16 255 l1) in * by (unfold be16; lia).
    pose proof (be16_range k0 k1 K0 K1) as Kr. pose proof (be16_range 255 l1 ltac:(lia) V1) as Vr.
    assert (VF : svcparam_key_validate m (be16 k0 k1) (be16 255 l1) (i + 4) = Ok false) by (apply validate_false; auto; try lia; unfold be16; lia). rewrite VF. reflexivity.
  - destruct f as [|f]; [exfalso; rewrite zlen_param in L; cbn [snd] in L; pose proof (zlen_nonneg _ val); lia|].
    rewrite zlen_param in *. cbn [fst snd] in *. pose proof (zlen_nonneg _ val). pose proof O as Op. unfold param in O. cbn [fst snd] in O. unfold u16 in O.
    change ([key / 256; key mod 256] ++ [zlen val / 256; zlen val mod 256] ++ val) with ([key / 256; key mod 256; zlen val / 256; zlen val mod 256] ++ val) in O. apply octets_at_app in O as [O1 O2].
    rewrite (svc_iter m i n u f _ _ _ _ Hm ltac:(lia) O1). rewrite !be16_u16. rewrite Z.mod_small by lia. replace (4 + zlen val >? n) with false by lia.
    change (zlen [key / 256; key mod 256; zlen val / 256; zlen val mod 256]) with 4 in O2.
    destruct (svc_validate_spec m key (zlen val) (i + 4) val) as (b & Vb & Vs); auto; try lia; try (pose proof P as [K _]; lia). rewrite Vb. cbn [bind]. rewrite (proj2 Vs P). cbn [negb].
    rewrite (copy_bytes_do _ _ _ _ _ _ Op) by (rewrite ?zlen_param; cbn [snd]; lia). cbn [bind]. apply IH; lia.
  - destruct f as [|f]; [lia|]. destruct (octets4_bytes _ _ _ _ _ _ Hm O) as (K0 & K1 & _ & V1). rewrite (svc_iter m i n u f k0 k1 255 l1 Hm N4 O).
    assert (E : (4 + be16 255 l1) mod 65536 = l1 - 252) by (destruct (wrap_len 255 l1) as [[X _]|(_ & _ & X)]; try lia; unfold be16 in X; lia).
    rewrite E. replace (l1 - 252 >? n) with false by lia. replace (65280 + l1) with (be16 255 l1) in A by (unfold be16; lia).
    pose proof (be16_range k0 k1 K0 K1) as Kr. pose proof (be16_range 255 l1 ltac:(lia) V1) as Vr.
    apply validate_iff in A; [|auto|exact Kr|lia]. change (k0 * 256 + k1) with (be16 k0 k1) in A. rewrite A. cbn [bind negb].
    assert (O3 : octets_at m i (firstn (Z.to_nat (l1 - 252)) (skipn (Z.to_nat i) m))) by (apply octets_at_intro; lia).
    assert (L3 : zlen (firstn (Z.to_nat (l1 - 252)) (skipn (Z.to_nat i) m)) = l1 - 252) by (apply zlen_firstn; rewrite zlen_skipn; lia).
    rewrite (copy_bytes_do _ _ _ _ _ _ O3) by lia. cbn [bind]. apply IH; lia.
Qed.
Lemma svc_err_sound : forall f m src sb u e, bytes_ok m -> 0 <= src -> 0 <= sb -> src + sb <= zlen m ->
  svc_loop f m (src, sb, u) = Err e -> params_wrong m src sb e.
Proof.
  induction f as [|f IH]; intros m src sb u e Hm H1 H2 H3 E; [discriminate|].
  destruct (Z_le_gt_dec sb 0) as [D|D]. { cbn [svc_loop] in E. replace (sb >? 0) with false in E by lia. discriminate. }
  destruct (Z_lt_ge_dec sb 4) as [D4|D4]. { cbn [svc_loop] in E. replace (sb >? 0) with true in E by lia. replace (sb <? 4) with true in E by lia. assert (e = res_parse_error) as -> by congruence. apply pw_short. lia. }
  destruct (four_octets m src) as (k0 & k1 & v0 & v1 & O); try lia. destruct (octets4_bytes _ _ _ _ _ _ Hm O) as (K0 & K1 & V0 & V1).
  rewrite (svc_iter m src sb u f k0 k1 v0 v1) in E; auto; try lia.
  pose proof (be16_range v0 v1 V0 V1) as Vr. pose proof (be16_range k0 k1 K0 K1) as Kr.
  remember ((4 + be16 v0 v1) mod 65536) as k eqn:Kk. assert (0 <= k < 65536) by (rewrite Kk; apply Z.mod_pos_bound; lia).
  destruct (wrap_len v0 v1 V0 V1) as [[S S2]|(-> & S & S2)].
  - destruct (k >? sb) eqn:G.
    { assert (e = res_out_of_bounds) as -> by congruence. eapply pw_long; [exact O|lia|exact S|]. change (v0 * 256 + v1) with (be16 v0 v1). lia. }
    assert (octets_at m (src + 4) (firstn (Z.to_nat (be16 v0 v1)) (skipn (Z.to_nat (src + 4)) m))) as Ov by (apply octets_at_intro; lia).
    assert (zlen (firstn (Z.to_nat (be16 v0 v1)) (skipn (Z.to_nat (src + 4)) m)) = be16 v0 v1) as Lv by (apply zlen_firstn; rewrite zlen_skipn; lia).
    set (val := firstn (Z.to_nat (be16 v0 v1)) (skipn (Z.to_nat (src + 4)) m)) in *. clearbody val.
    assert (octets_at m src (param (be16 k0 k1, val))) as Op.
    { unfold param. cbn [fst snd]. rewrite Lv, !u16_be16 by auto. change ([k0; k1] ++ [v0; v1] ++ val) with ([k0; k1; v0; v1] ++ val). apply octets_at_app. split; auto. }
    destruct (svc_validate_spec m (be16 k0 k1) (be16 v0 v1) (src + 4) val) as (b & Vb & Vs); auto; try lia. rewrite Vb in E. cbn [bind] in E.
    destruct b; cbn [negb] in E.
    + rewrite (copy_bytes_do _ _ _ _ _ _ Op) in E by (rewrite ?zlen_param; cbn [snd]; lia). cbn [bind] in E.
      apply IH in E; auto; try lia. apply pw_param with (kv := (be16 k0 k1, val)); cbn [fst snd]; auto.
      * apply Vs. reflexivity.
      * lia.
      * rewrite zlen_param. cbn [snd]. lia.
      * rewrite zlen_param. cbn [snd]. replace (4 + zlen val) with k by lia. exact E.
    + assert (e = res_parse_error) as -> by congruence. apply pw_value with (kv := (be16 k0 k1, val)); cbn [fst snd]; auto.
      * intros X. apply Vs in X. discriminate.
      * lia.
      * rewrite zlen_param. cbn [snd]. lia.
  - replace (k >? sb) with false in E by lia. replace (be16 255 v1) with (65280 + v1) in * by (unfold be16; lia). change (be16 k0 k1) with (k0 * 256 + k1) in *.
    destruct (svcparam_key_validate m (k0 * 256 + k1) (65280 + v1) (src + 4)) as [[|]|e'|x|] eqn:VL; cbn [bind negb] in E; try discriminate.
    + apply validate_iff in VL; [|auto|lia|lia].
      assert (O3 : octets_at m src (firstn (Z.to_nat k) (skipn (Z.to_nat src) m))) by (apply octets_at_intro; lia).
      assert (L3 : zlen (firstn (Z.to_nat k) (skipn (Z.to_nat src) m)) = k) by (apply zlen_firstn; rewrite zlen_skipn; lia).
      rewrite (copy_bytes_do _ _ _ _ _ _ O3) in E by lia. cbn [bind] in E. destruct (Z.eq_dec v1 252) as [->|NZ].
      * change (65280 + 252) with 65532 in *. assert (K00 : k = 0) by lia. rewrite K00, Z.add_0_r, Z.sub_0_r in E. rewrite (svc_hang f m src sb _ k0 k1) in E by (auto; lia). discriminate.
      * apply IH in E; auto; try lia. apply pw_wrapped with (k0 := k0) (k1 := k1) (l1 := v1); auto; try lia. replace (v1 - 252) with k by lia. exact E.
    + assert (e = res_parse_error) as -> by congruence. apply validate_false in VL as [VA VB]; auto; try lia. eapply pw_announced; eauto; lia.
    + exfalso. pose proof (validate_evt false m (k0 * 256 + k1) (65280 + v1) (src + 4) Hm ltac:(lia) ltac:(lia)) as W.
      clear - VL. unfold svcparam_key_validate in VL. repeat match type of VL with context [if ?b then _ else _] => destruct b; try discriminate end.
      assert (AL : forall f val n o e, alpn_loop f m val n o <> Err e). { clear. induction f as [|f IH]; intros val n o e; [discriminate|]. cbn [alpn_loop]. destruct (o <? n); [|discriminate]. destruct (rd_cases m (val + o)) as [(b & -> & _)|(-> & _)]; cbn [bind]; [apply IH|discriminate]. }
      apply err_bind in VL as [E|(a & _ & E)]; [|discriminate]. eapply AL; eauto.
Qed.

(** ** Fields *)
Lemma copy_err : forall m src sb u x e, 0 <= src -> 0 <= x -> src + sb <= zlen m -> (copy_bytes m (src, sb, u) x = Err e <-> sb < x /\ e = res_parse_error).
Proof.
  intros m src sb u x e H1 H2 H3. destruct (copy_bytes_total m src sb u x H1 H2 H3) as [(l & E & _ & _ & L)|(E & L)]; rewrite E; split.
  - discriminate.
  - lia.
  - intros H. split; [auto|congruence].
  - intros [_ ->]. reflexivity.
Qed.
Lemma strings_err_sound : forall f m src sb u e, bytes_ok m -> 0 <= src -> src + sb <= zlen m -> repstring_loop f m (src, sb, u) = Err e -> field_wrong m FStrings src sb e.
Proof.
  induction f as [|f IH]; intros m src sb u e Hm H1 H3 E; [discriminate|]. cbn [repstring_loop] in E. destruct (sb >? 0) eqn:B; [|discriminate].
  destruct (rd_in m src) as (c & R); [lia|]. pose proof (rd_byte _ _ _ Hm R). rewrite R in E. cbn [bind] in E. apply rd_ok in R.
  destruct (copy_bytes_total m src sb u (c + 1)) as [(l & C & O & L & Lb)|(C & L)]; try lia; rewrite C in E; cbn [bind] in E.
  - apply IH in E; auto; try lia. destruct E as (ss & c' & F & O' & L' & ->). cbv zeta in *.
    destruct l as [|c0 s]; [rewrite zlen_nil in L; lia|]. assert (c0 = c) by (apply (octet_det m src); auto; eapply octet_head; eauto). subst c0. zl.
    exists (s :: ss), c'. split; [constructor; auto; lia|]. cbv zeta. cbn [map concat]. unfold char_string at 1 3 5. replace (zlen s) with c by lia. split; [|rewrite !zlen_app, !zlen_cons; split; [lia|auto]].
    rewrite <- app_assoc. apply octets_at_app. split; [auto|]. rewrite zlen_cons. replace (zlen s + 1) with (c + 1) by lia. auto.
  - assert (e = res_parse_error) as -> by congruence. exists [], c. split; [constructor|]. cbv zeta. cbn [map concat app]. change (zlen []) with 0. split; [auto|]. split; [lia|auto].
Qed.
Lemma strings_err_complete : forall ss c m src sb u f e, bytes_ok m -> Forall (fun s => zlen s <= 255) ss -> octets_at m src (concat (map char_string ss) ++ [c]) -> 0 <= src -> src + sb <= zlen m ->
  zlen (concat (map char_string ss)) < sb < zlen (concat (map char_string ss)) + c + 1 -> e = res_parse_error -> sb < Z.of_nat f -> repstring_loop f m (src, sb, u) = Err e.
Proof.
  induction ss as [|s ss IH]; intros c m src sb u f e Hm F O Hs B L -> G.
  - cbn [map concat app] in *. change (zlen []) with 0 in *. destruct f as [|f]; [lia|]. cbn [repstring_loop]. replace (sb >? 0) with true by lia. apply rd_ok in O. rewrite O. cbn [bind].
    assert (C : copy_bytes m (src, sb, u) (c + 1) = Err res_parse_error) by (apply copy_err; [lia|lia|lia|split; [lia|auto]]). rewrite C. reflexivity.
  - cbn [map concat] in *. pose proof (zlen_nonneg _ (concat (map char_string ss))). pose proof (zlen_nonneg _ s). rewrite zlen_app, zlen_char_string in L. rewrite <- app_assoc in O. apply octets_at_app in O as [O1 O2]. inversion F; subst.
    destruct f as [|f]; [lia|]. cbn [repstring_loop]. replace (sb >? 0) with true by lia.
    rewrite (proj2 (rd_ok m src (zlen s))) by (eapply octet_head; exact O1). cbn [bind].
    rewrite (copy_bytes_do _ _ _ _ _ _ O1) by (rewrite ?zlen_char_string; lia). cbn [bind]. rewrite zlen_char_string in O2. apply (IH c); auto; lia.
Qed.
Lemma types_err_sound : forall f m src sb u e, bytes_ok m -> 0 <= src -> 0 <= sb -> src + sb <= zlen m ->
  (bitmap_loop f m (src, sb, u) = Err e \/ e = res_out_of_bounds /\ exists a v, bitmap_loop f m (src, sb, u) = Ok (a, 1, v)) -> field_wrong m FTypes src sb e.
Proof.
  intros f m src sb u e Hm H1 H2 H3 [E|(-> & a & v & E)].
  - revert src sb u H1 H2 H3 E. induction f as [|f IH]; intros src sb u H1 H2 H3 E; [discriminate|]. cbn [bitmap_loop] in E. destruct (sb >=? 2) eqn:B; [|discriminate].
    destruct (rd_in m (src + 1)) as (c & R); [lia|]. pose proof (rd_byte _ _ _ Hm R). rewrite R in E. cbn [bind] in E. apply rd_ok in R.
    assert (HERE : forall x, e = x -> x = res_out_of_bounds -> (c = 0 \/ 32 < c \/ sb - 2 < c) -> field_wrong m FTypes src sb e).
    { intros x -> -> C. exists []. cbv zeta. cbn [map concat]. change (zlen []) with 0. split; [constructor|]. split; [apply octets_at_nil; lia|]. split; [auto|]. right. split; [lia|]. exists c. rewrite Z.add_0_r, Z.sub_0_r. auto. }
    destruct (negb ((c >=? 1) && (c <=? 32))) eqn:B1; [apply (HERE res_out_of_bounds); [congruence|auto|lia]|].
    destruct (c <=? sb - 2) eqn:B2; [|apply (HERE res_out_of_bounds); [congruence|auto|lia]].
    destruct (copy_bytes_total m src sb u (2 + c)) as [(l & C & O & L & Lb)|(C & L)]; try lia; rewrite C in E; cbn [bind] in E.
    apply IH in E; try lia. destruct E as (ws & F & O' & -> & K). cbv zeta in *.
    destruct l as [|w [|c0 s]]; [rewrite zlen_nil in L; lia|change (zlen [w]) with 1 in L; lia|].
    assert (c0 = c) by (apply (octet_det m (src + 1)); auto; apply octets_at_cons in O as [_ O]; eapply octet_head; eauto). subst c0. zl.
    exists ((w, s) :: ws). cbv zeta. cbn [map concat]. assert (WE : window (w, s) = w :: c :: s) by (unfold window; cbn [fst snd]; replace (zlen s) with c by lia; reflexivity). rewrite WE.
    split; [constructor; auto; cbn [snd]; lia|]. rewrite zlen_app, !zlen_cons. split; [apply octets_at_app; split; [auto|rewrite !zlen_cons; replace (zlen s + 1 + 1) with (2 + c) by lia; auto]|]. split; [auto|].
    destruct K as [K|(K & c1 & Oc & Kc)]; [left; lia|right]. split; [lia|]. exists c1. replace (src + (zlen s + 1 + 1 + zlen (concat (map window ws))) + 1) with (src + (2 + c) + zlen (concat (map window ws)) + 1) by lia. split; [auto|lia].
  - apply bitmap_sound in E; auto. destruct E as (ws & l & F & -> & O & E & _). exists ws. cbv zeta. split; [auto|]. split; [auto|]. split; [auto|]. left. injection E as _ E _. lia.
Qed.
Lemma types_err_complete : forall ws m src sb u f, bytes_ok m -> Forall (fun w => 1 <= zlen (snd w) <= 32) ws -> let l := concat (map window ws) in
  octets_at m src l -> 0 <= src -> src + sb <= zlen m -> sb < Z.of_nat f ->
  (sb - zlen l = 1 -> bitmap_loop f m (src, sb, u) = Ok (src + zlen l, 1, u ++ l)) /\
  (forall c, 2 <= sb - zlen l -> octets_at m (src + zlen l + 1) [c] -> (c = 0 \/ 32 < c \/ sb - zlen l - 2 < c) -> bitmap_loop f m (src, sb, u) = Err res_out_of_bounds).
Proof.
  induction ws as [|[w s] ws IH]; intros m src sb u f Hm F l O Hs B G; subst l.
  - cbn [map concat] in *. change (zlen []) with 0 in *. split.
    + intros E. destruct f as [|f]; [lia|]. cbn [bitmap_loop]. replace sb with 1 by lia. change (1 >=? 2) with false. cbv iota. rewrite app_nil_r, Z.add_0_r. reflexivity.
    + intros c E Oc K. destruct f as [|f]; [lia|]. cbn [bitmap_loop]. replace (sb >=? 2) with true by lia. rewrite Z.add_0_r in Oc. apply rd_ok in Oc. pose proof (rd_byte _ _ _ Hm Oc). rewrite Oc. cbn [bind].
      destruct (negb ((c >=? 1) && (c <=? 32))) eqn:B1; [reflexivity|]. replace (c <=? sb - 2) with false by lia. reflexivity.
  - cbn [map concat] in *. pose proof (zlen_nonneg _ (concat (map window ws))). pose proof (zlen_nonneg _ s). rewrite zlen_app, zlen_window in *. cbn [snd] in *. apply octets_at_app in O as [O1 O2]. inversion F as [|? ? F1 F2]; subst. cbn [snd] in *. rewrite zlen_window in O2. cbn [snd] in O2.
    assert (ST : 2 <= sb -> zlen s <= sb - 2 -> exists f', sb - (2 + zlen s) < Z.of_nat f' /\ bitmap_loop f m (src, sb, u) = bitmap_loop f' m (src + (2 + zlen s), sb - (2 + zlen s), u ++ window (w, s))).
    { intros S1 S2. destruct f as [|f]; [lia|]. exists f. split; [lia|]. cbn [bitmap_loop]. replace (sb >=? 2) with true by lia.
      rewrite (proj2 (rd_ok m (src + 1) (zlen s))) by (apply octets_at_cons in O1 as [_ O1]; eapply octet_head; exact O1). cbn [bind].
      replace (negb ((zlen s >=? 1) && (zlen s <=? 32))) with false by lia. replace (zlen s <=? sb - 2) with true by lia.
      rewrite (copy_bytes_do _ _ _ _ _ _ O1) by (rewrite ?zlen_window; cbn [snd]; lia). reflexivity. }
    split.
    + intros E. destruct ST as (f' & G' & ->); try lia. destruct (IH m (src + (2 + zlen s)) (sb - (2 + zlen s)) (u ++ window (w, s)) f') as (K & _); auto; try lia. rewrite K by lia. apply ok_st3; [lia|auto|]. rewrite app_assoc. reflexivity.
    + intros c E Oc Kc. destruct ST as (f' & G' & ->); try lia. destruct (IH m (src + (2 + zlen s)) (sb - (2 + zlen s)) (u ++ window (w, s)) f') as (_ & K); auto; try lia. apply (K c); try lia.
      replace (src + (2 + zlen s) + zlen (concat (map window ws)) + 1) with (src + (2 + zlen s + zlen (concat (map window ws))) + 1) by lia. auto.
Qed.

Definition odd_types (t : rdf) (e : res) (x : outcome pstate) : Prop := t = rdf_type_bitmap /\ e = res_out_of_bounds /\ exists a v, x = Ok (a, 1, v).
Lemma name_field_err : forall fuel m t src sb u e, bytes_ok m -> 0 <= src -> 0 < sb -> src + sb <= zlen m -> t = rdf_name \/ t = rdf_uname ->
  (parse_field fuel m (zlen m) t (src, sb, u) = Err e <-> field_wrong m FName src sb e).
Proof.
  intros fuel m t src sb u e Hm H1 H2 H3 T. assert (P : parse_field fuel m (zlen m) t (src, sb, u) = parse_field fuel m (zlen m) rdf_name (src, sb, u)) by (destruct T as [->| ->]; reflexivity).
  rewrite P. clear P. cbn [parse_field]. rewrite err_bind. rewrite unpack_err by (auto; lia). cbn [field_wrong]. split.
  - intros [H|([w n] & U & H)]; [auto|]. right. assert (Hi : 0 <= src < zlen m) by lia. destruct (owner_inv _ _ _ _ Hm Hi U) as (ls & x & W & ->). destruct (owner_ok _ _ _ _ Hm W) as (_ & K & _). rewrite K in H. cbn [bind] in H.
    destruct (_ <? 0) eqn:C; [|discriminate]. assert (e = res_out_of_bounds) as -> by congruence. destruct W as (W1 & W2 & W3). exists ls, x. split; [auto|]. split; [auto|]. split; [auto|]. split; [lia|auto].
  - intros [H|(ls & x & D & L & X & B & ->)]; [auto|]. right. assert (W : owner_at m src ls x) by (split; auto). destruct (owner_ok _ _ _ _ Hm W) as (U & K & _). eexists. split; [exact U|]. cbv beta iota. rewrite K. cbn [bind].
    replace (_ <? 0) with true by lia. reflexivity.
Qed.
Lemma prefix_len6 : forall p, 0 <= p <= 128 -> (if negb (p mod 8 =? 0) then (128 - p) / 8 + 1 else (128 - p) / 8) = (128 - p + 7) / 8.
Proof. intros p H. destruct (p mod 8 =? 0) eqn:E; cbn [negb]; Z.to_euclidean_division_equations; lia. Qed.
Lemma plain_field_err : forall fuel m t src sb u e, bytes_ok m -> 0 <= src -> 0 < sb -> src + sb <= zlen m -> sb < Z.of_nat fuel ->
  t <> rdf_name -> t <> rdf_uname ->
  (parse_field fuel m (zlen m) t (src, sb, u) = Err e \/ odd_types t e (parse_field fuel m (zlen m) t (src, sb, u)) <-> field_wrong m (fmt_of t) src sb e).
Proof.
  intros fuel m t src sb u e Hm H1 H2 H3 F T1 T2.
  assert (NO : forall x, t <> rdf_type_bitmap -> (x = Err e \/ odd_types t e x <-> x = Err e)) by (intros x T; split; [intros [X|[X _]]; [auto|congruence]|auto]).
  assert (CE : forall x, 0 <= x -> (copy_bytes m (src, sb, u) x = Err e <-> sb < x /\ e = res_parse_error)) by (intros; apply copy_err; lia).
  assert (STR : (oclen <- rd m src ;; copy_bytes m (src, sb, u) (oclen + 1)) = Err e <-> exists c, octets_at m src [c] /\ sb < c + 1 /\ e = res_parse_error).
  { destruct (rd_in m src) as (c & R); [lia|]. pose proof (rd_byte _ _ _ Hm R). rewrite R. cbn [bind]. apply rd_ok in R. rewrite CE by lia. split; [intros [A B]; exists c; auto|].
    intros (c' & O & A & B). assert (c' = c) by (eapply octet_det; eauto). subst. auto. }
  destruct t; try congruence; try (rewrite NO by discriminate); cbn [parse_field fmt_of field_wrong]; try (rewrite CE by lia; tauto); try exact STR.
  1, 2, 3, 8: rewrite CE by lia; split; [lia|tauto].
  - destruct (rd_in m src) as (p & R); [lia|]. pose proof (rd_byte _ _ _ Hm R). rewrite R. cbn [bind]. apply rd_ok in R. destruct (p >? 128) eqn:C.
    + split; [intros E; exists p; split; [auto|left; split; [lia|congruence]]|]. intros (p' & O & K). assert (p' = p) by (eapply octet_det; eauto). subst p'. destruct K as [(_ & ->)|(K & _)]; [reflexivity|lia].
    + cbv zeta. rewrite prefix_len6 by lia. assert (0 <= (128 - p + 7) / 8) by (apply Z.div_pos; lia). rewrite CE by lia. split.
      * intros [A B]. exists p. split; [auto|]. right. split; [lia|]. split; [lia|auto].
      * intros (p' & O & K). assert (p' = p) by (eapply octet_det; eauto). subst p'. destruct K as [(K & _)|(_ & K & ->)]; [lia|]. split; [lia|auto].
  - split.
    + apply strings_err_sound; auto; lia.
    + intros (ss & c & Fs & O & L & ->). cbv zeta in *. eapply strings_err_complete; eauto; lia.
  - split.
    + intros [E|(_ & -> & E)]; [eapply types_err_sound; auto; try lia; left; exact E|eapply types_err_sound; auto; try lia; right; split; [auto|exact E]].
    + intros (ws & Fs & O & -> & K). cbv zeta in *. destruct (types_err_complete ws m src sb u (S (Z.to_nat sb)) Hm Fs) as (K1 & K2); auto; try lia.
      destruct K as [K|(K & c & Oc & Kc)]; [right|left].
      * split; [auto|]. split; [auto|]. eexists _, _. rewrite K1 by lia. reflexivity.
      * apply (K2 c); auto.
  - split; [apply svc_err_sound; auto; lia|]. intros W. eapply svc_err_complete; eauto.
Qed.

(** ** Rdata *)
Definition close_rdata (x : outcome pstate) : outcome bytes := '(_, sb, u) <- x ;; if negb (sb =? 0) then Err res_out_of_bounds else Ok (load_rdata u).
Lemma wrong_pos : forall m fs i n e, rdata_wrong m fs i n e -> 0 < n.
Proof. intros m fs i n e H. destruct H as [| |fs i n ls x e D L X B H|f fs i n l e T F O L H]; auto; [|lia]. apply extent_pos in X. lia. Qed.
Lemma fields_done : forall fuel m eop ts a u, parse_fields fuel m eop ts (a, 0, u) = Ok (a, 0, u).
Proof. intros fuel m eop [|t ts] a u; reflexivity. Qed.
Lemma fields_err : forall ts fuel m src sb u e, bytes_ok m -> 0 <= src -> 0 <= sb -> src + sb <= zlen m -> sb < Z.of_nat fuel -> ends_ok ts = true ->
  (close_rdata (parse_fields fuel m (zlen m) ts (src, sb, u)) = Err e <-> rdata_wrong m (map fmt_of ts) src sb e).
Proof.
  induction ts as [|t ts IH]; intros fuel m src sb u e Hm H1 H2 H3 F En.
  - cbn [parse_fields map]. unfold close_rdata. cbn [bind]. split.
    + intros E. destruct (sb =? 0) eqn:B; cbn [negb] in E; [discriminate|]. assert (e = res_out_of_bounds) as -> by congruence. apply rw_left. lia.
    + intros W. inversion W; subst. replace (sb =? 0) with false by lia. reflexivity.
  - destruct (Z.eq_dec sb 0) as [->|NZ].
    { rewrite fields_done. unfold close_rdata. cbn [bind]. split; [discriminate|]. intros W. apply wrong_pos in W. lia. }
    cbn [parse_fields map]. replace (sb =? 0) with false by lia.
    assert (ends_ok ts = true) as En' by (destruct ts; [reflexivity|]; cbn [ends_ok] in En; apply andb_prop in En; tauto).
    assert (LAST : to_end (fmt_of t) = true -> ts = []) by (intros X; destruct ts; [auto|]; cbn [ends_ok] in En; rewrite X in En; discriminate).
    assert (CB : forall x, close_rdata (st <- x ;; parse_fields fuel m (zlen m) ts st) = Err e <-> x = Err e \/ exists st, x = Ok st /\ close_rdata (parse_fields fuel m (zlen m) ts st) = Err e).
    { intros [a|e'|f'|]; unfold close_rdata; cbn [bind]; split; try discriminate.
      - intros E. right. eauto.
      - intros [E|(st & E & K)]; [discriminate|]. congruence.
      - intros E. left. congruence.
      - intros [E|(st & E & K)]; congruence.
      - intros [E|(st & E & K)]; discriminate.
      - intros [E|(st & E & K)]; discriminate. }
    rewrite CB. clear CB. destruct (name_dec t) as [T|[T1 T2]].
    + rewrite (proj2 (fmt_name t) T). rewrite name_field_err by (auto; lia). split.
      * intros [E|(st & P & E)]; [apply rw_field; auto; lia|]. apply name_field_sound in P; auto; try lia. destruct P as (ls & x & D & L & X & Be & ->). pose proof (extent_pos _ _ _ X).
        apply IH in E; auto; try lia. eapply rw_after_name; eauto.
      * intros W. inversion W as [f fs i n e' N0 W'|i n N0|fs i n ls x e' D L X B W'|f fs i n l e' TE Fo O L W']; subst; [left; auto| |contradiction].
        right. pose proof (extent_pos _ _ _ X). eexists. split; [apply (name_field_complete fuel m t src sb u ls x); auto; lia|]. apply IH; auto; lia.
    + pose proof (plain_field_err fuel m t src sb u e Hm H1 ltac:(lia) H3 F T1 T2) as PE. split.
      * intros [E|(st & P & E)]; [apply rw_field; [lia|apply PE; auto]|]. destruct (rdf_svc_dec t) as [->|Ns].
        { cbn [parse_field] in P. apply svc_loose_sound in P; auto; try lia. destruct P as (_ & l & _ & _ & ->). rewrite fields_done in E. discriminate. }
        pose proof P as P0. apply octets_field_sound in P; auto; try lia; try congruence. destruct P as (l & Fo & O & L & -> & C). pose proof (zlen_nonneg _ l).
        destruct C as [(C1 & C2)|[(C1 & C2)|(C1 & C2)]].
        -- replace (sb - zlen l) with 0 in E by lia. rewrite fields_done in E. discriminate.
        -- apply IH in E; auto; try lia. apply rw_after with (l := l); auto; lia.
        -- assert (TN : ts = []) by (apply LAST; rewrite C1; reflexivity). rewrite TN in E. cbn [parse_fields] in E. replace (sb - zlen l) with 1 in * by lia. unfold close_rdata in E. cbn [bind] in E. change (negb (1 =? 0)) with true in E. cbv iota in E.
           apply rw_field; [lia|]. apply PE. right. split; [destruct t; cbn in C1; congruence|]. split; [congruence|]. eexists _, _. exact P0.
      * intros W. inversion W as [f fs i n e' N0 W'|i n N0|fs i n ls x e' D L X B W'|f fs i n l e' TE Fo O L W']; subst.
        -- apply PE in W' as [E|(-> & -> & a & v & E)]; [left; auto|]. right. eexists. split; [exact E|]. rewrite LAST by reflexivity. reflexivity.
        -- exfalso. assert (Q : fmt_of t = FName) by auto. apply fmt_name in Q. tauto.
        -- right. eexists. split; [apply (octets_field_complete fuel m t src sb u l); auto; congruence|]. apply IH; auto; lia.
Qed.
Lemma rdata_err : forall fuel m t c src n e, bytes_ok m -> 0 <= src -> 0 <= n -> src + n <= zlen m -> n < Z.of_nat fuel ->
  (parse_rdata fuel m (zlen m) t c src n = Err e <-> rdata_wrong m (format_of t c) src n e).
Proof.
  intros fuel m t c src n e Hm H1 H2 H3 F. rewrite parse_rdata_fields by lia. rewrite format_of_fields. apply (fields_err (fields_for t c) fuel m src n [] e); auto. apply fields_for_ends.
Qed.

(** ** Entries *)
Lemma rr_err : forall fuel sec m i e, bytes_ok m -> 65535 < Z.of_nat fuel -> 0 <= i < zlen m ->
  (parse_message_rr fuel sec m (zlen m) i = Err e <-> entry_wrong sec m i e).
Proof.
  intros fuel sec m i e Hm Hf Hi. unfold parse_message_rr, entry_wrong. rewrite err_bind, unpack_err by auto. split.
  - intros [E|([w n] & U & E)]; [split; [lia|auto]|]. split; [lia|]. right. destruct (owner_inv _ _ _ _ Hm Hi U) as (ls & x & W & ->). exists ls, x. split; [auto|]. destruct (owner_ok _ _ _ _ Hm W) as (_ & K & Bi & Be & B & V).
    rewrite K in E. cbn [bind] in E. destruct ((i + x + 4 >? zlen m) || negb (sec =? 0) && (i + x + 10 >? zlen m)) eqn:C; [left; split; [lia|congruence]|].
    destruct (sec =? 0) eqn:S.
    + exfalso. destruct (octets_4 m (i + x)) as (t0 & t1 & c0 & c1 & O); try lia. destruct (fixed4 _ _ _ _ _ _ O) as (G1 & G2). rewrite G1, G2 in E. discriminate.
    + right. split; [lia|]. cbn [negb andb] in C. destruct (octets_10 m (i + x)) as (t0 & t1 & c0 & c1 & a & y & z & v & l0 & l1 & O); try lia.
      destruct (fixed10 _ _ _ _ _ _ _ _ _ _ _ _ O) as (G1 & G2 & G3 & G4). rewrite G1, G2, G3 in E. cbn [bind] in E. rewrite G4 in E. cbn [bind] in E.
      destruct (bytes10 _ _ _ _ _ _ _ _ _ _ _ _ Hm O) as (_ & _ & Bl). exists t0, t1, c0, c1, a, y, z, v, l0, l1. split; [auto|]. cbv zeta.
      destruct (i + x + 2 + 2 + 4 + 2 + (l0 * 256 + l1) >? zlen m) eqn:C2; [left; split; [lia|congruence]|]. replace (i + x + 2 + 2 + 4 + 2) with (i + x + 10) in * by lia.
      apply err_bind in E as [E|(d & _ & E)]; [|discriminate]. apply rdata_err in E; auto; try lia. right. split; [lia|auto].
  - intros (_ & [E|(ls & x & W & K)]); [auto|]. right. destruct (owner_ok _ _ _ _ Hm W) as (U & Sk & Bi & Be & B & V). eexists. split; [exact U|]. cbv beta iota. rewrite Sk. cbn [bind].
    destruct K as [(K & ->)|(NS & t0 & t1 & c0 & c1 & a & y & z & v & l0 & l1 & O & K)].
    + replace ((i + x + 4 >? zlen m) || negb (sec =? 0) && (i + x + 10 >? zlen m)) with true; [reflexivity|]. destruct (sec =? 0) eqn:S; cbn [negb andb]; lia.
    + cbv zeta in K. pose proof (octets_at_bound _ _ _ O) as Ob. change (zlen [t0; t1; c0; c1; a; y; z; v; l0; l1]) with 10 in Ob.
      replace (i + x + 4 >? zlen m) with false by lia. replace (i + x + 10 >? zlen m) with false by lia. replace (sec =? 0) with false by lia. cbn [negb andb orb].
      destruct (fixed10 _ _ _ _ _ _ _ _ _ _ _ _ O) as (G1 & G2 & G3 & G4). rewrite G1, G2, G3. cbn [bind]. rewrite G4. cbn [bind].
      destruct (bytes10 _ _ _ _ _ _ _ _ _ _ _ _ Hm O) as (_ & _ & Bl). replace (i + x + 2 + 2 + 4 + 2) with (i + x + 10) by lia.
      destruct K as [(K & ->)|(K & W')]; [replace (_ >? zlen m) with true by lia; reflexivity|]. replace (_ >? zlen m) with false by lia.
      apply err_bind. left. apply rdata_err; auto; lia.
Qed.

(** ** Sections and messages *)
Definition stops (e : res) (fl : outcome pflow) : Prop := exists M, fl = Ok (Return e M).
Lemma entry_codes : forall fuel sec m i e, bytes_ok m -> 65535 < Z.of_nat fuel -> 0 <= i < zlen m -> parse_message_rr fuel sec m (zlen m) i = Err e -> e <> res_success.
Proof.
  intros fuel sec m i e Hm Hf Hi E. apply rr_err in E as (_ & [N|(ls & x & _ & [(_ & ->)|(_ & t0 & t1 & c0 & c1 & a & y & z & v & l0 & l1 & _ & [(_ & ->)|(_ & W)])])]); auto; try discriminate.
  - destruct N as (ls & j & _ & _ & [(c & _ & _ & ->)|[(hi & lo & _ & _ & _ & ->)|[(c & _ & _ & _ & ->)|(c & _ & _ & _ & _ & ->)]]]); discriminate.
  - clear - W. assert (PW : forall i n e, params_wrong m i n e -> e <> res_success) by (intros i' n e' H; induction H; auto; discriminate).
    induction W as [f fs i' n e N W|i' n N|fs i' n ls' x' e D L X B W IH|f fs i' n l e T F O L W IH]; auto; try discriminate.
    destruct f; cbn [field_wrong] in W.
    + destruct W as [N'|(ls' & x' & _ & _ & _ & _ & ->)]; [|discriminate]. destruct N' as (ls' & j & _ & _ & [(c & _ & _ & ->)|[(hi & lo & _ & _ & _ & ->)|[(c & _ & _ & _ & ->)|(c & _ & _ & _ & _ & ->)]]]); discriminate.
    + destruct W as [_ ->]. discriminate.
    + destruct W as (c & _ & _ & ->). discriminate.
    + destruct W as (ss & c & _ & _ & _ & ->). discriminate.
    + contradiction.
    + destruct W as (p & _ & [(_ & ->)|(_ & _ & ->)]); discriminate.
    + destruct W as (ws & _ & _ & -> & _). discriminate.
    + eapply PW; eauto.
Qed.
Lemma section_err_sound : forall n e fuel sec pkt i id flags l, bytes_ok pkt -> 65535 < Z.of_nat fuel -> 0 <= sec <= 3 -> 0 <= i <= zlen pkt -> Forall entry_valid l -> e <> res_success ->
  stops e (parse_section fuel n sec pkt (zlen pkt) i (parsed_entries id flags l)) ->
  exists k rs j, 0 <= k < Z.of_nat n /\ loose_entries sec pkt i k rs j /\ entry_wrong sec pkt j e.
Proof.
  induction n as [|n IH]; intros e fuel sec pkt i id flags l Hm Hf Hs Hi F NE E; [destruct E as (M & E); discriminate|].
  destruct (Z.eq_dec i (zlen pkt)) as [Eq|Ne].
  { cbn [parse_section] in E. rewrite Eq, Z.eqb_refl in E. destruct E as (M & E). congruence. }
  assert (Hi' : 0 <= i < zlen pkt) by lia.
  destruct (parse_message_rr fuel sec pkt (zlen pkt) i) as [[r k]|e'|f|] eqn:P.
  - destruct (loose_rr_sound _ _ _ _ _ _ Hm Hi' P) as (s & R & ->).
    pose proof (loose_entry_valid_at _ _ _ _ _ Hm Hs R) as V. destruct (loose_rr_complete fuel _ _ _ _ _ Hm Hf R) as (_ & B & B2 & Bi).
    rewrite (parse_section_step _ _ _ _ _ _ _ (rr_of s) k) in E by auto. rewrite (take_step id flags l sec s F V) in E. cbn [bind] in E.
    apply IH in E; auto; try lia; [|apply Forall_app; auto]. destruct E as (k' & rs & j & Bk & En & U).
    exists (k' + 1), (s :: rs), j. split; [lia|]. split; auto. eapply ln_more; eauto; try lia. replace (k' + 1 - 1) with k' by lia. auto.
  - cbn [parse_section] in E. replace (i =? zlen pkt) with false in E by lia. rewrite P in E. destruct E as (M & E). assert (e' = e) by congruence. subst e'. apply rr_err in P; auto. exists 0, [], i. split; [lia|]. split; [constructor|auto].
  - cbn [parse_section] in E. replace (i =? zlen pkt) with false in E by lia. rewrite P in E. destruct E as (M & E). discriminate.
  - cbn [parse_section] in E. replace (i =? zlen pkt) with false in E by lia. rewrite P in E. destruct E as (M & E). discriminate.
Qed.
Lemma section_err_complete : forall e fuel sec pkt i k rs j, bytes_ok pkt -> 65535 < Z.of_nat fuel -> 0 <= sec <= 3 -> 
  loose_entries sec pkt i k rs j -> 0 <= i -> entry_wrong sec pkt j e -> forall n id flags l, Forall entry_valid l -> k < Z.of_nat n ->
  stops e (parse_section fuel n sec pkt (zlen pkt) i (parsed_entries id flags l)).
Proof.
  intros e fuel sec pkt i k rs j Hm Hf Hs E. induction E as [i|n Hn|i k r d rs j Hn Hi R E IH]; intros I0 U n' id flags l F B.
  - pose proof U as [U0 _]. destruct n' as [|n']; [lia|]. cbn [parse_section]. replace (i =? zlen pkt) with false by lia. apply (rr_err fuel) in U; auto. rewrite U. eexists. reflexivity.
  - destruct U as [U _]. lia.
  - pose proof (loose_entry_valid_at _ _ _ _ _ Hm Hs R) as V. destruct (loose_rr_complete fuel _ _ _ _ _ Hm Hf R) as (P & B1 & B2 & Bi).
    destruct n' as [|n']; [lia|]. rewrite (parse_section_step _ _ _ _ _ _ _ (rr_of r) d) by (auto; lia). rewrite (take_step id flags l sec r F V). cbn [bind].
    apply IH; auto; try lia. apply Forall_app. auto.
Qed.
Lemma wrong_end : forall secs pkt e, ~ sections_wrong secs pkt (zlen pkt) e.
Proof.
  induction secs as [|[sec n] secs IH]; intros pkt e H; cbn [sections_wrong] in H; auto. destruct H as [(k & rs & j & B & L & U)|(rs & j & L & U)].
  - apply loose_entries_end_inv in L as [-> ->]. destruct U. lia.
  - apply loose_entries_end_inv in L as [-> ->]. eapply IH; eauto.
Qed.
Lemma sections_err : forall secs e fuel pkt i id flags l0, bytes_ok pkt -> 65535 < Z.of_nat fuel -> Forall (fun e => 0 <= fst e <= 3 /\ 0 <= snd e) secs -> 0 <= i <= zlen pkt -> Forall entry_valid l0 ->
  ((e <> res_success /\ exists M, parse_sections fuel secs pkt (zlen pkt) i (parsed_entries id flags l0) = Ok (e, M)) <-> sections_wrong secs pkt i e).
Proof.
  induction secs as [|[sec n] secs IH]; intros e fuel pkt i id flags l0 Hm Hf Fs Hi F0; cbn [parse_sections sections_wrong].
  { split; [|tauto]. intros (NE & M & E). congruence. }
  inversion Fs as [|? ? [Fa Fb] Fc]; subst. cbn [fst snd] in *. split.
  - intros (NE & M & E). apply bind_ok in E as (fl & P & E). pose proof P as P0.
    apply loose_section_sound in P; auto. rewrite Z2Nat.id in P by lia. destruct P as [(rs & j & En & Bj & Fv & [-> | (Ej & ->)])|(e' & l' & -> & Ne & Fv)].
    + right. exists rs, j. split; auto. apply (IH e fuel pkt j id flags (l0 ++ tag sec rs)); eauto. lia.
    + congruence.
    + left. assert (e' = e) by congruence. subst e'. assert (S : stops e (parse_section fuel (Z.to_nat n) sec pkt (zlen pkt) i (parsed_entries id flags l0))) by (eexists; eauto).
      apply section_err_sound in S; auto. rewrite Z2Nat.id in S by lia. auto.
  - intros [(k & rs & j & B & L & U)|(rs & j & L & U)].
    + assert (Bj : 0 <= j <= zlen pkt) by (eapply loose_entries_bound; eauto). assert (NE : e <> res_success). { pose proof U as [U0 _]. apply (rr_err fuel) in U; auto; [|lia]. eapply entry_codes; [exact Hm|exact Hf| |exact U]. lia. }
      split; [auto|]. destruct (section_err_complete e fuel sec pkt i k rs j Hm Hf Fa L ltac:(lia) U (Z.to_nat n) id flags l0 F0 ltac:(lia)) as (M & E). rewrite E. cbn [bind]. eauto.
    + pose proof (loose_entries_bound _ _ _ _ _ _ Hm L Hi). destruct (loose_section_complete fuel sec pkt i n rs j Hm Hf Fa L id flags l0 F0) as (Fv & [P|(Ej & P)]).
      * rewrite P. cbn [bind]. apply (IH e fuel pkt j id flags); auto.
      * subst j. exfalso. eapply wrong_end; eauto.
Qed.
Lemma message_err : forall fuel pkt e, bytes_ok pkt -> 65535 < Z.of_nat fuel -> ((e <> res_success /\ exists M, parse_message fuel pkt (zlen pkt) = Ok (e, M)) <-> message_wrong pkt e).
Proof.
  intros fuel pkt e Hm Hf. destruct (Z_lt_ge_dec (zlen pkt) 12) as [L|L].
  - unfold parse_message. replace (zlen pkt <? 12) with true by lia. unfold message_wrong. split.
    + intros (NE & M & E). left. split; [auto|congruence].
    + intros [[_ ->]|(i0 & i1 & f0 & f1 & q0 & q1 & a0 & a1 & n0 & n1 & r0 & r1 & O & _)]; [split; [discriminate|eauto]|]. apply octets_at_bound in O. cbn in O. lia.
  - destruct (octets_12 pkt) as (i0 & i1 & f0 & f1 & q0 & q1 & a0 & a1 & n0 & n1 & r0 & r1 & O); [lia|].
    destruct (bytes12 _ _ _ _ _ _ _ _ _ _ _ _ _ Hm O) as (_ & B1 & B2 & B3 & B4).
    rewrite (parse_message_unfold _ _ _ _ _ _ _ _ _ _ _ _ _ _ O) by lia. rewrite sections_err; auto; [|repeat constructor; cbn; lia|lia]. unfold message_wrong. split.
    + intros U. right. exists i0, i1, f0, f1, q0, q1, a0, a1, n0, n1, r0, r1. auto.
    + intros [[X _]|(i0' & i1' & f0' & f1' & q0' & q1' & a0' & a1' & n0' & n1' & r0' & r1' & O' & U)]; [lia|].
      pose proof (octets_at_det _ _ _ _ O O' eq_refl) as E. injection E as -> -> -> -> -> -> -> -> -> -> -> ->. exact U.
Qed.
