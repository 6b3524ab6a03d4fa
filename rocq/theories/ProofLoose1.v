(** ProofLoose1.v: the SvcParam loop, for every announced length. *)
From Verif Require Import Base Lib SpecName ModelName ModelDescr ModelParse SpecMessage SpecLoose ProofUnpack ProofCopy ProofRdata.

Lemma alpn_loop_le : forall f m val n o r, bytes_ok m -> alpn_loop f m val n o = Ok r -> o <= r.
Proof.
  induction f as [|f IH]; intros m val n o r Hm H; cbn [alpn_loop] in H; [discriminate|]. destruct (o <? n); [|injection H as <-; lia].
  apply bind_ok in H as (c & R & H). apply rd_byte in R; auto. apply IH in H; auto. lia.
Qed.
Lemma alpn_walk_iff : forall f m val n o, bytes_ok m -> 0 <= o -> n - o < Z.of_nat f -> 0 < Z.of_nat f -> 0 <= n ->
  (alpn_loop f m val n o = Ok n <-> alpn_walk m (val + o) (n - o)).
Proof.
  induction f as [|f IH]; intros m val n o Hm Ho F F0 Hn; [lia|]. cbn [alpn_loop]. destruct (o <? n) eqn:E.
  - split.
    + intros H. apply bind_ok in H as (c & R & H). pose proof (rd_byte _ _ _ Hm R) as Rb. pose proof (alpn_loop_le _ _ _ _ _ _ Hm H). apply IH in H; auto; try lia.
      apply rd_ok in R. apply aw_id with (c := c); auto; try lia.
      replace (val + o + 1 + c) with (val + (o + 1 + c)) by lia. replace (n - o - 1 - c) with (n - (o + 1 + c)) by lia. exact H.
    + intros H. inversion H as [i Q1 Q2|i k c O L W Q1 Q2]; subst; [lia|]. apply rd_ok in O. pose proof (rd_byte _ _ _ Hm O) as Rb. rewrite O. cbn [bind]. apply IH; auto; try lia.
      replace (val + (o + 1 + c)) with (val + o + 1 + c) by lia. replace (n - (o + 1 + c)) with (n - o - 1 - c) by lia. exact W.
  - split.
    + intros H. assert (o = n) by congruence. subst. rewrite Z.sub_diag. constructor.
    + intros H. inversion H as [i Q1 Q2|i k c O L W Q1 Q2]; subst; [f_equal; lia|]. pose proof (octets_at_bytes _ _ _ Hm O) as B. inversion B as [|? ? Bc _]; subst. unfold is_byte in Bc. lia.
Qed.
Lemma validate_iff : forall m key n val, bytes_ok m -> 0 <= key < 65536 -> 0 <= n ->
  (svcparam_key_validate m key n val = Ok true <-> announced_ok m key val n).
Proof.
  intros m key n val Hm Hk Hn. unfold svcparam_key_validate, announced_ok.
  assert (B : forall b, Ok b = Ok true <-> b = true) by (intros b; split; congruence).
  destruct (key =? 0) eqn:E0. { rewrite B, mod_zero_iff by lia. assert (key = 0) by lia. intuition lia. }
  destruct (key =? 1) eqn:E1.
  { assert (key = 1) by lia. destruct (n =? 0) eqn:E.
    - split; [discriminate|]. intros (_ & _ & A & _). destruct A; auto. lia.
    - assert (W := alpn_walk_iff (S (Z.to_nat n)) m val n 0 Hm ltac:(lia) ltac:(lia) ltac:(lia) Hn). rewrite Z.add_0_r, Z.sub_0_r in W. split.
      + intros H1. apply bind_ok in H1 as (o & H1 & H2). assert (o = n) by (assert ((o =? n) = true) by congruence; lia). subst o. apply W in H1. repeat split; intros; try lia. auto.
      + intros (_ & _ & A & _). destruct A as [_ A]; auto. apply W in A. rewrite A. cbn [bind]. rewrite Z.eqb_refl. reflexivity. }
  destruct (key =? 2) eqn:E2. { rewrite B. assert (key = 2) by lia. intuition lia. }
  destruct (key =? 3) eqn:E3. { rewrite B. assert (key = 3) by lia. intuition lia. }
  destruct (key =? 5) eqn:E5. { rewrite B. assert (key = 5) by lia. intuition lia. }
  destruct (key =? 4) eqn:E4. { rewrite B, mod_zero_iff by lia. assert (key = 4) by lia. intuition lia. }
  destruct (key =? 6) eqn:E6. { rewrite B, mod_zero_iff by lia. assert (key = 6) by lia. intuition lia. }
  destruct (key =? 65535) eqn:E7. { rewrite B. intuition lia. }
  rewrite B. intuition lia.
Qed.

Lemma four_octets : forall m i, 0 <= i -> i + 4 <= zlen m -> exists a b c d, octets_at m i [a; b; c; d].
Proof.
  intros m i H B. assert (octets_at m i (firstn (Z.to_nat 4) (skipn (Z.to_nat i) m))) as O by (apply octets_at_intro; lia).
  assert (zlen (firstn (Z.to_nat 4) (skipn (Z.to_nat i) m)) = 4) as L by (apply zlen_firstn; rewrite zlen_skipn; lia).
  destruct (firstn (Z.to_nat 4) (skipn (Z.to_nat i) m)) as [|a [|b [|c [|d [|e r]]]]]; try (cbv in L; lia).
  - exists a, b, c, d. auto.
  - rewrite !zlen_cons in L. pose proof (zlen_nonneg _ r). lia.
Qed.
(** One iteration. *)
Lemma svc_iter : forall m src sb u f k0 k1 v0 v1, bytes_ok m -> 4 <= sb -> octets_at m src [k0; k1; v0; v1] ->
  svc_loop (S f) m (src, sb, u) =
    if (4 + be16 v0 v1) mod 65536 >? sb then Err res_out_of_bounds
    else ok <- svcparam_key_validate m (be16 k0 k1) (be16 v0 v1) (src + 4) ;;
      if negb ok then Err res_parse_error else st <- copy_bytes m (src, sb, u) ((4 + be16 v0 v1) mod 65536) ;; svc_loop f m st.
Proof.
  intros m src sb u f k0 k1 v0 v1 Hm B4 O.
  apply octets_at_cons in O as [O0 O]. apply octets_at_cons in O as [O1 O]. apply octets_at_cons in O as [O2 O3].
  replace (src + 1 + 1) with (src + 2) in * by lia. replace (src + 2 + 1) with (src + 3) in * by lia.
  cbn [svc_loop]. replace (sb >? 0) with true by lia. replace (sb <? 4) with false by lia.
  rewrite (proj2 (rd_ok _ _ _) O0), (proj2 (rd_ok _ _ _) O1). cbn [bind].
  rewrite (proj2 (rd_ok _ _ _) O2), (proj2 (rd_ok _ _ _) O3). cbn [bind]. reflexivity.
Qed.
Lemma wrap_len : forall a b, 0 <= a < 256 -> 0 <= b < 256 -> (be16 a b < 65532 /\ (4 + be16 a b) mod 65536 = 4 + be16 a b) \/
  (a = 255 /\ 252 <= b /\ (4 + be16 a b) mod 65536 = b - 252).
Proof.
  intros a b A B. unfold be16. destruct (Z_lt_ge_dec (a * 256 + b) 65532) as [L|L]; [left|right].
  - split; auto. rewrite Z.mod_small; lia.
  - assert (a = 255) by lia. subst. split; auto. split; [lia|]. replace (4 + (255 * 256 + b)) with (b - 252 + 1 * 65536) by lia. rewrite Z.mod_add by lia. rewrite Z.mod_small; lia.
Qed.
Lemma octets4_bytes : forall m i a b c d, bytes_ok m -> octets_at m i [a; b; c; d] -> 0 <= a < 256 /\ 0 <= b < 256 /\ 0 <= c < 256 /\ 0 <= d < 256.
Proof.
  intros m i a b c d Hm O. apply (octets_at_bytes _ _ _ Hm) in O. unfold bytes_ok, is_byte in O. repeat match goal with H : Forall _ (_ :: _) |- _ => inversion H; subst; clear H end. auto.
Qed.

(** With 65532 announced nothing is consumed: no result ever. *)
Lemma svc_stuck : forall f m src sb u k0 k1 st, bytes_ok m -> 4 <= sb -> octets_at m src [k0; k1; 255; 252] -> svc_loop f m (src, sb, u) <> Ok st.
Proof.
  induction f as [|f IH]; intros m src sb u k0 k1 st Hm B O H; [discriminate|]. rewrite (svc_iter m src sb u f k0 k1 255 252) in H by auto.
  change ((4 + be16 255 252) mod 65536) with 0 in H. replace (0 >? sb) with false in H by lia. apply bind_ok in H as (ok & _ & H). destruct ok; [|discriminate]. cbn [negb] in H.
  apply bind_ok in H as (st1 & C & H). apply copy_bytes_iff in C as (C0 & l & C1 & C2 & ->). rewrite Z.add_0_r, Z.sub_0_r in H. eapply IH; eauto.
Qed.
Lemma svc_loose_sound : forall f m src sb u st, bytes_ok m -> 0 <= src -> 0 <= sb -> src + sb <= zlen m ->
  svc_loop f m (src, sb, u) = Ok st ->
  loose_params m src sb /\ exists l, octets_at m src l /\ zlen l = sb /\ st = (src + sb, 0, u ++ l).
Proof.
  induction f as [|f IH]; intros m src sb u st Hm H1 H2 H3 E; [discriminate|].
  destruct (Z_le_gt_dec sb 0) as [D|D].
  { cbn [svc_loop] in E. replace (sb >? 0) with false in E by lia. injection E as <-. replace sb with 0 by lia. split; [constructor|]. exists []. repeat split; auto.
    - apply octets_at_nil. lia.
    - rewrite app_nil_r, Z.add_0_r. reflexivity. }
  destruct (Z_lt_ge_dec sb 4) as [D4|D4].
  { cbn [svc_loop] in E. replace (sb >? 0) with true in E by lia. replace (sb <? 4) with true in E by lia. discriminate. }
  destruct (four_octets m src) as (k0 & k1 & v0 & v1 & O); try lia. destruct (octets4_bytes _ _ _ _ _ _ Hm O) as (K0 & K1 & V0 & V1).
  rewrite (svc_iter m src sb u f k0 k1 v0 v1) in E; auto; try lia. destruct (_ >? sb) eqn:G; [discriminate|]. apply bind_ok in E as (ok & VL & E). destruct ok; [|discriminate]. cbn [negb] in E.
  pose proof (be16_range v0 v1 V0 V1) as Vr. pose proof (be16_range k0 k1 K0 K1) as Kr.
  apply bind_ok in E as (st1 & C & E). apply copy_bytes_iff in C as (C0 & l & C1 & C2 & ->).
  remember ((4 + be16 v0 v1) mod 65536) as k eqn:Kk. assert (0 <= k < 65536) by (rewrite Kk; apply Z.mod_pos_bound; lia).
  pose proof E as E0. apply IH in E; auto; try lia. destruct E as (LP & l' & O' & L' & ->).
  split.
  - destruct (wrap_len v0 v1 V0 V1) as [[S S2]|(-> & S & S2)].
    + assert (octets_at m (src + 4) (firstn (Z.to_nat (be16 v0 v1)) (skipn (Z.to_nat (src + 4)) m))) as Ov by (apply octets_at_intro; lia).
      assert (zlen (firstn (Z.to_nat (be16 v0 v1)) (skipn (Z.to_nat (src + 4)) m)) = be16 v0 v1) as Lv by (apply zlen_firstn; rewrite zlen_skipn; lia).
      set (val := firstn (Z.to_nat (be16 v0 v1)) (skipn (Z.to_nat (src + 4)) m)) in *. clearbody val.
      assert (octets_at m src (param (be16 k0 k1, val))) as Op.
      { unfold param. cbn [fst snd]. rewrite Lv, !u16_be16 by auto. change ([k0; k1] ++ [v0; v1] ++ val) with ([k0; k1; v0; v1] ++ val). apply octets_at_app. split; auto. }
      destruct (svc_validate_spec m (be16 k0 k1) (be16 v0 v1) (src + 4) val) as (b & Vb & Vs); auto; try lia. rewrite Vb in VL.
      apply lp_param with (kv := (be16 k0 k1, val)); cbn [fst snd]; auto.
      * apply Vs. congruence.
      * lia.
      * rewrite zlen_param. cbn [snd]. lia.
      * rewrite zlen_param. cbn [snd]. replace (4 + zlen val) with k by lia. exact LP.
    + assert (NZ : v1 <> 252).
      { intros ->. rewrite Z.sub_diag in S2. assert (K00 : k = 0) by lia. rewrite K00, Z.add_0_r, Z.sub_0_r in E0. eapply svc_stuck; [exact Hm| |exact O|exact E0]. lia. }
      eapply lp_wrapped; [exact O|lia|lia| |replace (v1 - 252) with k by lia; exact LP].
      apply validate_iff in VL; [|auto|lia|lia]. unfold be16 in VL. replace (65280 + v1) with (255 * 256 + v1) by lia. exact VL.
  - exists (l ++ l'). split; [apply octets_at_app; rewrite C2; auto|]. split; [rewrite zlen_app; lia|]. rewrite <- app_assoc. f_equal. f_equal; lia.
Qed.

Lemma svc_loose_complete : forall m src n, loose_params m src n -> bytes_ok m -> forall f u, 0 <= src -> 0 <= n -> src + n <= zlen m -> n < Z.of_nat f ->
  exists l, octets_at m src l /\ zlen l = n /\ svc_loop f m (src, n, u) = Ok (src + n, 0, u ++ l).
Proof.
  intros m src n H Hm. induction H as [i|i n [key val] O P V L H IH|i n k0 k1 l1 O W N A H IH]; intros f u Hs Hn B F; (destruct f as [|f]; [lia|]).
  - exists []. split; [apply octets_at_nil; lia|]. split; auto. cbn [svc_loop]. rewrite app_nil_r, Z.add_0_r. reflexivity.
  - rewrite zlen_param in *. cbn [fst snd] in *. pose proof (zlen_nonneg _ val). pose proof O as Op. unfold param in O. cbn [fst snd] in O. unfold u16 in O.
    change ([key / 256; key mod 256] ++ [zlen val / 256; zlen val mod 256] ++ val) with ([key / 256; key mod 256; zlen val / 256; zlen val mod 256] ++ val) in O. apply octets_at_app in O as [O1 O2].
    rewrite (svc_iter m i n u f _ _ _ _ Hm ltac:(lia) O1). rewrite !be16_u16. rewrite Z.mod_small by lia. replace (4 + zlen val >? n) with false by lia.
    change (zlen [key / 256; key mod 256; zlen val / 256; zlen val mod 256]) with 4 in O2.
    destruct (svc_validate_spec m key (zlen val) (i + 4) val) as (b & Vb & Vs); try (pose proof P as [K _]; lia); auto. rewrite Vb. cbn [bind]. rewrite (proj2 Vs P). cbn [negb].
    rewrite (copy_bytes_do _ _ _ _ _ _ Op) by (rewrite ?zlen_param; cbn [snd]; lia). cbn [bind].
    destruct (IH f (u ++ param (key, val))) as (l & O' & L' & ->); try lia. exists (param (key, val) ++ l).
    split; [apply octets_at_app; rewrite zlen_param; auto|]. split; [rewrite zlen_app, zlen_param; cbn [snd]; lia|]. rewrite <- app_assoc. do 2 f_equal. f_equal; lia.
  - destruct (octets4_bytes _ _ _ _ _ _ Hm O) as (K0 & K1 & _ & V1). rewrite (svc_iter m i n u f k0 k1 255 l1 Hm N O).
    assert (E : (4 + be16 255 l1) mod 65536 = l1 - 252) by (destruct (wrap_len 255 l1) as [[X _]|(_ & _ & X)]; try lia; unfold be16 in X; lia).
    rewrite E. replace (l1 - 252 >? n) with false by lia. replace (65280 + l1) with (be16 255 l1) in A by (unfold be16; lia).
    pose proof (be16_range k0 k1 K0 K1) as Kr. pose proof (be16_range 255 l1 ltac:(lia) V1) as Vr.
    apply validate_iff in A; [|auto|exact Kr|lia]. change (k0 * 256 + k1) with (be16 k0 k1) in A. rewrite A. cbn [bind negb].
    assert (O3 : octets_at m i (firstn (Z.to_nat (l1 - 252)) (skipn (Z.to_nat i) m))) by (apply octets_at_intro; lia).
    assert (L3 : zlen (firstn (Z.to_nat (l1 - 252)) (skipn (Z.to_nat i) m)) = l1 - 252) by (apply zlen_firstn; rewrite zlen_skipn; lia).
    rewrite (copy_bytes_do _ _ _ _ _ _ O3) by lia. cbn [bind]. set (p := firstn _ _) in *. clearbody p. clear E.
    destruct (IH f (u ++ p)) as (l & O' & L' & ->); try lia. exists (p ++ l).
    split; [apply octets_at_app; rewrite L3; auto|]. split; [rewrite zlen_app; lia|]. rewrite <- app_assoc. do 2 f_equal. f_equal; lia.
Qed.
