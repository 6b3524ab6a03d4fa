(** ProofFault.v: when wdns_parse_message does not return, and when it reads outside the packet. *)
From Verif Require Import Base Lib SpecName ModelName ModelDescr ModelParse SpecMessage SpecParsed SpecLoose SpecFault
  ProofUnpack ProofCopy ProofNameOps ProofRdata ProofRdata2 ProofGroup ProofMessage ProofLoose1 ProofLoose2.

(** [h = true]: does not return; [h = false]: undefined behaviour. *)
Definition evt (h : bool) {A} (o : outcome A) : Prop := match o with NoFuel => h = true | UB _ => h = false | _ => False end.
Lemma evt_bind : forall h A B (o : outcome A) (k : A -> outcome B), evt h (bind o k) <-> evt h o \/ exists a, o = Ok a /\ evt h (k a).
Proof.
  intros h A B [a|e|f|] k; cbn [bind evt]; split; try tauto; auto.
  - intros H. right. eauto.
  - intros [[]|(a' & E & H)]. congruence.
  - intros [[]|(a' & E & H)]. congruence.
  - intros [H|(a' & E & H)]; [auto|discriminate].
  - intros [H|(a' & E & H)]; [auto|discriminate].
Qed.
Lemma returns_evt : forall h A (o : outcome A), returns o -> ~ evt h o.
Proof. intros h A [a|e|f|] R; cbn in *; auto. Qed.
Definition Nh (h : bool) (m : bytes) (i : Z) : Prop := if h then False else name_off m i.
Definition Eh (h : bool) (m : bytes) (key i n : Z) : Prop := if h then n = 65532 /\ announced_ok m key i n else key = 1 /\ alpn_off m i n.

Lemma unpack_evt : forall h m i, bytes_ok m -> 0 <= i < zlen m -> (evt h (unpack_name m (zlen m) i) <-> Nh h m i).
Proof.
  intros h m i Hm Hi. destruct (unpack_name_case m (zlen m) i Hm Hi) as (r & C & E). destruct h.
  - split; [|intros []]. rewrite E. destruct C; cbn; try discriminate; auto.
  - split.
    + intros H. rewrite E in H. destruct C as [| | | | | |ls j R P X|ls j hi R P X Y Z1|]; cbn in H; try contradiction.
      * exists ls, j. split; auto. split; [fold (prewire ls); lia|]. left. apply reaches_bound in R; auto; lia.
      * exists ls, j. split; auto. split; [fold (prewire ls); lia|]. right. pose proof (octets_at_bound _ _ _ X) as Xb. change (zlen [hi]) with 1 in Xb. split; [lia|]. exists hi. auto.
      * lia.
    + intros (ls & j & R & L & K). fold (prewire ls) in L.
      assert (C' : unpack_case m (zlen m) i 255 (UB OobRead)).
      { destruct K as [->|(J & hi & O & B)]; [apply (uc_read m (zlen m) i 255 ls (zlen m)); auto; lia|apply (uc_read_ptr m (zlen m) i 255 ls j hi); auto; lia]. }
      rewrite (unpack_case_complete m (zlen m) i _ Hm Hi C'). reflexivity.
Qed.

(** ** SvcParams *)
Lemma alpn_evt : forall f h m val n o, bytes_ok m -> 0 <= val -> 0 <= o -> n - o < Z.of_nat f -> 0 < Z.of_nat f ->
  (evt h (alpn_loop f m val n o) <-> h = false /\ alpn_off m (val + o) (n - o)).
Proof.
  induction f as [|f IH]; intros h m val n o Hm Hv Ho F F0; [lia|]. cbn [alpn_loop]. destruct (o <? n) eqn:D.
  - destruct (Z_lt_ge_dec (val + o) (zlen m)) as [B|B].
    + destruct (rd_in m (val + o)) as (c & R); [lia|]. pose proof (rd_byte _ _ _ Hm R) as Rb. rewrite R. cbn [bind]. rewrite IH by (auto; lia).
      replace (val + (o + 1 + c)) with (val + o + 1 + c) by lia. replace (n - (o + 1 + c)) with (n - o - 1 - c) by lia. apply rd_ok in R.
      split; intros [H1 H2]; split; auto; [eapply ao_id; eauto|]. inversion H2 as [? ? P1 P2|? ? c' O W]; subst; [lia|].
      assert (c' = c) as -> by (eapply octet_det; eauto). exact W.
    + assert (R : rd m (val + o) = UB OobRead).
      { unfold rd. replace (val + o <? 0) with false by lia. replace (nth_error m (Z.to_nat (val + o))) with (@None Z); [reflexivity|].
        symmetry. apply nth_error_None. unfold zlen in B. lia. }
      rewrite R. cbn. split; [intros ->; split; auto; apply ao_here; lia|intros [H _]; exact H].
  - split; [intros []|]. intros [_ H]. exfalso.
    assert (K : forall i k, alpn_off m i k -> 0 < k). { clear - Hm. intros i k H. induction H as [|i k c O W IH]; auto. apply (octets_at_bytes _ _ _ Hm) in O. inversion O as [|? ? Bc _]; subst. unfold is_byte in Bc. lia. }
    apply K in H. lia.
Qed.
Lemma validate_evt : forall h m key n val, bytes_ok m -> 0 <= val -> 0 < n -> (evt h (svcparam_key_validate m key n val) <-> h = false /\ key = 1 /\ alpn_off m val n).
Proof.
  intros h m key n val Hm Hv Hn. unfold svcparam_key_validate.
  destruct (key =? 0) eqn:E0; [cbn [evt]; intuition lia|].
  destruct (key =? 1) eqn:E1.
  { replace (n =? 0) with false by lia. rewrite evt_bind. rewrite (alpn_evt (S (Z.to_nat n)) h m val n 0) by (auto; lia). rewrite Z.add_0_r, Z.sub_0_r. split.
    - intros [[A B]|(a & _ & [])]. intuition lia.
    - intros (A & B & C). auto. }
  repeat match goal with |- context [if ?b then _ else _] => destruct b end; cbn [evt]; intuition lia.
Qed.

Lemma svc_hang : forall f m src sb u k0 k1, bytes_ok m -> 4 <= sb -> 0 <= src -> octets_at m src [k0; k1; 255; 252] -> announced_ok m (k0 * 256 + k1) (src + 4) 65532 ->
  svc_loop f m (src, sb, u) = NoFuel.
Proof.
  induction f as [|f IH]; intros m src sb u k0 k1 Hm B S0 O A; [reflexivity|]. rewrite (svc_iter m src sb u f k0 k1 255 252) by auto.
  change ((4 + be16 255 252) mod 65536) with 0. replace (0 >? sb) with false by lia. destruct (octets4_bytes _ _ _ _ _ _ Hm O) as (K0 & K1 & _ & _).
  pose proof A as A'. apply validate_iff in A'; [|auto|lia|lia]. change (be16 k0 k1) with (k0 * 256 + k1). change (be16 255 252) with 65532. rewrite A'. cbn [bind negb].
  pose proof (octets_at_bound _ _ _ O) as Ob. rewrite (copy_bytes_do m src sb u 0 []); [|apply octets_at_nil; cbn in Ob; lia|reflexivity|lia].
  cbn [bind]. rewrite app_nil_r, Z.add_0_r, Z.sub_0_r. apply (IH m src sb u k0 k1); auto.
Qed.
Lemma svc_evt_complete : forall h m src n, params_upto (Eh h) m src n -> bytes_ok m -> forall f u, 0 <= src -> src + n <= zlen m -> n < Z.of_nat f ->
  evt h (svc_loop f m (src, n, u)).
Proof.
  intros h m src n H Hm. induction H as [i n k0 k1 l1 O W N4 A|i n [key val] O P V L H IH|i n k0 k1 l1 O W N4 A H IH]; intros f u Hs B F.
  - destruct (octets4_bytes _ _ _ _ _ _ Hm O) as (K0 & K1 & _ & V1). destruct h; cbn [Eh] in A.
    + destruct A as [A0 A]. assert (l1 = 252) as -> by lia. change (65280 + 252) with 65532 in A. rewrite (svc_hang f m i n u k0 k1); auto. reflexivity.
    + destruct f as [|f]; [lia|]. rewrite (svc_iter m i n u f k0 k1 255 l1 Hm N4 O).
      assert (E : (4 + be16 255 l1) mod 65536 = l1 - 252) by (destruct (wrap_len 255 l1) as [[X _]|(_ & _ & X)]; try lia; unfold be16 in X; lia).
      rewrite E. replace (l1 - 252 >? n) with false by lia. apply evt_bind. left. apply validate_evt; [auto|lia|unfold be16; lia|]. unfold be16. replace (255 * 256 + l1) with (65280 + l1) by lia. tauto.
  - destruct f as [|f]; [exfalso; rewrite zlen_param in L; cbn [snd] in L; pose proof (zlen_nonneg _ val); lia|].
    rewrite zlen_param in *. cbn [fst snd] in *. pose proof (zlen_nonneg _ val). pose proof O as Op. unfold param in O. cbn [fst snd] in O. unfold u16 in O.
    change ([key / 256; key mod 256] ++ [zlen val / 256; zlen val mod 256] ++ val) with ([key / 256; key mod 256; zlen val / 256; zlen val mod 256] ++ val) in O. apply octets_at_app in O as [O1 O2].
    rewrite (svc_iter m i n u f _ _ _ _ Hm ltac:(lia) O1). rewrite !be16_u16. rewrite Z.mod_small by lia. replace (4 + zlen val >? n) with false by lia.
    change (zlen [key / 256; key mod 256; zlen val / 256; zlen val mod 256]) with 4 in O2.
    destruct (svc_validate_spec m key (zlen val) (i + 4) val) as (b & Vb & Vs); auto; try lia; try (pose proof P as [K _]; lia). rewrite Vb. cbn [bind]. rewrite (proj2 Vs P). cbn [negb].
    rewrite (copy_bytes_do _ _ _ _ _ _ Op) by (rewrite ?zlen_param; cbn [snd]; lia). cbn [bind]. apply IH; lia.
  - destruct f as [|f]; [lia|]. destruct (octets4_bytes _ _ _ _ _ _ Hm O) as (K0 & K1 & _ & V1). rewrite (svc_iter m i n u f k0 k1 255 l1 Hm N4 O).
    assert (E : (4 + be16 255 l1) mod 65536 = l1 - 252) by (destruct (wrap_len 255 l1) as [[X _]|(_ & _ & X)]; try lia; unfold be16 in X; lia).
    rewrite E. replace (l1 - 252 >? n) with false by lia. replace (65280 + l1) with (be16 255 l1) in A by (unfold be16; lia).
    pose proof (be16_range k0 k1 K0 K1) as Kr. pose proof (be16_range 255 l1 ltac:(lia) V1) as Vr.
    apply validate_iff in A; [|auto|exact Kr|lia]. change (k0 * 256 + k1) with (be16 k0 k1) in A. rewrite A. cbn [bind negb].
    assert (O3 : octets_at m i (firstn (Z.to_nat (l1 - 252)) (skipn (Z.to_nat i) m))) by (apply octets_at_intro; lia).
    assert (L3 : zlen (firstn (Z.to_nat (l1 - 252)) (skipn (Z.to_nat i) m)) = l1 - 252) by (apply zlen_firstn; rewrite zlen_skipn; lia).
    rewrite (copy_bytes_do _ _ _ _ _ _ O3) by lia. cbn [bind]. apply IH; lia.
Qed.
Lemma svc_evt_sound : forall f h m src sb u, bytes_ok m -> 0 <= src -> 0 <= sb -> src + sb <= zlen m -> sb < Z.of_nat f ->
  evt h (svc_loop f m (src, sb, u)) -> params_upto (Eh h) m src sb.
Proof.
  induction f as [|f IH]; intros h m src sb u Hm H1 H2 H3 F E; [lia|].
  destruct (Z_le_gt_dec sb 0) as [D|D]. { cbn [svc_loop] in E. replace (sb >? 0) with false in E by lia. contradiction. }
  destruct (Z_lt_ge_dec sb 4) as [D4|D4]. { cbn [svc_loop] in E. replace (sb >? 0) with true in E by lia. replace (sb <? 4) with true in E by lia. contradiction. }
  destruct (four_octets m src) as (k0 & k1 & v0 & v1 & O); try lia. destruct (octets4_bytes _ _ _ _ _ _ Hm O) as (K0 & K1 & V0 & V1).
  rewrite (svc_iter m src sb u f k0 k1 v0 v1) in E; auto; try lia. destruct (_ >? sb) eqn:G; [contradiction|].
  pose proof (be16_range v0 v1 V0 V1) as Vr. pose proof (be16_range k0 k1 K0 K1) as Kr.
  remember ((4 + be16 v0 v1) mod 65536) as k eqn:Kk. assert (0 <= k < 65536) by (rewrite Kk; apply Z.mod_pos_bound; lia).
  destruct (wrap_len v0 v1 V0 V1) as [[S S2]|(-> & S & S2)].
  - assert (octets_at m (src + 4) (firstn (Z.to_nat (be16 v0 v1)) (skipn (Z.to_nat (src + 4)) m))) as Ov by (apply octets_at_intro; lia).
    assert (zlen (firstn (Z.to_nat (be16 v0 v1)) (skipn (Z.to_nat (src + 4)) m)) = be16 v0 v1) as Lv by (apply zlen_firstn; rewrite zlen_skipn; lia).
    set (val := firstn (Z.to_nat (be16 v0 v1)) (skipn (Z.to_nat (src + 4)) m)) in *. clearbody val.
    assert (octets_at m src (param (be16 k0 k1, val))) as Op.
    { unfold param. cbn [fst snd]. rewrite Lv, !u16_be16 by auto. change ([k0; k1] ++ [v0; v1] ++ val) with ([k0; k1; v0; v1] ++ val). apply octets_at_app. split; auto. }
    destruct (svc_validate_spec m (be16 k0 k1) (be16 v0 v1) (src + 4) val) as (b & Vb & Vs); auto; try lia. rewrite Vb in E. cbn [bind] in E.
    destruct b; [|contradiction]. cbn [negb] in E. rewrite (copy_bytes_do _ _ _ _ _ _ Op) in E by (rewrite ?zlen_param; cbn [snd]; lia). cbn [bind] in E.
    apply IH in E; auto; try lia. apply pu_param with (kv := (be16 k0 k1, val)); cbn [fst snd]; auto.
    + apply Vs. reflexivity.
    + lia.
    + rewrite zlen_param. cbn [snd]. lia.
    + rewrite zlen_param. cbn [snd]. replace (4 + zlen val) with k by lia. exact E.
  - replace (be16 255 v1) with (65280 + v1) in * by (unfold be16; lia). change (be16 k0 k1) with (k0 * 256 + k1) in *.
    apply evt_bind in E as [E|(ok & VL & E)].
    + apply validate_evt in E as (-> & E); auto; try lia. apply pu_here with (k0 := k0) (k1 := k1) (l1 := v1); [exact O|lia|lia|exact E].
    + destruct ok; [|contradiction]. cbn [negb] in E. apply validate_iff in VL; [|auto|lia|lia].
      assert (O3 : octets_at m src (firstn (Z.to_nat k) (skipn (Z.to_nat src) m))) by (apply octets_at_intro; lia).
      assert (L3 : zlen (firstn (Z.to_nat k) (skipn (Z.to_nat src) m)) = k) by (apply zlen_firstn; rewrite zlen_skipn; lia).
      rewrite (copy_bytes_do _ _ _ _ _ _ O3) in E by lia. cbn [bind] in E. destruct (Z.eq_dec v1 252) as [->|NZ].
      * change (65280 + 252) with 65532 in *. assert (K00 : k = 0) by lia. rewrite K00, Z.add_0_r, Z.sub_0_r in E. rewrite (svc_hang f m src sb _ k0 k1) in E by (auto; lia). cbn [evt] in E. subst h.
        apply pu_here with (k0 := k0) (k1 := k1) (l1 := 252); [exact O|lia|lia|split; [reflexivity|exact VL]].
      * apply IH in E; auto; try lia. apply pu_wrapped with (k0 := k0) (k1 := k1) (l1 := v1); auto; try lia. replace (v1 - 252) with k by lia. exact E.
Qed.

(** ** Fields *)
Lemma plain_field_returns : forall fuel m eop t src sb u, bytes_ok m -> 0 <= src -> 0 < sb -> src + sb <= zlen m ->
  t <> rdf_name -> t <> rdf_uname -> t <> rdf_svcparams -> returns (parse_field fuel m eop t (src, sb, u)).
Proof.
  intros fuel m eop t src sb u Hm H1 H2 H3 T1 T2 T3. assert (K : forall x, 0 <= x -> returns (copy_bytes m (src, sb, u) x)) by (intros; apply copy_bytes_returns; lia).
  destruct t; try congruence; cbn [parse_field]; try (apply K; lia);
  try (destruct (rd_in m src) as (c & R); [lia|]; rewrite R; cbn [bind]; pose proof (rd_byte _ _ _ Hm R); apply K; lia).
  - destruct (rd_in m src) as (c & R); [lia|]. rewrite R. cbn [bind]. pose proof (rd_byte _ _ _ Hm R). destruct (c >? 128) eqn:C; [exact I|].
    apply K. assert (0 <= (128 - c) / 8) by (apply Z.div_pos; lia). destruct (negb _); lia.
  - apply repstring_returns; auto; lia.
  - apply bitmap_returns; auto; lia.
Qed.
Lemma name_field_evt : forall h fuel m t src sb u, bytes_ok m -> 0 <= src -> 0 < sb -> src + sb <= zlen m -> t = rdf_name \/ t = rdf_uname ->
  (evt h (parse_field fuel m (zlen m) t (src, sb, u)) <-> Nh h m src).
Proof.
  intros h fuel m t src sb u Hm H1 H2 H3 T. assert (P : parse_field fuel m (zlen m) t (src, sb, u) = parse_field fuel m (zlen m) rdf_name (src, sb, u)) by (destruct T as [->| ->]; reflexivity).
  rewrite P. cbn [parse_field]. rewrite evt_bind. rewrite unpack_evt by (auto; lia). split; [|auto]. intros [H|([w n] & U & H)]; auto. exfalso.
  assert (Hi : 0 <= src < zlen m) by lia. destruct (owner_inv _ _ _ _ Hm Hi U) as (ls & e & W & ->). destruct (owner_ok _ _ _ _ Hm W) as (_ & K & _). rewrite K in H. cbn [bind] in H. destruct (_ <? 0); exact H.
Qed.
Lemma fields_evt_sound : forall ts h fuel m src sb u, bytes_ok m -> 0 <= src -> 0 <= sb -> src + sb <= zlen m -> sb < Z.of_nat fuel -> ends_ok ts = true ->
  evt h (parse_fields fuel m (zlen m) ts (src, sb, u)) -> rdata_upto (Nh h) (Eh h) m (map fmt_of ts) src sb.
Proof.
  induction ts as [|t ts IH]; intros h fuel m src sb u Hm H1 H2 H3 F En E; cbn [parse_fields] in E; [contradiction|].
  destruct (sb =? 0) eqn:B; [contradiction|].
  assert (ends_ok ts = true) as En' by (destruct ts; [reflexivity|]; cbn [ends_ok] in En; apply andb_prop in En; tauto).
  cbn [map]. destruct (name_dec t) as [T|[T1 T2]].
  - rewrite (proj2 (fmt_name t) T). apply evt_bind in E as [E|(st & P & E)].
    + apply name_field_evt in E; auto; try lia. apply ru_name; auto; lia.
    + apply name_field_sound in P; auto; try lia. destruct P as (ls & e & D & L & X & Be & ->). pose proof (extent_pos _ _ _ X).
      apply IH in E; auto; try lia. eapply ru_after_name; eauto.
  - destruct (rdf_svc_dec t) as [->|Ns].
    + apply evt_bind in E as [E|(st & P & E)].
      * cbn [parse_field] in E. apply svc_evt_sound in E; auto. cbn [fmt_of]. apply ru_params. auto.
      * cbn [parse_field] in P. apply svc_loose_sound in P; auto; try lia. destruct P as (_ & l & _ & _ & ->). destruct ts; cbn [parse_fields] in E; contradiction.
    + apply evt_bind in E as [E|(st & P & E)]; [exfalso; apply returns_evt in E; auto; apply plain_field_returns; auto; lia|].
      apply octets_field_sound in P; auto; try lia; try congruence. destruct P as (l & Fo & O & L & -> & C). pose proof (zlen_nonneg _ l).
      destruct ts as [|t' ts]; [cbn [parse_fields] in E; contradiction|].
      assert (TE : to_end (fmt_of t) = false) by (cbn [ends_ok] in En; apply andb_prop in En as [En _]; destruct (to_end (fmt_of t)); [discriminate|reflexivity]).
      assert (0 < zlen l) by (destruct C as [(C1 & C2)|[(C1 & C2)|(C1 & C2)]]; [congruence|auto|rewrite C1 in TE; discriminate]).
      apply IH in E; auto; try lia. apply ru_after with (l := l); auto; lia.
Qed.
Lemma fields_evt_complete : forall fs h m src sb, rdata_upto (Nh h) (Eh h) m fs src sb -> bytes_ok m -> forall ts fuel u, 0 <= src -> src + sb <= zlen m -> sb < Z.of_nat fuel -> fs = map fmt_of ts ->
  evt h (parse_fields fuel m (zlen m) ts (src, sb, u)).
Proof.
  intros fs h m src sb R Hm. assert (P0 : forall E i n, params_upto E m i n -> 0 < n).
  { clear - Hm. intros E i n H. destruct H as [| |]; try lia. pose proof (zlen_nonneg _ (param kv)). rewrite zlen_param in *. pose proof (zlen_nonneg _ (snd kv)). lia. }
  induction R as [fs i n N0 N1|fs i n PU|fs i n ls e D L X Be R IH|f fs i n l T Fo O L R IH]; intros ts fuel u Hs B F E; (destruct ts as [|t ts]; [discriminate|]); cbn [map] in E; injection E as E0 E1; cbn [parse_fields].
  - replace (n =? 0) with false by lia. apply evt_bind. left. apply name_field_evt; auto. apply fmt_name; auto.
  - pose proof (P0 _ _ _ PU). replace (n =? 0) with false by lia. apply evt_bind. left. assert (t = rdf_svcparams) as -> by (destruct t; cbn in E0; congruence). cbn [parse_field]. apply svc_evt_complete; auto.
  - pose proof (extent_pos _ _ _ X). replace (n =? 0) with false by lia. rewrite (name_field_complete fuel m t i n u ls e) by (auto; try lia; apply fmt_name; auto). cbn [bind]. apply IH; auto; lia.
  - replace (n =? 0) with false by lia. subst f. rewrite (octets_field_complete fuel m t i n u l) by (auto; try lia; congruence). cbn [bind]. apply IH; auto; lia.
Qed.

(** ** Records *)
Lemma rdata_evt : forall h fuel m t c src n, bytes_ok m -> 0 <= src -> 0 <= n -> src + n <= zlen m -> n < Z.of_nat fuel ->
  (evt h (parse_rdata fuel m (zlen m) t c src n) <-> rdata_upto (Nh h) (Eh h) m (format_of t c) src n).
Proof.
  intros h fuel m t c src n Hm H1 H2 H3 F. rewrite parse_rdata_fields by lia. rewrite evt_bind, format_of_fields. split.
  - intros [E|([[a sb] u] & _ & E)]; [|destruct (negb _); contradiction]. apply fields_evt_sound in E; auto. apply fields_for_ends.
  - intros E. left. eapply fields_evt_complete; eauto.
Qed.
Lemma rr_evt : forall h fuel sec m i, bytes_ok m -> 65535 < Z.of_nat fuel -> 0 <= i < zlen m ->
  (evt h (parse_message_rr fuel sec m (zlen m) i) <-> entry_upto (Nh h) (Eh h) sec m i).
Proof.
  intros h fuel sec m i Hm Hf Hi. unfold parse_message_rr, entry_upto. rewrite evt_bind, unpack_evt by auto. split.
  - intros [E|([w n] & U & E)]; [split; [lia|auto]|]. split; [lia|]. right. destruct (owner_inv _ _ _ _ Hm Hi U) as (ls & e & W & ->). destruct (owner_ok _ _ _ _ Hm W) as (_ & K & Bi & Be & B & V).
    rewrite K in E. cbn [bind] in E. destruct ((i + e + 4 >? zlen m) || negb (sec =? 0) && (i + e + 10 >? zlen m)) eqn:C; [contradiction|].
    destruct (sec =? 0) eqn:S.
    + destruct (octets_4 m (i + e)) as (t0 & t1 & c0 & c1 & O); try lia. destruct (fixed4 _ _ _ _ _ _ O) as (G1 & G2). rewrite G1, G2 in E. contradiction.
    + split; [lia|]. cbn [negb andb] in C. destruct (octets_10 m (i + e)) as (t0 & t1 & c0 & c1 & x & y & z & v & l0 & l1 & O); try lia.
      destruct (fixed10 _ _ _ _ _ _ _ _ _ _ _ _ O) as (G1 & G2 & G3 & G4). rewrite G1, G2, G3 in E. cbn [bind] in E. rewrite G4 in E. cbn [bind] in E.
      destruct (bytes10 _ _ _ _ _ _ _ _ _ _ _ _ Hm O) as (_ & _ & Bl).
      destruct (i + e + 2 + 2 + 4 + 2 + (l0 * 256 + l1) >? zlen m) eqn:C2; [contradiction|]. replace (i + e + 2 + 2 + 4 + 2) with (i + e + 10) in * by lia.
      apply evt_bind in E as [E|(d & _ & E)]; [|contradiction]. apply rdata_evt in E; auto; try lia.
      exists ls, e, t0, t1, c0, c1, x, y, z, v, l0, l1. split; auto. split; auto. split; [lia|auto].
  - intros (_ & [E|(NS & ls & e & t0 & t1 & c0 & c1 & x & y & z & v & l0 & l1 & W & O & B2 & E)]); [auto|]. right.
    destruct (owner_ok _ _ _ _ Hm W) as (U & K & Bi & Be & B & V). eexists. split; [exact U|]. cbv beta iota. rewrite K. cbn [bind].
    pose proof (octets_at_bound _ _ _ O) as Ob. change (zlen [t0; t1; c0; c1; x; y; z; v; l0; l1]) with 10 in Ob.
    replace (i + e + 4 >? zlen m) with false by lia. replace (i + e + 10 >? zlen m) with false by lia. replace (sec =? 0) with false by lia. cbn [negb andb orb].
    destruct (fixed10 _ _ _ _ _ _ _ _ _ _ _ _ O) as (G1 & G2 & G3 & G4). rewrite G1, G2, G3. cbn [bind]. rewrite G4. cbn [bind].
    destruct (bytes10 _ _ _ _ _ _ _ _ _ _ _ _ Hm O) as (_ & _ & Bl).
    replace (i + e + 2 + 2 + 4 + 2 + (l0 * 256 + l1) >? zlen m) with false by lia. replace (i + e + 2 + 2 + 4 + 2) with (i + e + 10) by lia.
    apply evt_bind. left. apply rdata_evt; auto; lia.
Qed.

(** ** Sections and messages *)
Lemma section_evt_sound : forall n h fuel sec pkt i id flags l, bytes_ok pkt -> 65535 < Z.of_nat fuel -> 0 <= sec <= 3 -> 0 <= i <= zlen pkt -> Forall entry_valid l ->
  evt h (parse_section fuel n sec pkt (zlen pkt) i (parsed_entries id flags l)) ->
  exists k rs j, 0 <= k < Z.of_nat n /\ loose_entries sec pkt i k rs j /\ entry_upto (Nh h) (Eh h) sec pkt j.
Proof.
  induction n as [|n IH]; intros h fuel sec pkt i id flags l Hm Hf Hs Hi F E; [contradiction|].
  destruct (Z.eq_dec i (zlen pkt)) as [Eq|Ne].
  { cbn [parse_section] in E. rewrite Eq, Z.eqb_refl in E. contradiction. }
  assert (Hi' : 0 <= i < zlen pkt) by lia.
  assert (HERE : evt h (parse_message_rr fuel sec pkt (zlen pkt) i) -> exists k rs j, 0 <= k < Z.of_nat (S n) /\ loose_entries sec pkt i k rs j /\ entry_upto (Nh h) (Eh h) sec pkt j).
  { intros X. apply rr_evt in X; auto. exists 0, [], i. split; [lia|]. split; [constructor|auto]. }
  destruct (parse_message_rr fuel sec pkt (zlen pkt) i) as [[r k]|e|f|] eqn:P.
  - destruct (loose_rr_sound _ _ _ _ _ _ Hm Hi' P) as (s & R & ->).
    pose proof (loose_entry_valid_at _ _ _ _ _ Hm Hs R) as V. destruct (loose_rr_complete fuel _ _ _ _ _ Hm Hf R) as (_ & B & B2 & Bi).
    rewrite (parse_section_step _ _ _ _ _ _ _ (rr_of s) k) in E by auto. rewrite (take_step id flags l sec s F V) in E. cbn [bind] in E.
    apply IH in E; auto; try lia; [|apply Forall_app; auto]. destruct E as (k' & rs & j & Bk & En & U).
    exists (k' + 1), (s :: rs), j. split; [lia|]. split; auto. eapply ln_more; eauto; try lia. replace (k' + 1 - 1) with k' by lia. auto.
  - cbn [parse_section] in E. replace (i =? zlen pkt) with false in E by lia. rewrite P in E. contradiction.
  - cbn [parse_section] in E. replace (i =? zlen pkt) with false in E by lia. rewrite P in E. apply HERE. exact E.
  - cbn [parse_section] in E. replace (i =? zlen pkt) with false in E by lia. rewrite P in E. apply HERE. exact E.
Qed.
Lemma section_evt_complete : forall h fuel sec pkt i k rs j, bytes_ok pkt -> 65535 < Z.of_nat fuel -> 0 <= sec <= 3 -> 
  loose_entries sec pkt i k rs j -> 0 <= i -> entry_upto (Nh h) (Eh h) sec pkt j -> forall n id flags l, Forall entry_valid l -> k < Z.of_nat n ->
  evt h (parse_section fuel n sec pkt (zlen pkt) i (parsed_entries id flags l)).
Proof.
  intros h fuel sec pkt i k rs j Hm Hf Hs E. induction E as [i|n Hn|i k r d rs j Hn Hi R E IH]; intros I0 U n' id flags l F B.
  - pose proof U as [U0 _]. destruct n' as [|n']; [lia|]. cbn [parse_section]. replace (i =? zlen pkt) with false by lia. apply (rr_evt h fuel) in U; auto.
    destruct (parse_message_rr fuel sec pkt (zlen pkt) i) as [[r k]|e|f|]; auto; contradiction.
  - destruct U as [U _]. lia.
  - pose proof (loose_entry_valid_at _ _ _ _ _ Hm Hs R) as V. destruct (loose_rr_complete fuel _ _ _ _ _ Hm Hf R) as (P & B1 & B2 & Bi).
    destruct n' as [|n']; [lia|]. rewrite (parse_section_step _ _ _ _ _ _ _ (rr_of r) d) by (auto; lia). rewrite (take_step id flags l sec r F V). cbn [bind].
    apply IH; auto; try lia. apply Forall_app. auto.
Qed.
Lemma upto_end : forall N E secs pkt, ~ sections_upto N E secs pkt (zlen pkt).
Proof.
  intros N E. induction secs as [|[sec n] secs IH]; intros pkt H; cbn [sections_upto] in H; auto. destruct H as [(k & rs & j & B & L & U)|(rs & j & L & U)].
  - apply loose_entries_end_inv in L as [-> ->]. destruct U. lia.
  - apply loose_entries_end_inv in L as [-> ->]. eapply IH; eauto.
Qed.
Lemma loose_entries_bound : forall sec pkt i n rs j, bytes_ok pkt -> loose_entries sec pkt i n rs j -> 0 <= i <= zlen pkt -> 0 <= j <= zlen pkt.
Proof.
  intros sec pkt i n rs j Hm H. induction H as [i|n N|i n r k rs j N B R H IH]; intros Hi; auto. apply IH.
  set (fuel := Z.to_nat 65536). destruct (loose_rr_complete fuel _ _ _ _ _ Hm ltac:(unfold fuel; rewrite Z2Nat.id; lia) R) as (_ & B1 & B2 & B3). lia.
Qed.
Lemma sections_evt : forall secs h fuel pkt i id flags l0, bytes_ok pkt -> 65535 < Z.of_nat fuel -> Forall (fun e => 0 <= fst e <= 3 /\ 0 <= snd e) secs -> 0 <= i <= zlen pkt -> Forall entry_valid l0 ->
  (evt h (parse_sections fuel secs pkt (zlen pkt) i (parsed_entries id flags l0)) <-> sections_upto (Nh h) (Eh h) secs pkt i).
Proof.
  induction secs as [|[sec n] secs IH]; intros h fuel pkt i id flags l0 Hm Hf Fs Hi F0; cbn [parse_sections sections_upto]; [cbn; tauto|].
  inversion Fs as [|? ? [Fa Fb] Fc]; subst. cbn [fst snd] in *. rewrite evt_bind. split.
  - intros [E|(fl & P & E)].
    + apply section_evt_sound in E; auto. rewrite Z2Nat.id in E by lia. auto.
    + apply loose_section_sound in P; auto. rewrite Z2Nat.id in P by lia.
      destruct P as [(rs & j & En & Bj & Fv & [-> | (Ej & ->)])|(e & l' & -> & Ne & Fv)]; [|contradiction|contradiction].
      right. exists rs, j. split; auto. apply IH in E; auto. lia.
  - intros [(k & rs & j & B & L & U)|(rs & j & L & U)].
    + left. eapply section_evt_complete; eauto; lia.
    + right. pose proof (loose_entries_bound _ _ _ _ _ _ Hm L Hi). destruct (loose_section_complete fuel sec pkt i n rs j Hm Hf Fa L id flags l0 F0) as (Fv & [P|(Ej & P)]).
      * eexists. split; [exact P|]. cbv beta iota. apply IH; auto.
      * subst j. exfalso. eapply upto_end; eauto.
Qed.
Lemma message_evt : forall h fuel pkt, bytes_ok pkt -> 65535 < Z.of_nat fuel -> (evt h (parse_message fuel pkt (zlen pkt)) <-> message_upto (Nh h) (Eh h) pkt).
Proof.
  intros h fuel pkt Hm Hf. destruct (Z_lt_ge_dec (zlen pkt) 12) as [L|L].
  - unfold parse_message. replace (zlen pkt <? 12) with true by lia. split; [intros []|]. intros (i0 & i1 & f0 & f1 & q0 & q1 & a0 & a1 & n0 & n1 & r0 & r1 & O & _). apply octets_at_bound in O. cbn in O. lia.
  - destruct (octets_12 pkt) as (i0 & i1 & f0 & f1 & q0 & q1 & a0 & a1 & n0 & n1 & r0 & r1 & O); [lia|].
    destruct (bytes12 _ _ _ _ _ _ _ _ _ _ _ _ _ Hm O) as (_ & B1 & B2 & B3 & B4).
    rewrite (parse_message_unfold _ _ _ _ _ _ _ _ _ _ _ _ _ _ O) by lia. rewrite sections_evt; auto; [|repeat constructor; cbn; lia|lia]. split.
    + intros U. exists i0, i1, f0, f1, q0, q1, a0, a1, n0, n1, r0, r1. auto.
    + intros (i0' & i1' & f0' & f1' & q0' & q1' & a0' & a1' & n0' & n1' & r0' & r1' & O' & U).
      pose proof (octets_at_det _ _ _ _ O O' eq_refl) as E. injection E as -> -> -> -> -> -> -> -> -> -> -> ->. exact U.
Qed.

(** ** The only kind of undefined behaviour is a read outside the packet. *)
Definition oo {A} (o : outcome A) : Prop := match o with UB f => f = OobRead | _ => True end.
Ltac oo_leaf := intros; cbn [bind]; match goal with |- oo (Err _) => exact I | |- oo (Ok _) => exact I | |- oo (UB OobRead) => reflexivity | |- oo NoFuel => exact I end.
Lemma oo_bind : forall A B (o : outcome A) (k : A -> outcome B), oo o -> (forall a, oo (k a)) -> oo (bind o k).
Proof. intros A B [a|e|f|] k H K; cbn in *; auto. Qed.
Lemma oo_rd : forall m i, oo (rd m i).
Proof. intros m i. destruct (rd_cases m i) as [(b & E & _)|(E & _)]; rewrite E; oo_leaf. Qed.
Lemma oo_copy_bytes : forall m st x, oo (copy_bytes m st x).
Proof.
  intros m [[src sb] u] x. unfold copy_bytes. destruct (sb <? x); [oo_leaf|].
  destruct (rds_cases m src x) as [(b & E & _)|(E & _)]; rewrite E; oo_leaf.
Qed.
Ltac oo_tac := repeat first [ apply oo_rd | apply oo_copy_bytes | oo_leaf | apply oo_bind; [|intros ?]
  | match goal with |- oo (if ?b then _ else _) => destruct b end
  | match goal with |- oo (match ?x with _ => _ end) => destruct x end ].
Lemma oo_skip : forall m eop i, oo (skip_name m eop i).
Proof.
  intros. unfold skip_name. apply oo_bind; [|oo_leaf]. generalize (S (S (length m))) as f. intros f. revert i.
  induction f as [|f IH]; intros i; [exact I|]. cbn [skip_loop]. oo_tac; auto.
Qed.
Lemma oo_rep : forall f m st, oo (repstring_loop f m st).
Proof. induction f as [|f IH]; intros m [[src sb] u]; [exact I|]. cbn [repstring_loop]. oo_tac; auto. Qed.
Lemma oo_bitmap : forall f m st, oo (bitmap_loop f m st).
Proof. induction f as [|f IH]; intros m [[src sb] u]; [exact I|]. cbn [bitmap_loop]. oo_tac; auto. Qed.
Lemma oo_alpn : forall f m v n o, oo (alpn_loop f m v n o).
Proof. induction f as [|f IH]; intros; [exact I|]. cbn [alpn_loop]. oo_tac; auto. Qed.
Lemma oo_svc : forall f m st, oo (svc_loop f m st).
Proof.
  induction f as [|f IH]; intros m [[src sb] u]; [exact I|]. cbn [svc_loop]. unfold svcparam_key_validate. oo_tac; auto using oo_alpn.
Qed.
Lemma oo_unpack_name : forall m eop i, bytes_ok m -> oo (unpack_name m eop i).
Proof. intros m eop i Hm. destruct (unpack_outcomes m eop i Hm) as [E|[(w & _ & E)|(e & E & _)]]; rewrite E; oo_leaf. Qed.
Lemma oo_field : forall fuel m eop t st, bytes_ok m -> oo (parse_field fuel m eop t st).
Proof.
  intros fuel m eop t [[src sb] u] Hm. destruct t; cbn [parse_field]; 
  repeat first [ apply oo_unpack_name; exact Hm | apply oo_skip | apply oo_rep | apply oo_bitmap | apply oo_svc | apply oo_rd | apply oo_copy_bytes
  | apply oo_bind; [|intros ?] | match goal with |- oo (if ?b then _ else _) => destruct b end
  | match goal with |- oo (match ?x with _ => _ end) => destruct x end | oo_leaf ].
Qed.
Lemma oo_fields : forall ts fuel m eop st, bytes_ok m -> oo (parse_fields fuel m eop ts st).
Proof.
  induction ts as [|t ts IH]; intros fuel m eop [[src sb] u] Hm; cbn [parse_fields]; [exact I|]. destruct (sb =? 0); [exact I|].
  apply oo_bind; auto using oo_field.
Qed.
Lemma oo_rr : forall fuel sec m eop i, bytes_ok m -> oo (parse_message_rr fuel sec m eop i).
Proof.
  intros. unfold parse_message_rr, get16, get32, parse_rdata.
  
  repeat first [ assumption | apply oo_unpack_name | apply oo_skip | apply oo_fields | apply oo_rd | apply oo_copy_bytes
  | apply oo_bind; [|intros ?] | match goal with |- oo (if ?b then _ else _) => destruct b end
  | match goal with |- oo (match ?x with _ => _ end) => destruct x end | oo_leaf ].
Qed.

Definition oz {A} (o : outcome A) : Prop := match o with UB f => f = OobRead | Err _ => False | _ => True end.
Lemma section_oo : forall n fuel sec pkt i id flags l, bytes_ok pkt -> 65535 < Z.of_nat fuel -> 0 <= sec <= 3 -> 0 <= i <= zlen pkt -> Forall entry_valid l ->
  oz (parse_section fuel n sec pkt (zlen pkt) i (parsed_entries id flags l)).
Proof.
  induction n as [|n IH]; intros fuel sec pkt i id flags l Hm Hf Hs Hi F; [exact I|].
  destruct (Z.eq_dec i (zlen pkt)) as [Eq|Ne].
  { cbn [parse_section]. rewrite Eq, Z.eqb_refl. exact I. }
  assert (Hi' : 0 <= i < zlen pkt) by lia. pose proof (oo_rr fuel sec pkt (zlen pkt) i Hm) as Q.
  destruct (parse_message_rr fuel sec pkt (zlen pkt) i) as [[r k]|e|f|] eqn:P.
  - destruct (loose_rr_sound _ _ _ _ _ _ Hm Hi' P) as (s & R & ->).
    pose proof (loose_entry_valid_at _ _ _ _ _ Hm Hs R) as V. destruct (loose_rr_complete fuel _ _ _ _ _ Hm Hf R) as (_ & B & B2 & Bi).
    rewrite (parse_section_step _ _ _ _ _ _ _ (rr_of s) k) by auto. rewrite (take_step id flags l sec s F V). cbn [bind].
    apply IH; auto; try lia. apply Forall_app; auto.
  - cbn [parse_section]. replace (i =? zlen pkt) with false by lia. rewrite P. exact I.
  - cbn [parse_section]. replace (i =? zlen pkt) with false by lia. rewrite P. exact Q.
  - cbn [parse_section]. replace (i =? zlen pkt) with false by lia. rewrite P. exact I.
Qed.
Lemma sections_oo : forall secs fuel pkt i id flags l0, bytes_ok pkt -> 65535 < Z.of_nat fuel -> Forall (fun e => 0 <= fst e <= 3 /\ 0 <= snd e) secs -> 0 <= i <= zlen pkt -> Forall entry_valid l0 ->
  oz (parse_sections fuel secs pkt (zlen pkt) i (parsed_entries id flags l0)).
Proof.
  induction secs as [|[sec n] secs IH]; intros fuel pkt i id flags l0 Hm Hf Fs Hi F0; cbn [parse_sections]; [exact I|].
  inversion Fs as [|? ? [Fa Fb] Fc]; subst. cbn [fst snd] in *. pose proof (section_oo (Z.to_nat n) fuel sec pkt i id flags l0 Hm Hf Fa Hi F0) as Q.
  destruct (parse_section fuel (Z.to_nat n) sec pkt (zlen pkt) i (parsed_entries id flags l0)) as [fl|e|f|] eqn:P; cbn [bind]; auto.
  apply loose_section_sound in P; auto. destruct P as [(rs & j & En & Bj & Fv & [-> | (Ej & ->)])|(e & l' & -> & Ne & Fv)]; [|exact I|exact I].
  apply IH; auto. lia.
Qed.
Lemma message_oz : forall fuel pkt, bytes_ok pkt -> 65535 < Z.of_nat fuel -> oz (parse_message fuel pkt (zlen pkt)).
Proof.
  intros fuel pkt Hm Hf. destruct (Z_lt_ge_dec (zlen pkt) 12) as [L|L].
  - unfold parse_message. replace (zlen pkt <? 12) with true by lia. exact I.
  - destruct (octets_12 pkt) as (i0 & i1 & f0 & f1 & q0 & q1 & a0 & a1 & n0 & n1 & r0 & r1 & O); [lia|].
    destruct (bytes12 _ _ _ _ _ _ _ _ _ _ _ _ _ Hm O) as (_ & B1 & B2 & B3 & B4).
    rewrite (parse_message_unfold _ _ _ _ _ _ _ _ _ _ _ _ _ _ O) by lia.
    apply sections_oo; auto; [repeat constructor; cbn; lia|lia].
Qed.
Lemma message_oo : forall fuel pkt f, bytes_ok pkt -> 65535 < Z.of_nat fuel -> parse_message fuel pkt (zlen pkt) = UB f -> f = OobRead.
Proof. intros fuel pkt f Hm Hf E. pose proof (message_oz fuel pkt Hm Hf) as Q. rewrite E in Q. exact Q. Qed.
Lemma message_not_err : forall fuel pkt e, bytes_ok pkt -> 65535 < Z.of_nat fuel -> parse_message fuel pkt (zlen pkt) <> Err e.
Proof. intros fuel pkt e Hm Hf E. pose proof (message_oz fuel pkt Hm Hf) as Q. rewrite E in Q. exact Q. Qed.
