(** ProofRdata2.v: fields and whole rdata. *)
From Verif Require Import Base Lib SpecName ModelName ModelDescr ModelParse SpecMessage ProofUnpack ProofCopy ProofRdata.

(** ** Exact memory: the message and nothing else. *)

Lemma name_field_sound : forall fuel m t src sb u st, bytes_ok m -> 0 <= src -> 0 < sb -> src + sb <= zlen m ->
  t = rdf_name \/ t = rdf_uname ->
  parse_field fuel m (zlen m) t (src, sb, u) = Ok st ->
  exists ls e, denotes m src ls /\ zlen (wire ls) <= 255 /\ extent m src e /\ e <= sb /\ st = (src + e, sb - e, u ++ wire ls).
Proof.
  intros fuel m t src sb u st Hm H1 H2 H3 T E.
  assert (parse_field fuel m (zlen m) t (src, sb, u) = parse_field fuel m (zlen m) rdf_name (src, sb, u)) as T' by (destruct T; subst; reflexivity).
  rewrite T' in E. cbn [parse_field] in E. rewrite bind_ok in E. destruct E as ([dn len] & U & E).
  apply unpack_denotes in U; auto; [|lia]. destruct U as (ls & D & L & -> & ->).
  destruct (denotes_extent _ _ _ D) as (e & X). pose proof (extent_bound _ _ _ X).
  rewrite (skip_extent _ _ _ _ X) in E by lia. cbn [bind] in E.
  destruct (sb - (src + e - src) <? 0) eqn:B; [discriminate|]. injection E as <-.
  exists ls, e. repeat split; auto; [lia|]. f_equal. f_equal. lia.
Qed.

Lemma name_field_complete : forall fuel m t src sb u ls e, bytes_ok m -> 0 < sb -> src + sb <= zlen m ->
  t = rdf_name \/ t = rdf_uname -> denotes m src ls -> zlen (wire ls) <= 255 -> extent m src e -> e <= sb ->
  parse_field fuel m (zlen m) t (src, sb, u) = Ok (src + e, sb - e, u ++ wire ls).
Proof.
  intros fuel m t src sb u ls e Hm H2 H3 T D L X B.
  assert (parse_field fuel m (zlen m) t (src, sb, u) = parse_field fuel m (zlen m) rdf_name (src, sb, u)) as T' by (destruct T; subst; reflexivity).
  rewrite T'. cbn [parse_field]. pose proof (denotes_bound _ _ _ D).
  rewrite (proj2 (unpack_denotes m (zlen m) src (wire ls) (zlen (wire ls)) Hm H (or_introl eq_refl))) by eauto 10.
  cbn [bind]. rewrite (skip_extent _ _ _ _ X) by lia. cbn [bind].
  replace (sb - (src + e - src)) with (sb - e) by lia. replace (sb - e <? 0) with false by lia. reflexivity.
Qed.

(** Any other field. *)
Lemma octets_field_sound : forall fuel m t src sb u st, bytes_ok m -> 0 <= src -> 0 < sb -> src + sb <= zlen m ->
  t <> rdf_name -> t <> rdf_uname -> (t = rdf_svcparams -> no_huge_param m src (src + sb)) ->
  parse_field fuel m (zlen m) t (src, sb, u) = Ok st ->
  exists l, field_octets (fmt_of t) l /\ octets_at m src l /\ zlen l <= sb /\ st = (src + zlen l, sb - zlen l, u ++ l) /\
    ((to_end (fmt_of t) = true /\ zlen l = sb) \/ (to_end (fmt_of t) = false /\ 0 < zlen l) \/ (fmt_of t = FTypes /\ zlen l = sb - 1)).
Proof.
  intros fuel m t src sb u st Hm H1 H2 H3 T1 T2 NH E.
  assert (forall x, 0 < x -> copy_bytes m (src, sb, u) x = Ok st ->
    exists l, zlen l = x /\ octets_at m src l /\ zlen l <= sb /\ st = (src + zlen l, sb - zlen l, u ++ l) /\ 0 < zlen l) as K.
  { intros x X C. apply copy_bytes_iff in C as (C0 & l & C1 & C2 & ->). exists l. rewrite C2. repeat split; auto; lia. }
  destruct t; try congruence; cbn [parse_field fmt_of field_octets to_end] in *;
  try (apply K in E; [|lia]; destruct E as (l & E0 & E1 & E2 & E3 & E4); exists l; repeat split; eauto; tauto);
  try (rewrite bind_ok in E; destruct E as (c & R & E); pose proof (rd_byte _ _ _ Hm R) as Rb; apply rd_ok in R;
       apply K in E; [|lia]; destruct E as (l & E0 & E1 & E2 & E3 & E4); exists l; split; [|repeat split; auto; tauto];
       destruct l as [|c' s]; [rewrite zlen_nil in E4; lia|];
       assert (c' = c) as -> by (apply (octet_det m src); [eapply octet_head; eauto|auto]); rewrite zlen_cons in *;
       exists s; split; [lia|unfold char_string; replace (zlen s) with c by lia; reflexivity]).
  - rewrite bind_ok in E; destruct E as (c & R & E); pose proof (rd_byte _ _ _ Hm R) as Rb; apply rd_ok in R.
    destruct (c >? 128) eqn:C; [discriminate|].
    assert ((if negb (c mod 8 =? 0) then (128 - c) / 8 + 1 else (128 - c) / 8) = (128 - c + 7) / 8) as Q.
    { clear - Rb C. pose proof (Z.div_mod c 8). pose proof (Z.mod_pos_bound c 8).
      destruct (c mod 8 =? 0) eqn:E; cbn [negb].
      - assert (c = 8 * (c / 8)) by lia. set (q := c / 8) in *.
        replace (128 - c) with ((16 - q) * 8) by lia. rewrite Z.div_mul by lia.
        replace ((16 - q) * 8 + 7) with (7 + (16 - q) * 8) by lia. rewrite Z.div_add by lia. reflexivity.
      - set (q := c / 8) in *. set (r := c mod 8) in *. clearbody q r.
        replace (128 - c) with ((8 - r) + (15 - q) * 8) by lia.
        rewrite Z.div_add by lia. replace (8 - r + (15 - q) * 8 + 7) with ((7 - r) + (16 - q) * 8) by lia.
        rewrite Z.div_add by lia. rewrite (Z.div_small (8 - r)), (Z.div_small (7 - r)) by lia. lia. }
    rewrite Q in E.
    assert (0 <= (128 - c + 7) / 8) by (apply Z.div_pos; lia).
    apply K in E; [|lia]. destruct E as (l & E0 & E1 & E2 & E3 & E4). exists l. repeat split; auto.
    destruct l as [|c' a]; [rewrite zlen_nil in E4; lia|].
    assert (c' = c) as -> by (apply (octet_det m src); [eapply octet_head; eauto|auto]). rewrite zlen_cons in *.
    exists c, a. repeat split; auto; lia.
  - apply repstring_sound in E; auto; try lia. destruct E as (ss & l & F & El & O & L & ->). exists l. rewrite L.
    split; [exists ss; auto|split; [auto|split; [lia|split; [f_equal; f_equal; lia|left; auto]]]].
  - apply bitmap_sound in E; auto; try lia. destruct E as (ss & l & F & El & O & -> & L). exists l.
    split; [exists ss; auto|split; [auto|split; [lia|split; [reflexivity|]]]]. destruct L; [left; auto|right; right; auto].
  - apply svc_sound in E; auto; try lia. destruct E as (ss & l & F & El & O & L & ->). exists l. rewrite L.
    split; [exists ss; auto|split; [auto|split; [lia|split; [f_equal; f_equal; lia|left; auto]]]].
Qed.

Lemma ok_st3 : forall (a a' b b' : Z) (c c' : bytes), a = a' -> b = b' -> c = c' -> Ok (a, b, c) = Ok (a', b', c').
Proof. intros; subst; reflexivity. Qed.

Lemma octets_field_complete : forall fuel m t src sb u l, bytes_ok m -> src + sb <= zlen m -> sb < Z.of_nat fuel ->
  field_octets (fmt_of t) l -> octets_at m src l -> 0 < zlen l <= sb -> (to_end (fmt_of t) = true -> zlen l = sb) ->
  parse_field fuel m (zlen m) t (src, sb, u) = Ok (src + zlen l, sb - zlen l, u ++ l).
Proof.
  intros fuel m t src sb u l Hm H3 Hf F O L T.
  assert (forall x, zlen l = x -> copy_bytes m (src, sb, u) x = Ok (src + zlen l, sb - zlen l, u ++ l)) as K.
  { intros x X. rewrite (copy_bytes_do m src sb u x l) by (auto; lia). rewrite X. reflexivity. }
  destruct t; cbn [parse_field fmt_of field_octets to_end] in *; try contradiction; try (apply K; auto; lia);
  try (destruct F as (s & F1 & ->); rewrite (proj2 (rd_ok m src (zlen s))) by (eapply octet_head; exact O); cbn [bind];
       apply K; apply zlen_char_string).
  - destruct F as (p & a & Fp & Fa & ->). rewrite (proj2 (rd_ok m src p)) by (eapply octet_head; exact O). cbn [bind].
    replace (p >? 128) with false by lia.
    apply K. rewrite zlen_cons, Fa. f_equal. symmetry.
    clear - Fp. pose proof (Z.div_mod p 8). pose proof (Z.mod_pos_bound p 8).
    destruct (p mod 8 =? 0) eqn:E; cbn [negb].
    + assert (p = 8 * (p / 8)) by lia. set (q := p / 8) in *.
      replace (128 - p) with ((16 - q) * 8) by lia. rewrite Z.div_mul by lia.
      replace ((16 - q) * 8 + 7) with (7 + (16 - q) * 8) by lia. rewrite Z.div_add by lia. reflexivity.
    + set (q := p / 8) in *. set (r := p mod 8) in *. clearbody q r.
      replace (128 - p) with ((8 - r) + (15 - q) * 8) by lia.
      rewrite Z.div_add by lia. replace (8 - r + (15 - q) * 8 + 7) with ((7 - r) + (16 - q) * 8) by lia.
      rewrite Z.div_add by lia. rewrite (Z.div_small (8 - r)), (Z.div_small (7 - r)) by lia. lia.
  - destruct F as (ss & F & ->). rewrite <- (T eq_refl) in *. rewrite repstring_complete; auto.
    + rewrite Z.sub_diag. reflexivity.
    + rewrite zlen_to_nat. lia.
  - destruct F as (ss & F & ->). rewrite <- (T eq_refl) in *. rewrite bitmap_complete; auto.
    + rewrite Z.sub_diag. reflexivity.
    + rewrite zlen_to_nat. lia.
  - destruct F as (ss & F & ->). rewrite <- (T eq_refl) in *. rewrite svc_complete; auto.
    + rewrite Z.sub_diag. reflexivity.
    + unfold zlen in Hf. lia.
Qed.

Lemma fmt_name : forall t, fmt_of t = FName <-> t = rdf_name \/ t = rdf_uname.
Proof. intros []; cbn; intuition congruence. Qed.
Lemma name_dec : forall t, (t = rdf_name \/ t = rdf_uname) \/ (t <> rdf_name /\ t <> rdf_uname).
Proof. intros []; intuition congruence. Qed.

(** Where in the remaining fields of an SVCB record the parser stands. *)
Definition svc_pos (m : bytes) (ts : list rdf) (src hi : Z) : Prop := In rdf_svcparams ts ->
  (ts = [rdf_int16; rdf_name; rdf_svcparams] /\ forall e, extent m (src + 2) e -> no_huge_param m (src + 2 + e) hi) \/
  (ts = [rdf_name; rdf_svcparams] /\ forall e, extent m src e -> no_huge_param m (src + e) hi) \/
  (ts = [rdf_svcparams] /\ no_huge_param m src hi).
Lemma svc_pos_here : forall m ts src hi, svc_pos m (rdf_svcparams :: ts) src hi -> no_huge_param m src hi.
Proof. intros m ts src hi H. destruct (H ltac:(left; auto)) as [[E _]|[[E _]|[_ K]]]; try discriminate. auto. Qed.
Lemma svc_pos_name : forall m t ts src hi e, svc_pos m (t :: ts) src hi -> t = rdf_name \/ t = rdf_uname -> extent m src e -> svc_pos m ts (src + e) hi.
Proof.
  intros m t ts src hi e H T X I. destruct (H ltac:(right; auto)) as [[E _]|[[E K]|[E _]]].
  - injection E as -> ->. destruct T; discriminate.
  - injection E as -> ->. right. right. split; auto.
  - injection E as -> ->. destruct T; discriminate.
Qed.
Lemma svc_pos_octets : forall m t ts src hi n, svc_pos m (t :: ts) src hi -> t <> rdf_name -> (t = rdf_int16 -> n = 2) -> svc_pos m ts (src + n) hi.
Proof.
  intros m t ts src hi n H T N I. destruct (H ltac:(right; auto)) as [[E K]|[[E _]|[E _]]].
  - injection E as -> ->. rewrite N by auto. right. left. split; auto.
  - injection E as -> ->. congruence.
  - injection E as -> ->. destruct I.
Qed.

Lemma parse_fields_sound : forall ts fuel m src sb u src' sb' u', bytes_ok m -> 0 <= src -> 0 <= sb -> src + sb <= zlen m ->
  ends_ok ts = true -> svc_pos m ts src (src + sb) ->
  parse_fields fuel m (zlen m) ts (src, sb, u) = Ok (src', sb', u') -> sb' = 0 ->
  exists vs, rdata_at m (map fmt_of ts) src sb vs /\ u' = u ++ canon vs.
Proof.
  induction ts as [|t ts IH]; intros fuel m src sb u src' sb' u' Hm H1 H2 H3 En NH E Z0; cbn [parse_fields] in E.
  - injection E as -> -> ->. subst. exists []. split; [apply ra_end|]. cbn. rewrite app_nil_r. auto.
  - destruct (sb =? 0) eqn:B.
    + injection E as -> -> ->. exists []. assert (sb' = 0) as -> by lia. split; [apply ra_end|]. cbn. rewrite app_nil_r. auto.
    + rewrite bind_ok in E. destruct E as (st & P & E).
      assert (ends_ok ts = true) as En' by (destruct ts; [reflexivity|]; cbn [ends_ok] in En; apply andb_prop in En; tauto).
      destruct (name_dec t) as [T|[T1 T2]].
      * apply name_field_sound in P; auto; try lia. destruct P as (ls & e & D & L & X & Be & ->).
        pose proof (extent_pos _ _ _ X).
        apply IH in E; auto; try lia. 2: { replace (src + e + (sb - e)) with (src + sb) by lia. eapply svc_pos_name; eauto. }
        destruct E as (vs & R & ->). exists (VName ls :: vs). split.
        -- cbn [map]. rewrite (proj2 (fmt_name t) T). eapply ra_name; eauto.
        -- unfold canon. cbn [map concat canon1]. rewrite app_assoc. auto.
      * apply octets_field_sound in P; auto; try lia. 2: { intros ->. eapply svc_pos_here; eauto. }
        destruct P as (l & F & O & L & -> & C). pose proof (zlen_nonneg _ l).
        assert (fmt_of t = FTypes /\ zlen l = sb - 1 -> False) as C3.
        { intros (C1 & C2). destruct ts as [|t' ts]; [|cbn [ends_ok] in En; rewrite C1 in En; discriminate].
          cbn [parse_fields] in E. injection E as ? ? ?. lia. }
        apply IH in E; auto; try lia.
        2: { replace (src + zlen l + (sb - zlen l)) with (src + sb) by lia. eapply svc_pos_octets; [exact NH|exact T1|]. intros ->. exact F. }
        destruct E as (vs & R & ->). exists (VOctets l :: vs). split.
        -- cbn [map]. apply ra_octets; auto; [|intros; intuition congruence].
           destruct C as [(C1 & C2)|[(C1 & C2)|C]]; [lia|lia|exfalso; auto].
        -- unfold canon. cbn [map concat canon1]. rewrite app_assoc. auto.
Qed.

Lemma parse_fields_complete : forall fs ts fuel m src sb u vs, bytes_ok m -> src + sb <= zlen m -> sb < Z.of_nat fuel ->
  rdata_at m fs src sb vs -> fs = map fmt_of ts ->
  parse_fields fuel m (zlen m) ts (src, sb, u) = Ok (src + sb, 0, u ++ canon vs).
Proof.
  intros fs ts fuel m src sb u vs Hm B Hf R. revert ts u. induction R as [fs i|fs i n ls e vs D L X Be R IH|f fs i n l vs F O L T R IH]; intros ts u E.
  - cbn [canon map concat]. destruct ts; cbn [parse_fields]; rewrite app_nil_r, Z.add_0_r; reflexivity.
  - destruct ts as [|t ts]; [discriminate|]. cbn [map] in E. injection E as E0 E1. pose proof (extent_pos _ _ _ X).
    cbn [parse_fields]. replace (n =? 0) with false by lia.
    rewrite (name_field_complete fuel m t i n u ls e) by (auto; try lia; apply fmt_name; auto). cbn [bind].
    rewrite IH by (auto; lia). apply ok_st3; [lia|auto|]. unfold canon. cbn [map concat canon1]. rewrite app_assoc. auto.
  - destruct ts as [|t ts]; [discriminate|]. cbn [map] in E. injection E as E0 E1. subst f.
    cbn [parse_fields]. replace (n =? 0) with false by lia.
    rewrite (octets_field_complete fuel m t i n u l) by (auto; lia). cbn [bind].
    rewrite IH by (auto; lia). apply ok_st3; [lia|auto|]. unfold canon. cbn [map concat canon1]. rewrite app_assoc. auto.
Qed.

(** parse_rdata in terms of the field list. *)
Lemma parse_rdata_fields : forall fuel m eop t c src n, 0 <= n -> 0 <= src <= zlen m ->
  parse_rdata fuel m eop t c src n =
  ('(_, sb, u) <- parse_fields fuel m eop (fields_for t c) (src, n, []) ;;
   if negb (sb =? 0) then Err res_out_of_bounds else Ok (load_rdata u)).
Proof.
  intros fuel m eop t c src n Hn Hs. unfold parse_rdata, fields_for. destruct (descr_for t c) as [ts|]; [reflexivity|].
  cbn [parse_fields]. destruct (n =? 0) eqn:E.
  - assert (n = 0) as -> by lia. assert (copy_bytes m (src, 0, []) 0 = Ok (src + 0, 0 - 0, [] ++ [])) as C.
    { apply copy_bytes_do; [apply octets_at_nil; auto|reflexivity|lia]. }
    rewrite C. reflexivity.
  - cbn [parse_field]. destruct (copy_bytes m (src, n, []) n) as [[[a b] u]| | |] eqn:C; cbn [bind]; auto.
    apply copy_bytes_iff in C as (_ & l & _ & _ & [= -> -> ->]). rewrite Z.sub_diag. reflexivity.
Qed.

Theorem parse_rdata_sound : forall fuel m t c src n d, bytes_ok m -> 0 <= src -> 0 <= n -> src + n <= zlen m ->
  ((t = 64 \/ t = 65) /\ c = 1 -> forall e, extent m (src + 2) e -> no_huge_param m (src + 2 + e) (src + n)) ->
  parse_rdata fuel m (zlen m) t c src n = Ok d ->
  exists vs, rdata_at m (format_of t c) src n vs /\ d = load_rdata (canon vs).
Proof.
  intros fuel m t c src n d Hm H1 H2 H3 NH E. rewrite parse_rdata_fields in E by lia. rewrite bind_ok in E.
  destruct E as ([[a sb] u] & P & E). destruct (negb (sb =? 0)) eqn:B; [discriminate|]. injection E as <-.
  apply parse_fields_sound in P; auto; try lia.
  - destruct P as (vs & R & ->). exists vs. rewrite format_of_fields. auto.
  - apply fields_for_ends.
  - intros I. left. split; [apply svc_shape; auto|]. apply svc_types in I. auto.
Qed.

Theorem parse_rdata_complete : forall fuel m t c src n vs, bytes_ok m -> 0 <= src -> 0 <= n -> src + n <= zlen m -> n < Z.of_nat fuel ->
  rdata_at m (format_of t c) src n vs ->
  parse_rdata fuel m (zlen m) t c src n = Ok (load_rdata (canon vs)).
Proof.
  intros fuel m t c src n vs Hm H1 H2 H3 Hf R. rewrite parse_rdata_fields by lia. rewrite format_of_fields in R.
  rewrite (parse_fields_complete _ (fields_for t c) fuel m src n [] vs Hm H3 Hf R eq_refl). reflexivity.
Qed.

Lemma load_rdata_small : forall u, zlen u < 65536 -> load_rdata u = u.
Proof.
  intros u H. unfold load_rdata. rewrite Z.mod_small by (pose proof (zlen_nonneg _ u); lia).
  rewrite zlen_to_nat. apply firstn_all.
Qed.

(** ** Any memory that reaches at least one octet beyond eop: no fault, no divergence. *)
Definition returns {A} (o : outcome A) : Prop := match o with Ok _ | Err _ => True | _ => False end.

Lemma returns_bind : forall A B (o : outcome A) (k : A -> outcome B), returns o -> (forall a, o = Ok a -> returns (k a)) -> returns (bind o k).
Proof. intros A B [a| | |] k H K; cbn in *; auto. Qed.

Lemma copy_bytes_returns : forall m src sb u x, 0 <= src -> 0 <= x -> src + sb <= zlen m -> returns (copy_bytes m (src, sb, u) x).
Proof.
  intros m src sb u x H1 H2 H3. destruct (copy_bytes_total m src sb u x H1 H2 H3) as [(l & -> & _)|(-> & _)]; exact I.
Qed.

Lemma rd_in : forall m i, 0 <= i < zlen m -> exists b, rd m i = Ok b.
Proof. intros m i H. destruct (rd_cases m i) as [(b & R & _)|(_ & N)]; [eauto|exfalso; auto]. Qed.

Lemma repstring_returns : forall f m src sb u, bytes_ok m -> 0 <= src -> src + sb <= zlen m -> sb < Z.of_nat f -> 0 < Z.of_nat f ->
  returns (repstring_loop f m (src, sb, u)).
Proof.
  induction f as [|f IH]; intros m src sb u Hm H1 H2 Hf Hf0; [lia|]. cbn [repstring_loop]. destruct (sb >? 0) eqn:E; [|exact I].
  destruct (rd_in m src) as (c & R); [lia|]. rewrite R. cbn [bind]. pose proof (rd_byte _ _ _ Hm R).
  apply returns_bind; [apply copy_bytes_returns; lia|]. intros st C. apply copy_bytes_iff in C as (C0 & l & C1 & C2 & ->).
  apply IH; auto; lia.
Qed.

Lemma bitmap_returns : forall f m src sb u, bytes_ok m -> 0 <= src -> src + sb <= zlen m -> sb < Z.of_nat f -> 0 < Z.of_nat f ->
  returns (bitmap_loop f m (src, sb, u)).
Proof.
  induction f as [|f IH]; intros m src sb u Hm H1 H2 Hf Hf0; [lia|]. cbn [bitmap_loop]. destruct (sb >=? 2) eqn:E; [|exact I].
  destruct (rd_in m (src + 1)) as (c & R); [lia|]. rewrite R. cbn [bind]. pose proof (rd_byte _ _ _ Hm R).
  destruct (negb _); [exact I|]. destruct (c <=? sb - 2); [|exact I].
  apply returns_bind; [apply copy_bytes_returns; lia|]. intros st C. apply copy_bytes_iff in C as (C0 & l & C1 & C2 & ->).
  apply IH; auto; lia.
Qed.

Lemma svc_returns : forall f m src sb u, bytes_ok m -> no_huge_param m src (src + sb) -> 0 <= src -> src + sb <= zlen m -> sb < Z.of_nat f -> 0 < Z.of_nat f ->
  returns (svc_loop f m (src, sb, u)).
Proof.
  induction f as [|f IH]; intros m src sb u Hm NH H1 H2 Hf Hf0; [lia|].
  destruct (Z_le_gt_dec sb 0) as [D|D]. { cbn [svc_loop]. replace (sb >? 0) with false by lia. exact I. }
  destruct (Z_lt_ge_dec sb 4) as [D4|D4].
  { cbn [svc_loop]. replace (sb >? 0) with true by lia. replace (sb <? 4) with true by lia. exact I. }
  destruct (svc_step m src sb u f) as [(key & val & K & O & L & Lv & [[P Q]|[P Q]])|[Q _]]; auto; try lia; rewrite Q; try exact I.
  pose proof (zlen_nonneg _ val). apply IH; auto; try lia.
  pose proof (huge_next _ _ _ _ NH O) as NH2; rewrite zlen_param in NH2; cbn [snd] in NH2. replace (src + (4 + zlen val) + (sb - (4 + zlen val))) with (src + sb) by lia. apply NH2. lia.
Qed.

Lemma unpack_returns : forall m eop i, bytes_ok m -> eop < zlen m -> returns (unpack_name m eop i).
Proof.
  intros m eop i Hm L. pose proof (unpack_safe_stray m eop i Hm L).
  destruct (unpack_outcomes m eop i Hm) as [E|[(w & _ & E)|(e & E & _)]]; rewrite E in *; try exact I. congruence.
Qed.

Lemma field_returns : forall fuel m eop t src sb u, bytes_ok m -> zlen m = eop + 1 -> 0 <= src -> 0 < sb -> src + sb <= eop ->
  (t = rdf_svcparams -> no_huge_param m src (src + sb)) -> sb < Z.of_nat fuel ->
  returns (parse_field fuel m eop t (src, sb, u)) /\
  (forall src' sb' u', parse_field fuel m eop t (src, sb, u) = Ok (src', sb', u') -> src <= src' /\ 0 <= sb' <= sb /\ src' + sb' = src + sb /\
     (0 < sb' -> (t = rdf_name \/ t = rdf_uname -> exists e, extent m src e /\ src' = src + e) /\ (t = rdf_int16 -> src' = src + 2))).
Proof.
  intros fuel m eop t src sb u Hm L H1 H2 H3 NH Hf.
  assert (forall x, 0 <= x -> (t = rdf_int16 -> x = 2) -> t <> rdf_name -> t <> rdf_uname -> returns (copy_bytes m (src, sb, u) x) /\
    (forall src' sb' u', copy_bytes m (src, sb, u) x = Ok (src', sb', u') -> src <= src' /\ 0 <= sb' <= sb /\ src' + sb' = src + sb /\
      (0 < sb' -> (t = rdf_name \/ t = rdf_uname -> exists e, extent m src e /\ src' = src + e) /\ (t = rdf_int16 -> src' = src + 2)))) as K.
  { intros x X X2 N1 N2. split; [apply copy_bytes_returns; lia|]. intros src' sb' u' C.
    apply copy_bytes_iff in C as (C0 & l & C1 & C2 & C3). injection C3 as -> -> ->. split; [lia|]. split; [lia|]. split; [lia|]. intros _. split; [intros [T|T]; congruence|]. intros T. rewrite X2 by auto. reflexivity. }
  assert (t <> rdf_int16 -> returns (parse_field fuel m eop rdf_name (src, sb, u)) /\
    (forall src' sb' u', parse_field fuel m eop rdf_name (src, sb, u) = Ok (src', sb', u') -> src <= src' /\ 0 <= sb' <= sb /\ src' + sb' = src + sb /\
      (0 < sb' -> (t = rdf_name \/ t = rdf_uname -> exists e, extent m src e /\ src' = src + e) /\ (t = rdf_int16 -> src' = src + 2)))) as KN.
  { intros NI. cbn [parse_field]. destruct (skip_total m eop src Hm) as [(s & S & Sb)|(S & Sb)]; try lia. rewrite S. split.
    - apply returns_bind; [apply unpack_returns; auto; lia|]. intros [w n] _. cbn [bind]. destruct (_ <? 0); exact I.
    - intros src' sb' u' E. rewrite bind_ok in E. destruct E as ([w n] & U & E). cbn [bind] in E.
      destruct (sb - (s - src) <? 0) eqn:B; [discriminate|]. injection E as <- <- <-. split; [lia|]. split; [lia|]. split; [lia|].
      intros P. split; [|intros; congruence]. intros _.
      apply unpack_denotes in U; auto; [|lia]. destruct U as (ls & D & _). destruct (denotes_extent _ _ _ D) as (e & X). exists e. split; auto.
      pose proof (extent_bound _ _ _ X). assert (src + e <= eop \/ src + e = eop + 1) as [Q|Q] by lia.
      + rewrite (skip_extent _ _ _ _ X Q) in S. congruence.
      + exfalso. assert (s = eop); [|lia]. unfold skip_name in S. rewrite (skip_loop_extent _ _ _ X) in S by (unfold zlen in *; lia).
        cbn [bind] in S. replace (src + e - 1 + 1 >? eop) with true in S by lia. congruence. }
  destruct t; try (apply KN; discriminate); cbn [parse_field]; try (apply K; auto; try discriminate; lia);
  try (destruct (rd_in m src) as (c & R); [lia|]; rewrite R; cbn [bind]; pose proof (rd_byte _ _ _ Hm R); apply K; try discriminate; lia).
  - destruct (rd_in m src) as (c & R); [lia|]. rewrite R. cbn [bind]. pose proof (rd_byte _ _ _ Hm R).
    destruct (c >? 128) eqn:C; [split; [exact I|discriminate]|]. apply K; try discriminate.
    assert (0 <= (128 - c) / 8) by (apply Z.div_pos; lia). destruct (negb _); lia.
  - split; [apply repstring_returns; auto; lia|]. intros src' sb' u' E. apply repstring_sound in E; auto; try lia.
    destruct E as (? & l & _ & _ & _ & _ & E). injection E as -> -> ->. lia.
  - split; [apply bitmap_returns; auto; lia|]. intros src' sb' u' E. apply bitmap_sound in E; auto; try lia.
    destruct E as (? & l & _ & _ & _ & E & B). injection E as -> -> ->. pose proof (zlen_nonneg _ l). split; [lia|]. split; [lia|]. split; [lia|]. intros _. split; [intros [T|T]|intros T]; discriminate.
  - split; [apply svc_returns; auto; lia|]. intros src' sb' u' E. apply svc_sound in E; auto; try lia.
    destruct E as (? & l & _ & _ & _ & _ & E). injection E as -> -> ->. lia.
Qed.

Lemma fields_return : forall ts fuel m eop src sb u, bytes_ok m -> zlen m = eop + 1 -> 0 <= src -> 0 <= sb -> src + sb <= eop ->
  svc_pos m ts src (src + sb) -> sb < Z.of_nat fuel ->
  returns (parse_fields fuel m eop ts (src, sb, u)).
Proof.
  induction ts as [|t ts IH]; intros fuel m eop src sb u Hm L H1 H2 H3 NH Hf; cbn [parse_fields]; [exact I|].
  destruct (sb =? 0) eqn:E; [exact I|].
  destruct (field_returns fuel m eop t src sb u) as [R1 R2]; auto; try lia. { intros ->. eapply svc_pos_here; eauto. }
  apply returns_bind; auto. intros [[src' sb'] u'] P. apply R2 in P as (P1 & P2 & P3 & P4).
  destruct (Z.eq_dec sb' 0) as [->|NZ]; [destruct ts; cbn [parse_fields]; exact I|].
  apply IH; auto; try lia. destruct (P4 ltac:(lia)) as [PN PI]. rewrite P3. destruct (name_dec t) as [T|[T1 T2]].
  - destruct (PN T) as (e & X & ->). eapply svc_pos_name; eauto.
  - replace src' with (src + (src' - src)) by lia. eapply svc_pos_octets; [exact NH|exact T1|]. intros T. apply PI in T. lia.
Qed.

Lemma rdata_returns : forall fuel m eop t c src n, bytes_ok m -> zlen m = eop + 1 -> 0 <= src -> 0 <= n -> src + n <= eop ->
  ((t = 64 \/ t = 65) /\ c = 1 -> forall e, extent m (src + 2) e -> no_huge_param m (src + 2 + e) (src + n)) -> n < Z.of_nat fuel ->
  returns (parse_rdata fuel m eop t c src n).
Proof.
  intros fuel m eop t c src n Hm L H1 H2 H3 NH Hf. rewrite parse_rdata_fields by lia.
  apply returns_bind.
  - apply fields_return; auto. intros X. left. split; [apply svc_shape; auto|]. apply svc_types in X. auto.
  - intros [[a sb] u] _. destruct (negb _); exact I.
Qed.
