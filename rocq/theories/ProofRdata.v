(** ProofRdata.v: parse_rdata against the rdata grammar. *)
From Verif Require Import Base Lib SpecName ModelName ModelDescr ModelParse SpecMessage ProofUnpack ProofCopy.

(** ** The descriptor table is the format table. *)
Definition fmt_of (t : rdf) : fmt :=
  match t with
  | rdf_bytes | rdf_bytes_b64 | rdf_bytes_str | rdf_edns_opt_rdata => FRest
  | rdf_name | rdf_uname => FName
  | rdf_int8 => FFixed 1 | rdf_int16 | rdf_rrtype => FFixed 2 | rdf_int32 | rdf_ipv4 => FFixed 4
  | rdf_ipv6 => FFixed 16 | rdf_eui48 => FFixed 6 | rdf_eui64 => FFixed 8
  | rdf_ipv6prefix => FPrefix6
  | rdf_string | rdf_salt | rdf_hash => FString
  | rdf_repstring => FStrings
  | rdf_type_bitmap => FTypes
  | rdf_svcparams => FParams
  end.

Definition fields_for (rrtype rrclass : Z) : list rdf :=
  match descr_for rrtype rrclass with Some ts => ts | None => [rdf_bytes] end.

Lemma assocZ_none : forall A (t : list (Z * A)) k, ~ In k (map fst t) -> assocZ t k = None.
Proof.
  induction t as [|[i d] t IH]; intros k H; auto. cbn [assocZ]. cbn [map fst In] in H.
  replace (k =? i) with false by (symmetry; apply Z.eqb_neq; intuition). apply IH. intuition.
Qed.
Lemma find_none_key : forall A (t : list (Z * A)) k, ~ In k (map fst t) -> find (fun e => fst e =? k) t = None.
Proof.
  induction t as [|[i d] t IH]; intros k H; auto. cbn [find fst]. cbn [map fst In] in H.
  replace (i =? k) with false by (symmetry; apply Z.eqb_neq; intuition). apply IH. intuition.
Qed.

Lemma descr_for_sym : forall t c, descr_for t c = match lookup_descr t with
  | None => None | Some d => if (d_class d =? class_un) || (c =? d_class d) then Some (d_types d) else None end.
Proof. intros. unfold descr_for. destruct (lookup_descr t); auto. rewrite (Z.eqb_sym (d_class d) c). reflexivity. Qed.

Lemma format_of_fields : forall t c, format_of t c = map fmt_of (fields_for t c).
Proof.
  intros t c. destruct (in_dec Z.eq_dec t (map fst rr_formats)) as [H|H].
  - cbn in H.
    repeat (destruct H as [<-|H];
      [unfold format_of, fields_for; rewrite descr_for_sym; unfold lookup_descr; cbn; unfold class_in; try reflexivity;
       destruct (c =? 1); reflexivity|]).
    contradiction.
  - unfold format_of. rewrite find_none_key by auto. unfold fields_for, descr_for, lookup_descr.
    rewrite assocZ_none; [reflexivity|]. intros X. apply H. clear - X. cbn in *. tauto.
Qed.

(** Fields that swallow the rest of the rdata only come last. *)
Fixpoint ends_ok (ts : list rdf) : bool :=
  match ts with [] => true | [_] => true | t :: ts' => negb (to_end (fmt_of t)) && ends_ok ts' end.

Lemma fields_for_ends : forall t c, ends_ok (fields_for t c) = true.
Proof.
  intros t c. unfold fields_for, descr_for. destruct (lookup_descr t) as [d|] eqn:E; [|reflexivity].
  assert (forallb (fun e => ends_ok (d_types (snd e))) record_table = true) as F by reflexivity.
  rewrite forallb_forall in F.
  assert (forall tb, assocZ tb t = Some d -> In (t, d) tb) as K.
  { induction tb as [|[i x] tb IH]; cbn [assocZ]; intros X; [discriminate|]. destruct (t =? i) eqn:Q.
    - apply Z.eqb_eq in Q. injection X as ->. subst. left; auto.
    - right; auto. }
  apply K in E. apply F in E. cbn [snd] in E. destruct (_ || _); auto.
Qed.

Lemma svc_shape : forall t c, In rdf_svcparams (fields_for t c) -> fields_for t c = [rdf_int16; rdf_name; rdf_svcparams].
Proof.
  intros t c. unfold fields_for. rewrite descr_for_sym. destruct (lookup_descr t) as [d|] eqn:E; [|intros K; cbn in K; destruct K as [K|[]]; discriminate].
  assert (F : forallb (fun e => forallb (fun x => match x with rdf_svcparams => false | _ => true end) (d_types (snd e)) || 
    match d_types (snd e) with [rdf_int16; rdf_name; rdf_svcparams] => true | _ => false end) record_table = true) by reflexivity.
  rewrite forallb_forall in F. assert (I : In (t, d) record_table).
  { revert E. unfold lookup_descr. generalize record_table as tb. induction tb as [|[i x] tb IH]; cbn [assocZ]; intros X; [discriminate|]. destruct (t =? i) eqn:Q.
    - apply Z.eqb_eq in Q. injection X as ->. subst. left; auto.
    - right; auto. }
  apply F in I. cbn [snd] in I. intros K. match goal with K : In _ (match (if ?b then _ else _) with _ => _ end) |- _ => destruct b end; [|cbn in K; destruct K as [K|[]]; discriminate]. apply orb_true_iff in I as [I|I].
  - rewrite forallb_forall in I. apply I in K. discriminate.
  - destruct (d_types d) as [|[] [|[] [|[] [|? ?]]]]; try discriminate. reflexivity.
Qed.
(** The only descriptors with SvcParams are SVCB and HTTPS in class IN. *)
Lemma svc_types : forall t c, In rdf_svcparams (fields_for t c) -> (t = 64 \/ t = 65) /\ c = 1.
Proof.
  intros t c. destruct (in_dec Z.eq_dec t (map fst record_table)) as [H|H].
  - cbn in H. unfold fields_for. rewrite descr_for_sym. unfold lookup_descr.
    repeat (destruct H as [<-|H]; [cbn; unfold class_in; try (intros K; repeat (destruct K as [K|K]; [discriminate|]); contradiction);
      match goal with |- context [if ?b then _ else _] => destruct b eqn:E end; cbn; intros K;
      repeat (destruct K as [K|K]; [try discriminate|]); try contradiction;
      split; auto; apply Z.eqb_eq in E; auto |]).
    contradiction.
  - unfold fields_for, descr_for, lookup_descr. rewrite assocZ_none by auto. cbn. intros [K|[]]; discriminate.
Qed.

Lemma ok_st : forall (a a' b b' : Z) (c c' : bytes), a = a' -> b = b' -> c = c' -> Ok (a, b, c) = Ok (a', b', c').
Proof. intros; subst; reflexivity. Qed.

(** ** copy_bytes *)
Lemma copy_bytes_iff : forall m src sb u x st, copy_bytes m (src, sb, u) x = Ok st <->
  x <= sb /\ exists l, octets_at m src l /\ zlen l = x /\ st = (src + x, sb - x, u ++ l).
Proof.
  intros m src sb u x st. unfold copy_bytes. destruct (sb <? x) eqn:E.
  - split; [discriminate|]. intros (H & _). lia.
  - rewrite bind_ok. split.
    + intros (l & H & K). injection K as <-. apply rds_ok in H as [H1 H2]. split; [lia|]. exists l. auto.
    + intros (_ & l & H1 & H2 & ->). exists l. split; auto. apply rds_ok. auto.
Qed.

Lemma copy_bytes_do : forall m src sb u x l, octets_at m src l -> zlen l = x -> x <= sb ->
  copy_bytes m (src, sb, u) x = Ok (src + x, sb - x, u ++ l).
Proof. intros m src sb u x l O L B. apply copy_bytes_iff. split; [lia|]. exists l. auto. Qed.

Lemma copy_bytes_total : forall m src sb u x, 0 <= src -> 0 <= x -> src + sb <= zlen m ->
  (exists l, copy_bytes m (src, sb, u) x = Ok (src + x, sb - x, u ++ l) /\ octets_at m src l /\ zlen l = x /\ x <= sb) \/
  (copy_bytes m (src, sb, u) x = Err res_parse_error /\ sb < x).
Proof.
  intros m src sb u x H1 H2 H3. unfold copy_bytes. destruct (sb <? x) eqn:E; [right; split; auto; lia|left].
  destruct (rds_cases m src x) as [(l & R & _)|(R & N)]; [|exfalso; lia].
  exists l. rewrite R. cbn [bind]. apply rds_ok in R as [R1 R2]. repeat split; auto. lia.
Qed.

(** ** repstring *)
Lemma repstring_sound : forall f m src sb u st, bytes_ok m -> 0 <= src -> 0 <= sb -> src + sb <= zlen m ->
  repstring_loop f m (src, sb, u) = Ok st ->
  exists ss l, Forall (fun s => zlen s <= 255) ss /\ l = concat (map char_string ss) /\ octets_at m src l /\ zlen l = sb /\
    st = (src + sb, 0, u ++ l).
Proof.
  induction f as [|f IH]; intros m src sb u st Hm H1 H2 H3 E; [discriminate|]. cbn [repstring_loop] in E.
  destruct (sb >? 0) eqn:B.
  - rewrite bind_ok in E. destruct E as (c & R & E). rewrite bind_ok in E. destruct E as (st1 & C & E).
    apply copy_bytes_iff in C as (C0 & l & C1 & C2 & ->).
    pose proof (rd_byte _ _ _ Hm R) as Rb. apply rd_ok in R.
    apply IH in E; auto; try lia. destruct E as (ss & l' & F & El & O & Z1 & ->).
    destruct l as [|c' s]; [rewrite zlen_nil in C2; lia|].
    assert (c' = c) as -> by (apply (octet_det m src); [eapply octet_head; eauto|auto]).
    zl. exists (s :: ss), ((c :: s) ++ l'). repeat split.
    + constructor; auto. lia.
    + subst l'. cbn [map concat]. unfold char_string at 2. replace (zlen s) with c by lia. reflexivity.
    + apply octets_at_app. split; auto. rewrite zlen_cons. replace (zlen s + 1) with (c + 1) by lia. auto.
    + zl. lia.
    + rewrite <- app_assoc. f_equal. f_equal; lia.
  - injection E as <-. exists [], []. repeat split; auto.
    + exists (firstn (Z.to_nat src) m), (skipn (Z.to_nat src) m). split; [symmetry; apply firstn_skipn|]. apply zlen_firstn. lia.
    + rewrite zlen_nil. lia.
    + rewrite app_nil_r. repeat f_equal; lia.
Qed.

Lemma zlen_char_string : forall s, zlen (char_string s) = zlen s + 1.
Proof. intros. apply zlen_cons. Qed.

Lemma repstring_complete : forall ss m src u f, Forall (fun s => zlen s <= 255) ss ->
  octets_at m src (concat (map char_string ss)) -> (length (concat (map char_string ss)) < f)%nat ->
  repstring_loop f m (src, zlen (concat (map char_string ss)), u) =
  Ok (src + zlen (concat (map char_string ss)), 0, u ++ concat (map char_string ss)).
Proof.
  induction ss as [|s ss IH]; intros m src u f F O L; (destruct f as [|f]; [lia|]); cbn [repstring_loop].
  - cbn [map concat]. change (zlen (@nil Z)) with 0. rewrite app_nil_r, Z.add_0_r. reflexivity.
  - inversion F as [|? ? F1 F2]; subst. cbn [map concat] in *. apply octets_at_app in O as [O1 O2].
    pose proof (zlen_nonneg _ s). pose proof (zlen_nonneg _ (concat (map char_string ss))).
    rewrite zlen_app, zlen_char_string in *.
    replace (zlen s + 1 + zlen (concat (map char_string ss)) >? 0) with true by lia.
    rewrite (proj2 (rd_ok m src (zlen s))) by (eapply octet_head; exact O1). cbn [bind].
    rewrite (copy_bytes_do _ _ _ _ _ _ O1) by (rewrite ?zlen_char_string; lia).
    cbn [bind]. replace (zlen s + 1 + zlen (concat (map char_string ss)) - (zlen s + 1)) with (zlen (concat (map char_string ss))) by lia.
    rewrite IH; auto.
    + apply ok_st; [lia|reflexivity|rewrite <- app_assoc; reflexivity].
    + unfold char_string at 1 in L. rewrite app_length in L. cbn [length] in L. lia.
Qed.

(** ** type bit maps *)
Lemma zlen_window : forall w, zlen (window w) = 2 + zlen (snd w).
Proof. intros. unfold window. zl. lia. Qed.

Lemma bitmap_sound : forall f m src sb u st, bytes_ok m -> 0 <= src -> 0 <= sb -> src + sb <= zlen m ->
  bitmap_loop f m (src, sb, u) = Ok st ->
  exists ws l, Forall (fun w => 1 <= zlen (snd w) <= 32) ws /\ l = concat (map window ws) /\ octets_at m src l /\
    st = (src + zlen l, sb - zlen l, u ++ l) /\ (zlen l = sb \/ zlen l = sb - 1).
Proof.
  induction f as [|f IH]; intros m src sb u st Hm H1 H2 H3 E; [discriminate|]. cbn [bitmap_loop] in E.
  destruct (sb >=? 2) eqn:B.
  - rewrite bind_ok in E. destruct E as (c & R & E).
    destruct (negb ((c >=? 1) && (c <=? 32))) eqn:B1; [discriminate|].
    destruct (c <=? sb - 2) eqn:B2; [|discriminate].
    rewrite bind_ok in E. destruct E as (st1 & C & E).
    apply copy_bytes_iff in C as (C0 & l & C1 & C2 & ->).
    apply rd_ok in R. apply IH in E; auto; try lia. destruct E as (ws & l' & F & El & O & -> & Z1).
    destruct l as [|w [|c' s]]; [rewrite zlen_nil in C2; lia|change (zlen [w]) with 1 in C2; lia|].
    assert (c' = c) as ->.
    { apply (octet_det m (src + 1)); auto. apply octets_at_cons in C1 as [_ C1]. eapply octet_head; eauto. }
    zl. exists ((w, s) :: ws), ((w :: c :: s) ++ l'). repeat split.
    + constructor; auto. cbn [snd]. lia.
    + subst l'. cbn [map concat]. unfold window at 2. cbn [fst snd]. replace (zlen s) with c by lia. reflexivity.
    + apply octets_at_app. split; auto. zl. replace (zlen s + 1 + 1) with (2 + c) by lia. auto.
    + zl. rewrite <- app_assoc. f_equal. f_equal; lia.
    + zl. lia.
  - injection E as <-. exists [], []. repeat split; auto.
    + exists (firstn (Z.to_nat src) m), (skipn (Z.to_nat src) m). split; [symmetry; apply firstn_skipn|]. apply zlen_firstn. lia.
    + rewrite app_nil_r, zlen_nil. repeat f_equal; lia.
    + rewrite zlen_nil. lia.
Qed.

Lemma bitmap_complete : forall ws m src u f, Forall (fun w => 1 <= zlen (snd w) <= 32) ws ->
  octets_at m src (concat (map window ws)) -> (length (concat (map window ws)) < f)%nat ->
  bitmap_loop f m (src, zlen (concat (map window ws)), u) =
  Ok (src + zlen (concat (map window ws)), 0, u ++ concat (map window ws)).
Proof.
  induction ws as [|[w s] ss IH]; intros m src u f F O L; (destruct f as [|f]; [lia|]); cbn [bitmap_loop].
  - cbn [map concat]. change (zlen (@nil Z)) with 0. rewrite app_nil_r, Z.add_0_r. reflexivity.
  - inversion F as [|? ? F1 F2]; subst. cbn [map concat] in *. apply octets_at_app in O as [O1 O2].
    pose proof (zlen_nonneg _ (concat (map window ss))).
    rewrite zlen_app, zlen_window in *. cbn [snd] in *.
    replace (2 + zlen s + zlen (concat (map window ss)) >=? 2) with true by lia.
    rewrite (proj2 (rd_ok m (src + 1) (zlen s))) by (apply octets_at_cons in O1 as [_ O1]; eapply octet_head; exact O1). cbn [bind].
    replace (negb ((zlen s >=? 1) && (zlen s <=? 32))) with false by lia.
    replace (zlen s <=? 2 + zlen s + zlen (concat (map window ss)) - 2) with true by lia.
    rewrite (copy_bytes_do _ _ _ _ _ _ O1) by (rewrite ?zlen_window; cbn [snd]; lia).
    cbn [bind]. replace (2 + zlen s + zlen (concat (map window ss)) - (2 + zlen s)) with (zlen (concat (map window ss))) by lia.
    rewrite IH; auto.
    + apply ok_st; [lia|reflexivity|rewrite <- app_assoc; reflexivity].
    + unfold window at 1 in L. cbn [fst snd] in L. rewrite app_length in L. cbn [length] in L. lia.
Qed.

(** ** SvcParams *)
Lemma be16_range : forall a b, 0 <= a < 256 -> 0 <= b < 256 -> 0 <= be16 a b < 65536.
Proof. intros. unfold be16. lia. Qed.
Lemma u16_be16 : forall a b, 0 <= a < 256 -> 0 <= b < 256 -> u16 (be16 a b) = [a; b].
Proof.
  intros a b Ha Hb. unfold u16, be16.
  rewrite Z.div_add_l, (Z.div_small b), Z.add_0_r by lia.
  rewrite Z.add_comm, Z_mod_plus_full, Z.mod_small by lia. reflexivity.
Qed.
Lemma be16_u16 : forall v, be16 (v / 256) (v mod 256) = v.
Proof. intros. unfold be16. pose proof (Z.div_mod v 256). lia. Qed.

(** The alpn walk inside memory that holds the whole value. *)
Lemma alpn_loop_spec : forall f m val n o, bytes_ok m -> 0 <= val -> 0 <= o -> val + n <= zlen m -> n - o < Z.of_nat f -> 0 < Z.of_nat f ->
  exists r, alpn_loop f m val n o = Ok r /\ o <= r /\
   (r = n <-> exists ids, Forall (fun s => zlen s <= 255) ids /\ octets_at m (val + o) (concat (map char_string ids)) /\
                          zlen (concat (map char_string ids)) = n - o).
Proof.
  induction f as [|f IH]; intros m val n o Hm Hv Ho B F F0; [lia|]. cbn [alpn_loop].
  destruct (o <? n) eqn:E.
  - destruct (rd_cases m (val + o)) as [(c & R & _)|(_ & N)]; [|exfalso; lia]. rewrite R. cbn [bind].
    pose proof (rd_byte _ _ _ Hm R) as Rb. apply rd_ok in R.
    destruct (IH m val n (o + 1 + c)) as (r & R1 & R2 & R3); auto; try lia.
    rewrite R1. exists r. split; auto. split; [lia|]. rewrite R3. clear R3 R1 IH.
    split; intros (ids & F1 & O & L).
    + assert (octets_at m (val + o) (firstn (Z.to_nat (c + 1)) (skipn (Z.to_nat (val + o)) m))) as O1
        by (apply octets_at_intro; pose proof (zlen_nonneg _ (concat (map char_string ids))); lia).
      pose proof (octets_at_bound _ _ _ O) as Bd. pose proof (zlen_nonneg _ (concat (map char_string ids))).
      assert (zlen (firstn (Z.to_nat (c + 1)) (skipn (Z.to_nat (val + o)) m)) = c + 1) as L1
        by (apply zlen_firstn; rewrite zlen_skipn; lia).
      destruct (firstn (Z.to_nat (c + 1)) (skipn (Z.to_nat (val + o)) m)) as [|c' s]; [rewrite zlen_nil in L1; lia|].
      assert (c' = c) as -> by (apply (octet_det m (val + o)); [eapply octet_head; eauto|auto]). zl.
      exists (s :: ids). cbn [map concat]. repeat split.
      * constructor; auto; lia.
      * apply octets_at_app. unfold char_string at 1. replace (zlen s) with c by lia. split; auto.
        rewrite zlen_char_string. replace (val + o + (zlen s + 1)) with (val + (o + 1 + c)) by lia. auto.
      * rewrite zlen_app, zlen_char_string. lia.
    + destruct ids as [|s ids]; [change (zlen (concat (map char_string []))) with 0 in L; lia|].
      cbn [map concat] in *. rewrite zlen_app, zlen_char_string in L. apply octets_at_app in O as [O1 O2].
      assert (zlen s = c) by (apply (octet_det m (val + o)); [eapply octet_head; eauto|auto]).
      inversion F1; subst. exists ids. repeat split; auto; [|lia].
      rewrite zlen_char_string in O2. replace (val + (o + 1 + zlen s)) with (val + o + (zlen s + 1)) by lia. auto.
  - exists o. split; auto. split; [lia|]. split.
    + intros ->. exists []. repeat split; [constructor| |rewrite Z.sub_diag; reflexivity].
      exists (firstn (Z.to_nat (val + n)) m), (skipn (Z.to_nat (val + n)) m). split; [symmetry; apply firstn_skipn|]. apply zlen_firstn. lia.
    + intros (ids & _ & _ & L). pose proof (zlen_nonneg _ (concat (map char_string ids))). lia.
Qed.

Lemma mod_zero_iff : forall a b, 0 < b -> ((a mod b =? 0) = true <-> exists n, a = b * n).
Proof.
  intros a b Hb. rewrite Z.eqb_eq. rewrite Z.mod_divide by lia. split; intros [n H]; exists n; lia.
Qed.

Lemma svc_validate_spec : forall m key n val l, bytes_ok m -> 0 <= val -> octets_at m val l -> zlen l = n -> 0 <= key < 65536 ->
  exists b, svcparam_key_validate m key n val = Ok b /\ (b = true <-> param_ok key l).
Proof.
  intros m key n val l Hm Hv O L Hk. unfold svcparam_key_validate, param_ok. pose proof (zlen_nonneg _ l).
  destruct (key =? 0) eqn:E0. { eexists; split; eauto. rewrite mod_zero_iff by lia. rewrite <- L. assert (key = 0) by lia. intuition lia. }
  destruct (key =? 1) eqn:E1.
  { assert (key = 1) by lia. destruct (n =? 0) eqn:E.
    - eexists; split; eauto. split; [discriminate|]. intros (_ & _ & A & _). destruct A as (ids & A1 & A2 & A3); auto.
      exfalso. destruct ids as [|b ids]; [congruence|]. subst l. cbn [map concat] in L. rewrite zlen_app, zlen_char_string in L.
      pose proof (zlen_nonneg _ b). pose proof (zlen_nonneg _ (concat (map char_string ids))). lia.
    - pose proof (octets_at_bound _ _ _ O).
      destruct (alpn_loop_spec (S (Z.to_nat n)) m val n 0) as (r & R1 & R2 & R3); auto; try lia.
      rewrite R1. cbn [bind]. eexists; split; eauto. rewrite Z.eqb_eq, R3, Z.add_0_r, Z.sub_0_r.
      split.
      + intros (ids & F & O' & L'). split; [lia|]. split; [lia|]. split; [|repeat split; lia].
        intros _. exists ids. repeat split; auto.
        * intros ->. change (zlen (concat (map char_string []))) with 0 in L'. lia.
        * eapply octets_at_det; eauto. lia.
      + intros (_ & _ & A & _). destruct A as (ids & A1 & A2 & A3); auto. exists ids. subst l. auto. }
  destruct (key =? 2) eqn:E2. { eexists; split; eauto. assert (key = 2) by lia. split.
    - intros. assert (zlen l = 0) as Z0 by lia. apply zlen_zero in Z0. subst l. repeat split; intros; try lia; auto.
    - intros (_ & _ & _ & A & _). rewrite A in L by auto. rewrite zlen_nil in L. lia. }
  destruct (key =? 3) eqn:E3. { eexists; split; eauto. assert (key = 3) by lia. intuition lia. }
  destruct (key =? 5) eqn:E5. { eexists; split; eauto. assert (key = 5) by lia. intuition lia. }
  destruct (key =? 4) eqn:E4. { eexists; split; eauto. rewrite mod_zero_iff by lia. rewrite <- L. assert (key = 4) by lia. intuition lia. }
  destruct (key =? 6) eqn:E6. { eexists; split; eauto. rewrite mod_zero_iff by lia. rewrite <- L. assert (key = 6) by lia. intuition lia. }
  destruct (key =? 65535) eqn:E7. { eexists; split; eauto. intuition lia. }
  eexists; split; eauto. intuition lia.
Qed.

Lemma zlen_param : forall kv, zlen (param kv) = 4 + zlen (snd kv).
Proof. intros. unfold param, u16. zl. change (zlen (@nil Z)) with 0. lia. Qed.

Lemma huge_next : forall m a b kv, no_huge_param m a b -> octets_at m a (param kv) -> a + zlen (param kv) <= b -> no_huge_param m (a + zlen (param kv)) b.
Proof. intros m a b kv H O B i k0 k1 l0 l1 R I O'. apply (H i k0 k1 l0 l1); auto. eapply pr_next; eauto. Qed.

Lemma octets_at_nil : forall m i, 0 <= i <= zlen m -> octets_at m i [].
Proof.
  intros m i H. exists (firstn (Z.to_nat i) m), (skipn (Z.to_nat i) m). split; [symmetry; apply firstn_skipn|]. apply zlen_firstn. lia.
Qed.

Lemma octets_at_two : forall m i a b, octets_at m i [a] -> octets_at m (i + 1) [b] -> octets_at m i [a; b].
Proof. intros. apply octets_at_cons. auto. Qed.

Lemma svc_step : forall m src sb u f, bytes_ok m -> no_huge_param m src (src + sb) -> 4 <= sb -> 0 <= src -> src + sb <= zlen m ->
  (exists key val, 0 <= key < 65536 /\ octets_at m src (param (key, val)) /\ 4 + zlen val <= sb /\ zlen val < 65532 /\
     ((param_ok key val /\ svc_loop (S f) m (src, sb, u) = svc_loop f m (src + (4 + zlen val), sb - (4 + zlen val), u ++ param (key, val))) \/
      (~ param_ok key val /\ svc_loop (S f) m (src, sb, u) = Err res_parse_error))) \/
  (svc_loop (S f) m (src, sb, u) = Err res_out_of_bounds /\
   exists k0 k1 v0 v1, octets_at m src [k0; k1; v0; v1] /\ sb < 4 + be16 v0 v1).
Proof.
  intros m src sb u f Hm NH B4 Hs B.
  assert (exists k0 k1 v0 v1, octets_at m src [k0; k1; v0; v1]) as (k0 & k1 & v0 & v1 & O).
  { assert (octets_at m src (firstn (Z.to_nat 4) (skipn (Z.to_nat src) m))) as O by (apply octets_at_intro; lia).
    assert (zlen (firstn (Z.to_nat 4) (skipn (Z.to_nat src) m)) = 4) as L by (apply zlen_firstn; rewrite zlen_skipn; lia).
    destruct (firstn (Z.to_nat 4) (skipn (Z.to_nat src) m)) as [|a [|b [|c [|d [|e r]]]]]; try (cbv in L; lia).
    - exists a, b, c, d. auto.
    - rewrite !zlen_cons in L. pose proof (zlen_nonneg _ r). lia. }
  pose proof (octets_at_bytes _ _ _ Hm O) as Bk.
  assert (0 <= k0 < 256 /\ 0 <= k1 < 256 /\ 0 <= v0 < 256 /\ 0 <= v1 < 256) as (K0 & K1 & V0 & V1).
  { unfold bytes_ok, is_byte in Bk. repeat match goal with H : Forall _ (_ :: _) |- _ => inversion H; subst; clear H end. auto. }
  pose proof O as Oall.
  apply octets_at_cons in O as [O0 O]. apply octets_at_cons in O as [O1 O]. apply octets_at_cons in O as [O2 O3].
  replace (src + 1 + 1) with (src + 2) in * by lia. replace (src + 2 + 1) with (src + 3) in * by lia.
  assert (be16 v0 v1 < 65532) as Hn.
  { unfold be16. apply (NH src k0 k1 v0 v1); [apply pr_here|lia|exact Oall]. }
  pose proof (be16_range v0 v1 V0 V1) as Vr. pose proof (be16_range k0 k1 K0 K1) as Kr.
  cbn [svc_loop]. replace (sb >? 0) with true by lia. replace (sb <? 4) with false by lia.
  rewrite (proj2 (rd_ok _ _ _) O0), (proj2 (rd_ok _ _ _) O1). cbn [bind].
  rewrite (proj2 (rd_ok _ _ _) O2), (proj2 (rd_ok _ _ _) O3). cbn [bind].
  replace ((2 + 2 + be16 v0 v1) mod 2 ^ 16) with (4 + be16 v0 v1) by (rewrite Z.mod_small; lia).
  destruct (4 + be16 v0 v1 >? sb) eqn:E.
  { right. split; auto. exists k0, k1, v0, v1. split; auto. lia. }
  left.
  assert (octets_at m (src + 4) (firstn (Z.to_nat (be16 v0 v1)) (skipn (Z.to_nat (src + 4)) m))) as Ov by (apply octets_at_intro; lia).
  assert (zlen (firstn (Z.to_nat (be16 v0 v1)) (skipn (Z.to_nat (src + 4)) m)) = be16 v0 v1) as Lv by (apply zlen_firstn; rewrite zlen_skipn; lia).
  set (val := firstn (Z.to_nat (be16 v0 v1)) (skipn (Z.to_nat (src + 4)) m)) in *. clearbody val.
  exists (be16 k0 k1), val.
  assert (octets_at m src (param (be16 k0 k1, val))) as Op.
  { unfold param. cbn [fst snd]. rewrite Lv, !u16_be16 by auto. change ([k0; k1] ++ [v0; v1] ++ val) with ([k0; k1; v0; v1] ++ val).
    apply octets_at_app. split; auto. }
  rewrite !Lv. split; [lia|]. split; [exact Op|]. split; [lia|]. split; [lia|].
  destruct (svc_validate_spec m (be16 k0 k1) (be16 v0 v1) (src + 4) val) as (b & Vb & Vs); auto; try lia.
  rewrite Vb. cbn [bind]. destruct b; cbn [negb].
  - left. split; [apply Vs; auto|].
    rewrite (copy_bytes_do _ _ _ _ _ _ Op) by (rewrite ?zlen_param; cbn [snd]; lia).
    reflexivity.
  - right. split; [|reflexivity]. intros X. apply Vs in X. discriminate.
Qed.

Lemma svc_sound : forall f m src sb u st, bytes_ok m -> no_huge_param m src (src + sb) -> 0 <= src -> 0 <= sb -> src + sb <= zlen m ->
  svc_loop f m (src, sb, u) = Ok st ->
  exists ps l, Forall (fun kv => param_ok (fst kv) (snd kv) /\ zlen (snd kv) < 65532) ps /\ l = concat (map param ps) /\
    octets_at m src l /\ zlen l = sb /\ st = (src + sb, 0, u ++ l).
Proof.
  induction f as [|f IH]; intros m src sb u st Hm NH H1 H2 H3 E; [discriminate|].
  destruct (Z_le_gt_dec sb 0) as [D|D].
  { cbn [svc_loop] in E. replace (sb >? 0) with false in E by lia. injection E as <-. exists [], []. repeat split; auto.
    - apply octets_at_nil. lia.
    - rewrite zlen_nil. lia.
    - rewrite app_nil_r. repeat f_equal; lia. }
  destruct (Z_lt_ge_dec sb 4) as [D4|D4].
  { cbn [svc_loop] in E. replace (sb >? 0) with true in E by lia. replace (sb <? 4) with true in E by lia. discriminate. }
  destruct (svc_step m src sb u f) as [(key & val & K & O & L & Lv & [[P Q]|[P Q]])|[Q _]]; auto; try lia; rewrite Q in E; try discriminate.
  pose proof (zlen_nonneg _ val).
  apply IH in E; auto; try lia; [|pose proof (huge_next _ _ _ _ NH O) as NH2; rewrite zlen_param in NH2; cbn [snd] in NH2; replace (src + (4 + zlen val) + (sb - (4 + zlen val))) with (src + sb) by lia; apply NH2; lia]. destruct E as (ps & l & F & El & O' & Z1 & ->).
  exists ((key, val) :: ps), (param (key, val) ++ l). repeat split.
  - constructor; auto.
  - cbn [map concat]. congruence.
  - apply octets_at_app. rewrite zlen_param. auto.
  - rewrite zlen_app, zlen_param. cbn [snd]. lia.
  - rewrite <- app_assoc. f_equal. f_equal; lia.
Qed.

Lemma u16_bytes_inv : forall v a b, u16 v = [a; b] -> be16 a b = v.
Proof. intros v a b [= <- <-]. apply be16_u16. Qed.

Lemma svc_complete : forall ps m src u f, bytes_ok m -> Forall (fun kv => param_ok (fst kv) (snd kv) /\ zlen (snd kv) < 65532) ps ->
  octets_at m src (concat (map param ps)) -> (length (concat (map param ps)) < f)%nat ->
  svc_loop f m (src, zlen (concat (map param ps)), u) =
  Ok (src + zlen (concat (map param ps)), 0, u ++ concat (map param ps)).
Proof.
  induction ps as [|[key val] ps IH]; intros m src u f Hm F O L; (destruct f as [|f]; [lia|]); cbn [svc_loop].
  - cbn [map concat]. change (zlen (@nil Z)) with 0. rewrite app_nil_r, Z.add_0_r. reflexivity.
  - inversion F as [|? ? [F1 F3] F2]; subst. cbn [map concat fst snd] in *. apply octets_at_app in O as [O1 O2].
    pose proof (zlen_nonneg _ (concat (map param ps))). pose proof (zlen_nonneg _ val).
    rewrite zlen_app, zlen_param in *. cbn [snd] in *.
    set (rest := zlen (concat (map param ps))) in *.
    replace (4 + zlen val + rest >? 0) with true by lia. replace (4 + zlen val + rest <? 4) with false by lia.
    pose proof O1 as Op. unfold param in O1. cbn [fst snd] in O1. unfold u16 in O1. cbn [app] in O1.
    apply octets_at_cons in O1 as [A0 O1]. apply octets_at_cons in O1 as [A1 O1]. apply octets_at_cons in O1 as [A2 O1]. apply octets_at_cons in O1 as [A3 O1].
    replace (src + 1 + 1) with (src + 2) in * by lia. replace (src + 2 + 1) with (src + 3) in * by lia. replace (src + 3 + 1) with (src + 4) in * by lia.
    rewrite (proj2 (rd_ok _ _ _) A0), (proj2 (rd_ok _ _ _) A1). cbn [bind].
    rewrite (proj2 (rd_ok _ _ _) A2), (proj2 (rd_ok _ _ _) A3). cbn [bind]. rewrite !be16_u16.
    replace ((2 + 2 + zlen val) mod 2 ^ 16) with (4 + zlen val) by (rewrite Z.mod_small; lia).
    replace (4 + zlen val >? 4 + zlen val + rest) with false by lia.
    pose proof (octets_at_bound _ _ _ O1) as B1. pose proof F1 as [K _].
    destruct (svc_validate_spec m key (zlen val) (src + 4) val) as (b & Vb & Vs); auto; try lia.
    rewrite Vb. cbn [bind]. rewrite (proj2 Vs F1). cbn [negb].
    rewrite (copy_bytes_do _ _ _ _ _ _ Op) by (rewrite ?zlen_param; cbn [snd]; lia).
    cbn [bind]. replace (4 + zlen val + rest - (4 + zlen val)) with rest by lia. unfold rest.
    rewrite IH; auto.
    + apply ok_st; [lia|reflexivity|rewrite <- app_assoc; reflexivity].
    + unfold param at 1 in L. rewrite !app_length in L. cbn [length u16] in L. lia.
Qed.
