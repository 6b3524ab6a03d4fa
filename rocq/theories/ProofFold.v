(** ProofFold.v: wdns_downcase_rdata on any octets. *)
From Verif Require Import Base Lib SpecName SpecMessage SpecRRset SpecFold ModelName ModelDescr ModelParse ModelRRset.
From Verif Require Import ProofUnpack ProofNameOps ProofRdata ProofDowncase.

(** The formats met in the table: no EUI64, no EDNS options; behind a name come fixed fields, a name, or the rest. *)
Definition plain_rdf (t : rdf) : bool := match t with rdf_eui64 | rdf_edns_opt_rdata => false | _ => true end.
Definition fixedb (t : rdf) : bool := match fmt_of t with FFixed _ => true | _ => false end.
Fixpoint shape_ok (ts : list rdf) : bool :=
  match ts with
  | [] => true
  | t :: r => plain_rdf t && (if ProofDowncase.is_name t then forallb fixedb r || match r with u :: _ => ProofDowncase.is_name u || to_end (fmt_of u) | [] => true end else true) && shape_ok r
  end.
Lemma fold_shapes : forall t c, In t rfc4034_types -> shape_ok (fields_for t c) = true.
Proof.
  intros t c I. unfold fields_for, descr_for.
  assert (K : forallb (fun t => match lookup_descr t with Some d => shape_ok (d_types d) | None => true end) rfc4034_types = true) by reflexivity.
  rewrite forallb_forall in K. specialize (K t I). destruct (lookup_descr t) as [d|]; [|reflexivity]. destruct (_ || _); [exact K|reflexivity].
Qed.

Definition code (ok : bool) : res := if ok then res_success else res_parse_error.
Lemma dadv_take : forall don o l x n, zlen o = n -> dadv don (o ++ l ++ x) (zlen o + zlen l) n = DGo (don ++ o) (l ++ x) (zlen l).
Proof.
  intros don o l x n E. unfold dadv. pose proof (zlen_nonneg _ l). replace (zlen o + zlen l <? n) with false by lia.
  rewrite (firstn_app_exact _ o (l ++ x) n), adv_app by auto. f_equal. lia.
Qed.
Lemma name_field : forall t don p rem, ProofDowncase.is_name t = true -> dcase_field t don p rem = ('(don, p, rem) <- dcase_name (S (length p)) don p rem ;; Ok (DGo don p rem)).
Proof. intros t don p rem H. destruct t; try discriminate H; reflexivity. Qed.
Lemma fixed_field : forall t n don p rem, plain_rdf t = true -> fmt_of t = FFixed n -> dcase_field t don p rem = Ok (dadv don p rem n) /\ 0 < n <= 16.
Proof. intros t n don p rem P E. destruct t; try discriminate P; cbn in E; inversion E; subst; cbn [dcase_field]; split; auto; lia. Qed.
Lemma string_field : forall t don p rem, fmt_of t = FString -> dcase_field t don p rem = (oclen <- hd_rd p ;; Ok (dadv don p rem (oclen + 1))).
Proof. intros t don p rem E. destruct t; try discriminate E; reflexivity. Qed.
Lemma prefix_field : forall t don p rem, fmt_of t = FPrefix6 -> dcase_field t don p rem =
  (oclen <- hd_rd p ;; if oclen >? 16 then Ok (DReturn res_parse_error (don ++ p)) else Ok (dadv don p rem (oclen + 1))).
Proof. intros t don p rem E. destruct t; try discriminate E; reflexivity. Qed.
Lemma rest_field : forall t don p rem, plain_rdf t = true -> to_end (fmt_of t) = true -> dcase_field t don p rem = Ok (DReturn res_success (don ++ p)).
Proof. intros t don p rem P E. destruct t; try discriminate P; try discriminate E; reflexivity. Qed.
Lemma name_fmt : forall t, fmt_of t = FName <-> ProofDowncase.is_name t = true.
Proof. intros t. destruct t; cbn; split; intros H; auto; discriminate. Qed.
(** Behind a name without an end the counter is 2^64 - 1: fixed fields pass, the final test fails. *)
Lemma wrapped : forall ts don x rem, forallb fixedb ts = true -> shape_ok ts = true -> 16 * Z.of_nat (length ts) < rem -> dcase_fields ts don x rem = Ok (res_parse_error, don ++ x).
Proof.
  induction ts as [|t ts IH]; intros don x rem F S R; cbn [dcase_fields].
  - cbn [length] in R. replace (rem =? 0) with false by lia. reflexivity.
  - cbn [length] in R. rewrite Nat2Z.inj_succ in R. replace (rem =? 0) with false by lia. cbn [forallb] in F. apply andb_prop in F as [F1 F2]. cbn [shape_ok] in S. apply andb_prop in S as [S S2]. apply andb_prop in S as [S1 _].
    unfold fixedb in F1. destruct (fmt_of t) as [|n| | | | | |] eqn:E; try discriminate F1. destruct (fixed_field t n don x rem S1 E) as [-> N]. cbn [bind]. unfold dadv. replace (rem <? n) with false by lia.
    rewrite IH; auto; [|lia]. f_equal. f_equal. unfold adv. rewrite <- app_assoc, firstn_skipn. reflexivity.
Qed.
Lemma forall_fixed : forall ts, Forall is_fixed (map fmt_of ts) <-> forallb fixedb ts = true.
Proof.
  induction ts as [|t ts IH]; cbn [map forallb]; [split; constructor|]. unfold fixedb at 1. rewrite andb_true_iff, <- IH. split.
  - intros H. inversion H; subst. split; auto. destruct (fmt_of t); try contradiction. reflexivity.
  - intros [H H']. constructor; auto. destruct (fmt_of t); try discriminate. exact I.
Qed.

Lemma folds_run : forall ts l ok l', folds (map fmt_of ts) l ok l' -> shape_ok ts = true -> bytes_ok l -> (length ts < 1000)%nat -> forall don x,
  dcase_fields ts don (l ++ x) (zlen l) = Ok (code ok, don ++ l' ++ x).
Proof.
  induction ts as [|t ts IH]; intros l ok l' F S B LT don x; cbn [map] in F.
  - inversion F as [|? N| | | | | | | | | | |]; subst; cbn [dcase_fields]; [reflexivity|]. destruct (Z.eqb_spec (zlen l') 0) as [Z0|NZ]; [apply zlen_zero in Z0; contradiction|reflexivity].
  - cbn [shape_ok] in S. apply andb_prop in S as [S S2]. apply andb_prop in S as [S1 S3]. cbn [length] in LT. cbn [dcase_fields].
    remember (fmt_of t :: map fmt_of ts) as fs eqn:EF. destruct F as [|l N|f fs|fs a l ok l' NZ F|fs a NE NZ FX|f fs a NE NZ TE|n fs o l ok l' ZO NO F|n fs l NL ZL|fs o l ok l' F|fs c l ZL|fs o l ok l' ZO F|fs c l ZL|f fs l TE NL]; try discriminate EF.
    + rewrite zlen_nil. reflexivity.
    + assert (E : fmt_of t = FName) by congruence. assert (fs = map fmt_of ts) by congruence. subst fs. apply name_fmt in E. apply bytes_ok_app in B as [BA B]. apply bytes_ok_cons in B as [_ B].
      pose proof (zlen_nonneg _ a). pose proof (zlen_nonneg _ l). rewrite zlen_app, zlen_cons. replace (zlen a + (zlen l + 1) =? 0) with false by lia. rewrite name_field by auto. rewrite <- app_assoc. cbn [app].
      rewrite dcase_name_zero; auto; [|lia|rewrite app_length; cbn [length]; lia]. cbn [bind]. replace (zlen a + (zlen l + 1) - zlen a - 1) with (zlen l) by lia. rewrite (IH l ok l'); auto; [|lia].
      rewrite map_dc_lower by auto. f_equal. f_equal. rewrite <- !app_assoc. reflexivity.
    + assert (E : fmt_of t = FName) by congruence. assert (fs = map fmt_of ts) by congruence. subst fs. apply name_fmt in E. pose proof (zlen_nonneg _ a). assert (zlen a <> 0) by (intros X; apply zlen_zero in X; contradiction).
      replace (zlen a =? 0) with false by lia. rewrite name_field by auto. rewrite dcase_name_none; auto; [|rewrite app_length; lia]. cbn [bind]. apply forall_fixed in FX. rewrite wrapped; auto; [|change (2 ^ 64) with 18446744073709551616; lia].
      rewrite map_dc_lower by auto. rewrite <- app_assoc. reflexivity.
    + assert (E : fmt_of t = FName) by congruence. apply name_fmt in E. destruct ts as [|u us]; [discriminate EF|]. assert (EU : fmt_of u = f) by (cbn [map] in EF; congruence). pose proof (zlen_nonneg _ a). assert (zlen a <> 0) by (intros X; apply zlen_zero in X; contradiction).
      replace (zlen a =? 0) with false by lia. rewrite name_field by auto. rewrite dcase_name_none; auto; [|rewrite app_length; lia]. cbn [bind dcase_fields]. change (2 ^ 64 - 1 =? 0) with false. cbv iota.
      cbn [shape_ok] in S2. apply andb_prop in S2 as [S2 _]. apply andb_prop in S2 as [S2 _]. rewrite rest_field by (auto; congruence). cbn [bind]. rewrite map_dc_lower by auto. rewrite <- app_assoc. reflexivity.
    + assert (E : fmt_of t = FFixed n) by congruence. assert (fs = map fmt_of ts) by congruence. subst fs. apply bytes_ok_app in B as [BA B]. rewrite zlen_app. pose proof (zlen_nonneg _ l). destruct (fixed_field t n don ((o ++ l) ++ x) (zlen o + zlen l) S1 E) as [EF' N].
      replace (zlen o + zlen l =? 0) with false by lia. rewrite EF'. cbn [bind]. rewrite <- app_assoc, dadv_take by auto. cbn [bind]. rewrite (IH l ok l'); auto; [|lia]. rewrite <- !app_assoc. reflexivity.
    + assert (E : fmt_of t = FFixed n) by congruence. destruct (fixed_field t n don (l ++ x) (zlen l) S1 E) as [-> N]. assert (zlen l <> 0) by (intros X; apply zlen_zero in X; contradiction). replace (zlen l =? 0) with false by lia.
      cbn [bind]. unfold dadv. replace (zlen l <? n) with true by lia. reflexivity.
    + assert (E : fmt_of t = FString) by congruence. assert (fs = map fmt_of ts) by congruence. subst fs. apply bytes_ok_cons in B as [_ B]. apply bytes_ok_app in B as [BA B]. rewrite zlen_cons, zlen_app. pose proof (zlen_nonneg _ l). pose proof (zlen_nonneg _ o).
      replace (zlen o + zlen l + 1 =? 0) with false by lia. rewrite string_field by auto. cbn [app hd_rd bind].
      change (zlen o :: (o ++ l) ++ x) with ((zlen o :: o ++ l) ++ x). change (zlen o :: o ++ l) with ((zlen o :: o) ++ l). rewrite <- app_assoc. replace (zlen o + zlen l + 1) with (zlen (zlen o :: o) + zlen l) by (rewrite zlen_cons; lia).
      rewrite dadv_take by (rewrite zlen_cons; lia). rewrite (IH l ok l'); auto; [|lia]. rewrite <- !app_assoc. reflexivity.
    + assert (E : fmt_of t = FString) by congruence. rewrite zlen_cons. pose proof (zlen_nonneg _ l). replace (zlen l + 1 =? 0) with false by lia. rewrite string_field by auto. cbn [app hd_rd bind]. unfold dadv. replace (zlen l + 1 <? c + 1) with true by lia. reflexivity.
    + assert (E : fmt_of t = FPrefix6) by congruence. assert (fs = map fmt_of ts) by congruence. subst fs. apply bytes_ok_cons in B as [_ B]. apply bytes_ok_app in B as [BA B]. rewrite zlen_cons, zlen_app. pose proof (zlen_nonneg _ l). pose proof (zlen_nonneg _ o).
      replace (zlen o + zlen l + 1 =? 0) with false by lia. rewrite prefix_field by auto. cbn [app hd_rd bind]. replace (zlen o >? 16) with false by lia. cbn [bind].
      change (zlen o :: (o ++ l) ++ x) with ((zlen o :: o ++ l) ++ x). change (zlen o :: o ++ l) with ((zlen o :: o) ++ l). rewrite <- app_assoc. replace (zlen o + zlen l + 1) with (zlen (zlen o :: o) + zlen l) by (rewrite zlen_cons; lia).
      rewrite dadv_take by (rewrite zlen_cons; lia). rewrite (IH l ok l'); auto; [|lia]. rewrite <- !app_assoc. reflexivity.
    + assert (E : fmt_of t = FPrefix6) by congruence. rewrite zlen_cons. pose proof (zlen_nonneg _ l). replace (zlen l + 1 =? 0) with false by lia. rewrite prefix_field by auto. cbn [app hd_rd bind]. destruct (c >? 16) eqn:C; [reflexivity|]. cbn [bind]. unfold dadv. replace (zlen l + 1 <? c + 1) with true by lia. reflexivity.
    + assert (E : to_end (fmt_of t) = true) by congruence. assert (zlen l <> 0) by (intros X; apply zlen_zero in X; contradiction). replace (zlen l =? 0) with false by lia. rewrite rest_field by auto. reflexivity.
Qed.

Lemma endless_run : forall fs l, two_endless fs l -> forall ts, fs = map fmt_of ts -> shape_ok ts = true -> forall don, dcase_fields ts don l (zlen l) = UB OobRead.
Proof.
  intros fs l T. induction T as [fs a NE NZ|fs a l NZ T IH|n fs o l ZO NO T IH|fs o l T IH|fs o l ZO T IH]; intros [|t ts] EF S don; try discriminate EF; cbn [shape_ok] in S; apply andb_prop in S as [S S2]; apply andb_prop in S as [S1 S3].
  - destruct ts as [|u us]; [discriminate EF|]. cbn [map] in EF. apply two_names_ub; auto; apply name_fmt; congruence.
  - cbn [map] in EF. assert (E : fmt_of t = FName) by congruence. apply name_fmt in E. cbn [dcase_fields]. pose proof (zlen_nonneg _ a). pose proof (zlen_nonneg _ l). rewrite zlen_app, zlen_cons. replace (zlen a + (zlen l + 1) =? 0) with false by lia. rewrite name_field by auto.
    rewrite dcase_name_zero; auto; [|lia|rewrite app_length; cbn [length]; lia]. cbn [bind]. replace (zlen a + (zlen l + 1) - zlen a - 1) with (zlen l) by lia. apply IH; auto. congruence.
  - cbn [map] in EF. assert (E : fmt_of t = FFixed n) by congruence. cbn [dcase_fields]. rewrite zlen_app. pose proof (zlen_nonneg _ l). destruct (fixed_field t n don (o ++ l) (zlen o + zlen l) S1 E) as [EF' N]. replace (zlen o + zlen l =? 0) with false by lia. rewrite EF'. cbn [bind].
    pose proof (dadv_take don o l [] n ZO) as D. rewrite app_nil_r in D. rewrite D. apply IH; auto. congruence.
  - cbn [map] in EF. assert (E : fmt_of t = FString) by congruence. cbn [dcase_fields]. rewrite zlen_cons, zlen_app. pose proof (zlen_nonneg _ l). pose proof (zlen_nonneg _ o). replace (zlen o + zlen l + 1 =? 0) with false by lia. rewrite string_field by auto. cbn [hd_rd bind].
    pose proof (dadv_take don (zlen o :: o) l [] (zlen o + 1)) as D. rewrite zlen_cons, app_nil_r in D. cbn [app] in D. replace (zlen o + zlen l + 1) with (zlen o + 1 + zlen l) by lia. rewrite D by auto. apply IH; auto. congruence.
  - cbn [map] in EF. assert (E : fmt_of t = FPrefix6) by congruence. cbn [dcase_fields]. rewrite zlen_cons, zlen_app. pose proof (zlen_nonneg _ l). pose proof (zlen_nonneg _ o). replace (zlen o + zlen l + 1 =? 0) with false by lia. rewrite prefix_field by auto. cbn [hd_rd bind]. replace (zlen o >? 16) with false by lia. cbn [bind].
    pose proof (dadv_take don (zlen o :: o) l [] (zlen o + 1)) as D. rewrite zlen_cons, app_nil_r in D. cbn [app] in D. replace (zlen o + zlen l + 1) with (zlen o + 1 + zlen l) by lia. rewrite D by auto. apply IH; auto. congruence.
Qed.

Lemma folds_total : forall ts l, shape_ok ts = true -> bytes_ok l -> (exists ok l', folds (map fmt_of ts) l ok l') \/ two_endless (map fmt_of ts) l.
Proof.
  induction ts as [|t ts IH]; intros l S B; cbn [map].
  - left. destruct l as [|c l]; [exists true, []; constructor|exists false, (c :: l); constructor; discriminate].
  - cbn [shape_ok] in S. apply andb_prop in S as [S S2]. apply andb_prop in S as [S1 S3]. destruct l as [|c l]; [left; exists true, []; constructor|].
    assert (REST : to_end (fmt_of t) = true -> exists ok l', folds (fmt_of t :: map fmt_of ts) (c :: l) ok l') by (intros H; exists true, (c :: l); apply fo_rest; auto; discriminate).
    assert (SPLIT : forall n, 0 <= n <= zlen l -> exists o r, l = o ++ r /\ zlen o = n). { intros n N. exists (firstn (Z.to_nat n) l), (skipn (Z.to_nat n) l). rewrite firstn_skipn. split; auto. unfold zlen in *. rewrite firstn_length. lia. }
    pose proof B as B0. apply bytes_ok_cons in B0 as [BC BL]. unfold is_byte in BC.
    destruct (fmt_of t) as [|n| | | | | |] eqn:E; try (left; apply REST; reflexivity).
    + apply name_fmt in E. rewrite E in S3. destruct (split_zero (c :: l)) as [N|(a & r & EA & N)].
      * destruct (forallb fixedb ts) eqn:FX; [left; exists false, (lower_label (c :: l)); apply fo_endless; [discriminate|exact N|apply forall_fixed; exact FX]|]. cbn [orb] in S3.
        destruct ts as [|u us]; [discriminate FX|]. cbn [map]. destruct (ProofDowncase.is_name u) eqn:NU; [apply name_fmt in NU; rewrite NU; right; apply te_here; [discriminate|exact N]|].
        left. exists true, (lower_label (c :: l)). apply fo_endless_rest; [discriminate|exact N|exact S3].
      * rewrite EA in *. apply bytes_ok_app in B as [BA B]. apply bytes_ok_cons in B as [_ B]. destruct (IH r S2 B) as [(ok & l' & F)|T]; [left; exists ok, (lower_label a ++ 0 :: l'); apply fo_name; auto|right; apply te_name; auto].
    + destruct (fixed_field t n [] [] 0 S1 E) as [_ N]. destruct (Z_lt_le_dec (zlen (c :: l)) n) as [L|L]; [left; exists false, (c :: l); apply fo_fixed_short; auto; discriminate|].
      rewrite zlen_cons in L. destruct (SPLIT (n - 1) ltac:(lia)) as (o & r & -> & ZO). change (c :: o ++ r) with ((c :: o) ++ r) in *. apply bytes_ok_app in B as [_ B].
      destruct (IH r S2 B) as [(ok & l' & F)|T]; [left; exists ok, ((c :: o) ++ l'); apply fo_fixed; [rewrite zlen_cons; lia|discriminate|auto]|right; apply te_fixed; [rewrite zlen_cons; lia|discriminate|auto]].
    + destruct (Z_lt_le_dec (zlen l) c) as [L|L]; [left; exists false, (c :: l); apply fo_string_short; auto|]. destruct (SPLIT c ltac:(lia)) as (o & r & -> & <-). apply bytes_ok_app in BL as [_ BL].
      destruct (IH r S2 BL) as [(ok & l' & F)|T]; [left; exists ok, (zlen o :: o ++ l'); apply fo_string; auto|right; apply te_string; auto].
    + destruct (Z_lt_le_dec (zlen l) c) as [L|L]; [left; exists false, (c :: l); apply fo_prefix_bad; auto|]. destruct (Z_lt_le_dec 16 c) as [L'|L']; [left; exists false, (c :: l); apply fo_prefix_bad; auto|].
      destruct (SPLIT c ltac:(lia)) as (o & r & -> & <-). apply bytes_ok_app in BL as [_ BL].
      destruct (IH r S2 BL) as [(ok & l' & F)|T]; [left; exists ok, (zlen o :: o ++ l'); apply fo_prefix; auto|right; apply te_prefix; auto].
Qed.
Lemma fields_short : forall t c, In t rfc4034_types -> (length (fields_for t c) < 1000)%nat.
Proof.
  intros t c I. unfold fields_for, descr_for.
  assert (K : forallb (fun t => match lookup_descr t with Some d => Nat.ltb (length (d_types d)) 1000 | None => true end) rfc4034_types = true) by (vm_compute; reflexivity).
  rewrite forallb_forall in K. specialize (K t I). destruct (lookup_descr t) as [d|]; [|cbn [length]; lia]. destruct (_ || _); [apply Nat.ltb_lt; exact K|cbn [length]; lia].
Qed.
Lemma downcase_fields : forall t c m len, In t rfc4034_types -> 0 <= len -> downcase_rdata m len t c = dcase_fields (fields_for t c) [] m len.
Proof.
  intros t c m len I L. rewrite downcase_unfold. unfold dcase_descr. apply dcase_types_iff in I. rewrite I. unfold fields_for. destruct (descr_for t c); [reflexivity|].
  cbn [dcase_fields dcase_field bind]. destruct (len =? 0); reflexivity.
Qed.
