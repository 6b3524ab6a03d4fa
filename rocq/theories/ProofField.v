(** ProofField.v: the text of one field and of all fields. *)
From Coq Require Strings.String.
From Verif Require Import Base Lib SpecName SpecMessage SpecEncode SpecFormat SpecTables SpecText Libc ModelName ModelFormat ModelTables ModelDescr ModelToStr ModelParse
  ProofUnpack ProofCopy ProofNameStr ProofNameOps ProofFormat ProofInet ProofInet6 ProofB64 ProofB32 ProofTables ProofRdata ProofPrint ProofPrint2.

Definition pres_of (t : rdf) : pres :=
  match t with
  | rdf_name | rdf_uname => PName | rdf_bytes => PHex | rdf_bytes_b64 => PBase64 | rdf_bytes_str => PQuoted
  | rdf_ipv6prefix => PPrefix6 | rdf_salt => PSalt | rdf_hash => PHash
  | rdf_int8 | rdf_int16 | rdf_int32 => PDec | rdf_ipv4 => PIPv4 | rdf_ipv6 => PIPv6 | rdf_eui48 | rdf_eui64 => PEui
  | rdf_string => PString | rdf_repstring => PStrings | rdf_rrtype => PType | rdf_type_bitmap => PTypes
  | rdf_svcparams => PParams | rdf_edns_opt_rdata => PHex
  end.

(** A value of this field. *)
Definition value_ok (t : rdf) (v : fval) : Prop :=
  match v with
  | VName ls => fmt_of t = FName /\ valid_name ls
  | VOctets l => field_octets (fmt_of t) l /\ bytes_ok l /\ l <> [] /\
      (t = rdf_svcparams -> forall ps, l = concat (map param ps) -> Forall (fun kv => param_ok (fst kv) (snd kv)) ps -> Forall plain_param ps)
  end.

Definition unblanked (t : rdf) : bool := match t with rdf_bytes | rdf_bytes_b64 | rdf_eui48 | rdf_eui64 => true | _ => false end.
Definition field_out (t : rdf) (ts : list bytes) : bytes := if unblanked t then concat ts else sepd ts.

Definition prints (t : rdf) (v : fval) (ts : list bytes) : Prop :=
  forall rest n, bytes_ok rest -> zlen (canon1 v) <= n <= zlen (canon1 v ++ rest) -> n < 65536 -> (to_end (fmt_of t) = true -> n = zlen (canon1 v)) ->
  exists src', field_text t (canon1 v ++ rest) n = Ok (field_out t ts, TNext src' (n - zlen (canon1 v))) /\ (n <> zlen (canon1 v) -> src' = rest).

Lemma strings_text_spec : forall ss f, Forall (fun s => zlen s <= 255) ss -> bytes_ok (concat (map char_string ss)) -> (length ss < f)%nat -> forall rest,
  strings_text f (concat (map char_string ss) ++ rest) (zlen (concat (map char_string ss))) = Ok (sepd (map quoted ss), TNext rest 0).
Proof.
  induction ss as [|s ss IH]; intros f V B F rest; (destruct f as [|f]; [cbn in F; lia|]); [reflexivity|].
  inversion V; subst. cbn [map concat] in B |- *. apply bytes_ok_app in B as [B1 B2]. unfold char_string in B1. apply bytes_ok_cons in B1 as [_ B1].
  assert (ES : (char_string s ++ concat (map char_string ss)) ++ rest = [zlen s] ++ s ++ concat (map char_string ss) ++ rest).
  { unfold char_string at 1. cbn [app]. rewrite <- app_assoc. reflexivity. }
  rewrite ES. rewrite zlen_app, zlen_char_string. pose proof (zlen_nonneg _ s). pose proof (zlen_nonneg _ (concat (map char_string ss))).
  set (R := zlen (concat (map char_string ss))) in *. cbn [strings_text]. replace (zlen s + 1 + R >? 0) with true by lia.
  rewrite (adv_app [zlen s]) by reflexivity. cbn [app hd_rd bind]. replace (zlen s + 1 + R - 1 <? zlen s) with false by lia.
  rewrite to_str_string_spec by auto. cbn [bind]. rewrite adv_app by reflexivity. replace (zlen s + 1 + R - 1 - zlen s) with R by lia.
  unfold R. rewrite IH by (auto; cbn in F; lia). unfold emit. cbn [bind map]. reflexivity.
Qed.

Lemma fixed_value : forall n l, bytes_ok l -> zlen l = n -> 0 <= be_value l < 256 ^ n.
Proof.
  assert (G : forall l a, bytes_ok l -> 0 <= a -> a * 256 ^ zlen l <= fold_left (fun a b => a * 256 + b) l a < (a + 1) * 256 ^ zlen l).
  { induction l as [|b l IH]; intros a B A; [cbn; lia|]. apply bytes_ok_cons in B as [Hb B]. unfold is_byte in Hb. cbn [fold_left].
    rewrite zlen_cons, Z.pow_add_r by (try lia; apply zlen_nonneg). specialize (IH (a * 256 + b) B ltac:(lia)).
    assert (0 < 256 ^ zlen l) by (apply Z.pow_pos_nonneg; [lia|apply zlen_nonneg]). nia. }
  intros n l B <-. unfold be_value. specialize (G l 0 B ltac:(lia)). lia.
Qed.

Lemma int_text_spec : forall sz size l rest n, bytes_ok l -> zlen l = sz -> sz <= n -> 2 <= size <= 21 -> 256 ^ sz <= 10 ^ (size - 1) ->
  int_text sz size (l ++ rest) n = Ok (fmt_u (be_value l) ++ [32], TNext rest (n - sz)).
Proof.
  intros sz size l rest n B L N S P. unfold int_text. replace (n <? sz) with false by lia. rewrite take_rd_app by auto. cbn [bind].
  pose proof (fixed_value sz l B L). unfold be_value in *. rewrite u64_text_fmt by lia. cbn [bind]. rewrite adv_app by auto. reflexivity.
Qed.

Lemma zlen_hexw : forall l, l <> [] -> 1 <= zlen (A := Z) l.
Proof. intros [|a l] H; [congruence|]. rewrite zlen_cons. pose proof (zlen_nonneg _ l). lia. Qed.

Lemma prefix_octets : forall p, 0 <= p <= 128 -> (128 - p) / 8 + (if negb (p mod 8 =? 0) then 1 else 0) = (128 - p + 7) / 8.
Proof.
  intros p H. apply Z.eqb_eq. apply (forall_small 129 (fun p => (128 - p) / 8 + (if negb (p mod 8 =? 0) then 1 else 0) =? (128 - p + 7) / 8)); [vm_compute; reflexivity|lia].
Qed.

Lemma field_print : forall t v, t <> rdf_edns_opt_rdata -> value_ok t v -> exists ts, field_tokens (pres_of t) v ts /\ prints t v ts.
Proof.
  intros t v NE V. destruct v as [ls|l].
  { destruct V as [F V]. exists [pres_name ls].
    assert (G : forall rest n, bytes_ok rest -> zlen (wire ls) <= n <= zlen (wire ls ++ rest) -> n < 65536 ->
      len_uname (wire ls ++ rest) n = Ok (zlen (wire ls)) /\ domain_to_str (wire ls ++ rest) (zlen (wire ls)) = Ok (pres_name ls, zlen (wire ls))).
    { intros rest n B N S. split; [apply len_uname_wire; auto; lia|apply domain_to_str_wire; auto; lia]. }
    destruct t; try discriminate; (split; [constructor|]); intros rest n B N S _; exists rest; cbn [canon1] in *; destruct (G rest n B N S) as [G1 G2];
      cbn [field_text]; rewrite G1, G2; cbn [bind]; rewrite adv_app by reflexivity; unfold field_out, unblanked; rewrite sepd_one; split; auto. }
  destruct V as (FO & B & NN & PL). pose proof (zlen_hexw l NN) as P1. destruct t; cbn [fmt_of field_octets] in FO; try contradiction; try congruence; cbn [pres_of] in *.
  - (* bytes *) exists [hexs true l]. split; [constructor; apply hexs_text; auto|]. intros rest n _ N S E. cbn [canon1] in *. specialize (E eq_refl). subst n. exists rest.
    cbn [field_text]. rewrite Z.mod_small by lia. rewrite bytes_text_spec by auto. cbn [bind]. rewrite adv_app by reflexivity. rewrite Z.sub_diag.
    unfold field_out, unblanked. cbn [concat]. rewrite app_nil_r. auto.
  - (* b64 *) exists [base64 l]. split; [constructor|]. intros rest n _ N S E. cbn [canon1] in *. specialize (E eq_refl). subst n. exists (l ++ rest).
    cbn [field_text]. rewrite bytes_to_base64_spec by (auto; lia). cbn [bind]. rewrite Z.sub_diag. unfold field_out, unblanked. cbn [concat]. rewrite app_nil_r.
    split; [reflexivity|congruence].
  - (* bytes_str *) exists [quoted l]. split; [constructor|]. intros rest n _ N S E. cbn [canon1] in *. specialize (E eq_refl). subst n. exists rest.
    cbn [field_text]. rewrite Z.mod_small by lia. rewrite to_str_string_spec by auto. cbn [bind]. rewrite adv_app by reflexivity. rewrite Z.sub_diag.
    unfold field_out, unblanked. rewrite sepd_one. auto.
  - (* int8 *) exists [fmt_u (be_value l)]. pose proof (fixed_value 1 l B FO). split; [constructor; apply fmt_u_decimal; lia|].
    intros rest n _ N S _. exists rest. cbn [canon1 field_text] in *. rewrite int_text_spec by (auto; lia). rewrite FO. unfold field_out, unblanked. rewrite sepd_one. auto.
  - (* int16 *) exists [fmt_u (be_value l)]. pose proof (fixed_value 2 l B FO). split; [constructor; apply fmt_u_decimal; lia|].
    intros rest n _ N S _. exists rest. cbn [canon1 field_text] in *. rewrite int_text_spec by (auto; lia). rewrite FO. unfold field_out, unblanked. rewrite sepd_one. auto.
  - (* int32 *) exists [fmt_u (be_value l)]. pose proof (fixed_value 4 l B FO). split; [constructor; apply fmt_u_decimal; lia|].
    intros rest n _ N S _. exists rest. cbn [canon1 field_text] in *. rewrite int_text_spec by (auto; lia). rewrite FO. unfold field_out, unblanked. rewrite sepd_one. auto.
  - (* ipv4 *) exists [addr4 l]. destruct (addr4_spec l B FO) as [A1 A2]. split; [constructor; auto|].
    intros rest n _ N S _. exists rest. cbn [canon1 field_text] in *. replace (n <? 4) with false by lia. unfold pres4. rewrite A1 by lia. cbn [bind].
    rewrite adv_app by auto. rewrite FO. unfold field_out, unblanked. rewrite sepd_one. auto.
  - (* ipv6 *) exists [addr6 l]. destruct (addr6_spec l B FO) as (A1 & A2 & _). split; [constructor; auto|].
    intros rest n _ N S _. exists rest. cbn [canon1 field_text] in *. replace (n <? 16) with false by lia. unfold pres6. rewrite A1. cbn [bind].
    rewrite adv_app by auto. rewrite FO. unfold field_out, unblanked. rewrite sepd_one. auto.
  - (* prefix *) destruct FO as (p & a & Hp & La & ->). apply bytes_ok_cons in B as [Bp B]. 
    assert (LA : zlen a <= 16) by (rewrite La; apply Z.lt_succ_r, Z.div_lt_upper_bound; lia). pose proof (zlen_nonneg _ a).
    set (ad := repeat 0 (Z.to_nat (16 - zlen a)) ++ a).
    assert (Bad : bytes_ok ad) by (apply bytes_ok_app; split; auto; apply Forall_forall; intros x X; apply repeat_spec in X; subst; unfold is_byte; lia).
    assert (Lad : zlen ad = 16) by (unfold ad; rewrite zlen_app, zlen_repeat; lia). destruct (addr6_spec ad Bad Lad) as (A1 & A2 & _).
    assert (OC : (128 - p) / 8 + (if negb (p mod 8 =? 0) then 1 else 0) = zlen a).
    { rewrite La. apply prefix_octets. exact Hp. }
    exists (if p =? 128 then [lit "128"] else [fmt_u p; addr6 ad]). split.
    + destruct (Z.eqb_spec p 128) as [-> |Np]; [change ((128 - 128 + 7) / 8) with 0 in La; apply zlen_zero in La; subst a; constructor|constructor; auto; [lia|apply fmt_u_decimal; lia]].
    + intros rest n _ N S _. exists rest. cbn [canon1 app] in *. rewrite !zlen_cons in *. cbn [field_text hd_rd bind].
      replace (n <? 1) with false by lia. replace (p >? 128) with false by lia. change (adv (p :: a ++ rest) 1) with (a ++ rest). cbv zeta. rewrite OC.
      replace (n <? 1 + zlen a) with false by lia. rewrite take_rd_app by reflexivity. cbn [bind].
      assert (BL : blit (repeat 0 16) (16 - zlen a) a = Ok ad).
      { unfold ad. replace (repeat 0 16) with (repeat 0 (Z.to_nat (16 - zlen a)) ++ repeat 0 (Z.to_nat (zlen a)) ++ []).
        - rewrite blit_ok; [rewrite app_nil_r; reflexivity|rewrite zlen_repeat; lia|rewrite zlen_repeat; lia].
        - rewrite app_nil_r, <- repeat_plus. f_equal. lia. }
      rewrite BL. cbn [bind]. destruct (Z.eqb_spec p 128) as [-> |Np].
      * change ((128 - 128 + 7) / 8) with 0 in La. replace (zlen a >? 0) with false by lia. cbn [bind]. rewrite adv_app by lia. rewrite app_nil_r.
        unfold field_out, unblanked. rewrite sepd_one. split; [|auto]. f_equal.
      * assert (1 <= zlen a) by (rewrite La; apply Z.div_le_lower_bound; lia). replace (zlen a >? 0) with true by lia. unfold pres6. rewrite <- (app_nil_r ad). rewrite A1. cbn [bind].
        rewrite adv_app by reflexivity. unfold field_out, unblanked, sepd. cbn [map concat]. rewrite !app_nil_r. split; [|auto]. f_equal. rewrite <- app_assoc. reflexivity.
  - (* eui48 *) exists [join_by 45 (map (hex2 false) l)]. split; [constructor; clear - B; induction l; constructor; apply bytes_ok_cons in B as [? ?]; auto; apply hex2_spec; auto|].
    intros rest n _ N S _. exists rest. cbn [canon1 field_text] in *. replace (n <? 6) with false by lia. replace 6%nat with (length l) by (unfold zlen in FO; lia).
    rewrite eui_text_spec by auto. cbn [bind app]. rewrite adv_app by auto. rewrite FO. unfold field_out, unblanked. cbn [concat]. rewrite app_nil_r. auto.
  - (* eui64 *) exists [join_by 45 (map (hex2 false) l)]. split; [constructor; clear - B; induction l; constructor; apply bytes_ok_cons in B as [? ?]; auto; apply hex2_spec; auto|].
    intros rest n _ N S _. exists rest. cbn [canon1 field_text] in *. replace (n <? 8) with false by lia. replace 8%nat with (length l) by (unfold zlen in FO; lia).
    rewrite eui_text_spec by auto. cbn [bind app]. rewrite adv_app by auto. rewrite FO. unfold field_out, unblanked. cbn [concat]. rewrite app_nil_r. auto.
  - (* string *) destruct FO as (s & L & ->). exists [quoted s]. split; [constructor|]. intros rest n _ N S _. exists rest. cbn [canon1] in *. unfold char_string in *. cbn [app] in *.
    rewrite !zlen_cons in *. pose proof (zlen_nonneg _ s). apply bytes_ok_cons in B as [_ B]. cbn [field_text hd_rd bind]. replace (n <? 1) with false by lia. change (adv (zlen s :: s ++ rest) 1) with (s ++ rest). cbv zeta.
    replace (n - 1 <? zlen s) with false by lia. rewrite to_str_string_spec by auto. cbn [bind]. rewrite adv_app by reflexivity.
    unfold field_out, unblanked. rewrite sepd_one. split; [|auto]. f_equal. f_equal. f_equal. lia.
  - (* repstring *) destruct FO as (ss & L & ->). exists (map quoted ss). split; [constructor|]. intros rest n _ N S E. cbn [canon1] in *. specialize (E eq_refl). subst n. exists rest.
    cbn [field_text]. rewrite strings_text_spec; auto; [|rewrite app_length; pose proof (length_strings ss); lia]. rewrite Z.sub_diag. split; auto.
  - (* rrtype *) pose proof (fixed_value 2 l B FO) as FV. destruct l as [|a [|b [|]]]; try (unfold zlen in FO; cbn [length] in FO; lia).
    exists [tname (be_value [a; b])]. split; [constructor; apply tname_text; lia|]. intros rest n _ N S _. exists rest. cbn [canon1 field_text] in *. change (zlen [a; b]) with 2 in *.
    replace (n <? 2) with false by lia. rewrite (take_rd_app [a; b]) by reflexivity. cbn [bind nth]. rewrite (adv_app [a; b]) by reflexivity. rewrite rrtype_text_tname.
    unfold field_out, unblanked. rewrite sepd_one. auto.
  - (* bitmap *) destruct FO as (ws & L & ->). exists (map tname (bitmap_types ws)). split.
    + constructor.
      assert (TB : Forall (fun t => 0 <= t < 65536) (bitmap_types ws)).
      { clear - B L. induction ws as [|[w l] ws IH]; [constructor|]. inversion L; subst. cbn [map concat] in B. apply bytes_ok_app in B as [B1 B2]. unfold bitmap_types. cbn [map concat].
        apply Forall_app. split; [|apply IH; auto]. unfold window, window_types in *. cbn [fst snd] in *. apply bytes_ok_cons in B1 as [Bw _]. unfold is_byte in Bw.
        assert (G : forall l base, 0 <= base -> base + 8 * zlen l <= 65536 -> Forall (fun t => 0 <= t < 65536) (map_types base l)).
        { clear. induction l as [|a l IH]; intros base H1 H2; [constructor|]. rewrite zlen_cons in H2. pose proof (zlen_nonneg _ l). cbn [map_types]. apply Forall_app. split; [|apply IH; lia].
          unfold octet_types. apply Forall_forall. intros x X. apply in_map_iff in X as (j & <- & J). apply filter_In in J as [J _]. cbn [In] in J. lia. }
        apply G; lia. }
      clear - TB. induction TB; constructor; auto. apply tname_text; auto.
    + intros rest n _ N S E. cbn [canon1] in *. specialize (E eq_refl). subst n. exists rest. cbn [field_text].
      assert (W2 : 2 <= zlen (concat (map window ws))). { destruct ws as [|[w0 l0] ws]; [contradiction NN; reflexivity|]. inversion L; subst. cbn [map concat]. rewrite zlen_app, zlen_window. pose proof (zlen_nonneg _ (concat (map window ws))). cbn [snd] in *. lia. }
      replace (zlen (concat (map window ws)) <? 2) with false by lia.
      rewrite windows_text_spec; auto; [rewrite Z.sub_diag; split; auto|]. rewrite app_length.
      assert (length ws <= length (concat (map window ws)))%nat. { clear. induction ws as [|w ws IH]; [cbn; lia|]. cbn [map concat]. rewrite app_length. cbn [window length]. lia. } lia.
  - (* salt *) destruct FO as (s & L & ->). apply bytes_ok_cons in B as [_ B]. pose proof (zlen_nonneg _ s).
    exists [if zlen s =? 0 then lit "-" else hexs false s]. split.
    + destruct s as [|a s]; [constructor|]. replace (zlen (a :: s) =? 0) with false by (rewrite zlen_cons; pose proof (zlen_nonneg _ s); lia). constructor; [discriminate|apply hexs_text; auto].
    + intros rest n _ N S _. exists rest. cbn [canon1] in *. unfold char_string in *. cbn [app] in *. rewrite !zlen_cons in *. cbn [field_text hd_rd bind]. replace (n <? 1) with false by lia. change (adv (zlen s :: s ++ rest) 1) with (s ++ rest). cbv zeta.
      replace (n <? 1 + zlen s) with false by lia. rewrite zlen_to_nat, salt_hex_spec by auto. cbn [bind]. rewrite adv_app by reflexivity.
      unfold field_out, unblanked. rewrite sepd_one. split; [|auto]. f_equal. f_equal.
      destruct s as [|a s]; [reflexivity|]. replace (zlen (a :: s) =? 0) with false by (rewrite zlen_cons; pose proof (zlen_nonneg _ s); lia). reflexivity.
  - (* hash *) destruct FO as (s & L & ->). apply bytes_ok_cons in B as [_ B]. pose proof (zlen_nonneg _ s).
    exists [if zlen s =? 0 then lit "0" else base32hex s]. split.
    + destruct s as [|a s]; [constructor|]. replace (zlen (a :: s) =? 0) with false by (rewrite zlen_cons; pose proof (zlen_nonneg _ s); lia). constructor; discriminate.
    + intros rest n _ N S _. exists rest. cbn [canon1] in *. unfold char_string in *. cbn [app] in *. rewrite !zlen_cons in *. cbn [field_text hd_rd bind]. replace (n <? 1) with false by lia. change (adv (zlen s :: s ++ rest) 1) with (s ++ rest). cbv zeta.
      replace (n <? 1 + zlen s) with false by lia. unfold field_out, unblanked. rewrite sepd_one. destruct (Z.eqb_spec (zlen s) 0) as [Z0|Z0].
      * apply zlen_zero in Z0. subst s. split; auto.
      * rewrite take_rd_app by reflexivity. cbn [bind]. rewrite base32_encode_spec; auto; [|intros ->; apply Z0; reflexivity|lia]. cbn [bind]. rewrite adv_app by reflexivity. auto.
  - (* svcparams *) destruct FO as (ps & L & ->).
    destruct (svcparams_text_spec ps L) as (ts & T1 & T2); auto.
    + apply PL; auto. eapply Forall_impl; [|exact L]. cbn beta. tauto.
    + exists ts. split; [constructor; auto|]. intros rest n _ N S E. cbn [canon1] in *. specialize (E eq_refl). subst n. exists rest. cbn [field_text].
      rewrite T2, Z.sub_diag; [split; auto|]. rewrite app_length.
      clear. induction ps as [|p ps IH]; [cbn; lia|]. cbn [map concat]. rewrite app_length. unfold param at 1. rewrite !app_length. cbn [u16 length] in *. lia.
Qed.
