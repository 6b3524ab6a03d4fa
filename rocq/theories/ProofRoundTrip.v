(** ProofRoundTrip.v: reading back the text of rdata. *)
From Coq Require Strings.String.
From Verif Require Import Base Lib SpecName SpecMessage SpecEncode SpecFormat SpecTables SpecText Libc ModelName ModelFormat ModelTables ModelDescr ModelFromStr ModelParse
  ProofUnpack ProofCopy ProofNameStr ProofStrName ProofNameMore ProofFormat ProofInet ProofInet6 ProofB64 ProofB32 ProofTables ProofRdata ProofPrint ProofPrint2 ProofField ProofVisible ProofRdataText ProofEncode ProofFromStr ProofBitmap ProofSvc.

(** ** Unique decoding *)
Lemma u16_inj : forall a b, u16 a = u16 b -> a = b.
Proof. intros a b H. unfold u16 in H. injection H as H1 H2. rewrite (Z.div_mod a 256), (Z.div_mod b 256) by lia. lia. Qed.
Lemma app_zlen_inj : forall (a b c d : bytes), zlen a = zlen c -> a ++ b = c ++ d -> a = c /\ b = d.
Proof.
  induction a as [|x a IH]; intros b [|y c] d L E; rewrite ?zlen_cons in L; try (pose proof (zlen_nonneg _ a); change (zlen (@nil Z)) with 0 in L; lia); try (pose proof (zlen_nonneg _ c); change (zlen (@nil Z)) with 0 in L; lia); auto.
  cbn [app] in E. injection E as -> E. destruct (IH b c d ltac:(lia) E) as [-> ->]. auto.
Qed.
Lemma params_unique : forall ps qs, concat (map param ps) = concat (map param qs) -> ps = qs.
Proof.
  induction ps as [|[k v] ps IH]; intros [|[j w] qs] H; auto; try discriminate.
  cbn [map concat] in H. unfold param in H at 1 3. cbn [fst snd] in H. rewrite <- !app_assoc in H.
  destruct (app_zlen_inj (u16 k) _ (u16 j) _ ltac:(reflexivity) H) as [K H1]. apply u16_inj in K. subst j.
  destruct (app_zlen_inj (u16 (zlen v)) _ (u16 (zlen w)) _ ltac:(reflexivity) H1) as [L H2]. apply u16_inj in L.
  destruct (app_zlen_inj v _ w _ L H2) as [-> H3]. f_equal. auto.
Qed.
Lemma windows_unique : forall ps qs, concat (map window ps) = concat (map window qs) -> ps = qs.
Proof.
  induction ps as [|[k v] ps IH]; intros [|[j w] qs] H; auto; try discriminate.
  cbn [map concat] in H. unfold window in H at 1 3. cbn [fst snd app] in H. injection H as -> L H. destruct (app_zlen_inj v _ w _ L H) as [-> H3]. f_equal. auto.
Qed.
Lemma strings_bound : forall ss, bytes_ok (concat (map char_string ss)) -> Forall (fun s => bytes_ok s /\ zlen s <= 255) ss.
Proof.
  induction ss as [|s ss IH]; intros B; [constructor|]. cbn [map concat] in B. apply bytes_ok_app in B as [B1 B2]. constructor; auto. unfold char_string in B1. apply bytes_ok_cons in B1 as [H1 H2]. unfold is_byte in H1. split; [auto|lia].
Qed.
Lemma params_bound : forall ps, bytes_ok (concat (map param ps)) -> Forall (fun kv => bytes_ok (snd kv) /\ zlen (snd kv) < 65536) ps.
Proof.
  induction ps as [|[k v] ps IH]; intros B; [constructor|]. cbn [map concat] in B. apply bytes_ok_app in B as [B1 B2]. constructor; auto. unfold param in B1. apply bytes_ok_app in B1 as [_ B1]. apply bytes_ok_app in B1 as [B0 B1]. cbn [snd] in *.
  split; [auto|]. unfold u16 in B0. apply bytes_ok_cons in B0 as [H1 B0]. unfold is_byte in H1.
  destruct (Z.lt_ge_cases (zlen v) 65536) as [|G]; auto. apply (Z.div_le_mono _ _ 256) in G; [|lia]. change (65536 / 256) with 256 in G. lia.
Qed.

(** ** Names never look like addresses: they end in a dot *)
Lemma pton4_dot : forall p done cur, pton4_loop (p ++ [46]) done cur = None.
Proof.
  induction p as [|c p IH]; intros done cur.
  - cbn [app pton4_loop]. change (is_digit 46) with false. cbv iota. destruct cur; [|reflexivity]. change (46 =? 46) with true. cbv iota. destruct (zlen done >=? 3); reflexivity.
  - cbn [app pton4_loop]. destruct (is_digit c), cur; repeat match goal with |- context [if ?b then _ else _] => destruct b end; auto.
Qed.
Lemma pton6_loop_dot : forall p tmp colonp q nx val, pton6_loop (p ++ [46]) tmp colonp (q ++ p ++ [46]) nx val = None.
Proof.
  induction p as [|c p IH]; intros tmp colonp q nx val.
  - cbn [app pton6_loop]. change (isxdigit 46) with false. change (46 =? 58) with false. change (46 =? 46) with true. cbv iota. cbn [andb]. unfold inet_pton4. rewrite pton4_dot. destruct (zlen tmp + 4 <=? 16); reflexivity.
  - cbn [app pton6_loop]. assert (E : q ++ c :: p ++ [46] = (q ++ [c]) ++ p ++ [46]) by (rewrite <- app_assoc; reflexivity).
    destruct (isxdigit c); [destruct (nx =? 4); [reflexivity|rewrite E; apply IH]|].
    destruct (c =? 58).
    + destruct (nx =? 0); [destruct colonp; [reflexivity|apply (IH _ _ [])]|]. replace (match p ++ [46] with [] => true | _ => false end) with false by (destruct p; reflexivity). destruct (zlen tmp + 2 >? 16); [reflexivity|apply (IH _ _ [])].
    + destruct ((c =? 46) && (zlen tmp + 4 <=? 16)); [|reflexivity]. unfold inet_pton4. rewrite E, app_assoc, pton4_dot. reflexivity.
Qed.
Lemma inet_pton6_dot : forall p, inet_pton6 (p ++ [46]) = None.
Proof.
  intros p. unfold inet_pton6. destruct p as [|c p]; [reflexivity|]. cbn [app]. destruct (c =? 58).
  - destruct p as [|d p]; [reflexivity|]. cbn [app]. destruct (d =? 58); [|reflexivity]. change (d :: p ++ [46]) with ((d :: p) ++ [46]). pose proof (pton6_loop_dot (d :: p) [] None [] 0 0) as K. cbn [app] in K |- *. rewrite K. reflexivity.
  - change (c :: p ++ [46]) with ((c :: p) ++ [46]). pose proof (pton6_loop_dot (c :: p) [] None [] 0 0) as K. cbn [app] in K |- *. rewrite K. reflexivity.
Qed.

(** ** Fields *)
Definition last_field (t : rdf) : bool := to_end (fmt_of t) || unblanked t.

(** What is left for the following fields: the same text, white space apart. *)
Definition left_over (rest : bytes) (e : option bytes) : Prop :=
  match rest with [] => e = None \/ e = Some [] | _ => exists e', e = Some e' /\ skip_space e' = skip_space rest end.
Lemma left_same : forall rest, left_over rest (Some rest).
Proof. intros [|c r]; cbn [left_over]; eauto. Qed.
Lemma left_end : forall rest, left_over rest (end_or_null rest).
Proof. intros [|c r]; cbn [left_over end_or_null]; eauto. Qed.

Lemma strings_read : forall ss f s, Forall (fun s => bytes_ok s /\ zlen s <= 255) ss -> (s = join_by 32 (map quoted ss) \/ s = 32 :: join_by 32 (map quoted ss)) -> (length s < f)%nat ->
  strings_parse f s = Ok (concat (map char_string ss)).
Proof.
  induction ss as [|x ss IH]; intros f s F S L.
  - destruct f as [|f]; [lia|]. destruct S as [-> | ->]; [reflexivity|]. destruct f as [|f]; [cbn in L; lia|]. reflexivity.
  - inversion F as [|? ? [B1 L1] F2]; subst.
    assert (MAIN : forall f, (length (join_by 32 (map quoted (x :: ss))) < f)%nat -> strings_parse f (join_by 32 (map quoted (x :: ss))) = Ok (concat (map char_string (x :: ss)))).
    { clear f s S L. intros f L. destruct f as [|f]; [lia|]. cbn [map] in *. set (rest := match map quoted ss with [] => [] | _ => 32 :: join_by 32 (map quoted ss) end).
      assert (E : join_by 32 (quoted x :: map quoted ss) = quoted x ++ rest) by (unfold rest; destruct ss; [cbn [map join_by]; rewrite app_nil_r; reflexivity|apply join_cons; discriminate]).
      rewrite E in *. rewrite app_length in L. assert (R : forall f', (length rest < f')%nat -> strings_parse f' rest = Ok (concat (map char_string ss))).
      { intros f' L'. apply IH; auto. unfold rest. destruct ss; [left; reflexivity|right; reflexivity]. }
      pose proof (str_to_cs_quoted x rest B1 L1) as Q. remember (quoted x) as qx eqn:EQ. unfold quoted in EQ. destruct qx as [|c qx]; [discriminate|]. injection EQ as -> _. cbn [app strings_parse] in *.
      change (isspace 34) with false. cbv iota. rewrite Q. cbn [bind]. rewrite R by (cbn [length] in L; lia). reflexivity. }
    destruct S as [-> | ->]; [apply MAIN; auto|]. destruct f as [|f]; [lia|]. cbn [strings_parse]. change (isspace 32) with true. cbv iota. apply MAIN. cbn [length] in L. lia.
Qed.

Lemma types_read : forall ns ts f s, Forall2 type_text ns ts -> Forall (fun n => 0 <= n < 65536) ns -> (s = join_by 32 ts \/ s = 32 :: join_by 32 ts) -> (length s < f)%nat ->
  bitmap_toks f s = Ok ns.
Proof.
  intros ns ts f s F. revert f s. induction F as [|n t ns ts T F IH]; intros f s B S L.
  - destruct f as [|f]; [lia|]. destruct S as [-> | ->]; [reflexivity|]. destruct f as [|f]; [cbn in L; lia|]. reflexivity.
  - inversion B; subst.
    assert (MAIN : forall f, (length (join_by 32 (t :: ts)) < f)%nat -> bitmap_toks f (join_by 32 (t :: ts)) = Ok (n :: ns)).
    { clear f s S L. intros f L. destruct f as [|f]; [lia|]. set (rest := match ts with [] => [] | _ => 32 :: join_by 32 ts end).
      assert (E : join_by 32 (t :: ts) = t ++ rest) by (unfold rest; destruct ts; [cbn [join_by]; rewrite app_nil_r; reflexivity|apply join_cons; discriminate]).
      assert (SR : sep rest) by (unfold rest; destruct ts; [left; auto|right; eauto]).
      rewrite E in *. rewrite app_length in L. assert (R : forall f', (length rest < f')%nat -> bitmap_toks f' rest = Ok ns).
      { intros f' L'. apply IH; auto. unfold rest. destruct ts; [left; reflexivity|right; reflexivity]. }
      pose proof (type_text_visible _ _ T) as [V N]. destruct (type_text_parse n t ltac:(auto) T) as [P P0]. pose proof (token_visible t rest V SR) as TK.
      destruct t as [|c t]; [congruence|]. apply visible_cons in V as [V0 V]. cbn [app bitmap_toks length] in *. replace (isspace c) with false by (unfold isspace; lia). rewrite TK, P.
      replace ((n =? 0) && negb (strcasecmp (c :: t) (lit "TYPE0") =? 0)) with false.
      - rewrite R by lia. reflexivity.
      - destruct (Z.eqb_spec n 0) as [Z0|]; [|reflexivity]. rewrite (P0 Z0). vm_compute. reflexivity. }
    destruct S as [-> | ->]; [apply MAIN; auto|]. destruct f as [|f]; [lia|]. cbn [bitmap_toks]. change (isspace 32) with true. cbv iota. apply MAIN. cbn [length] in L. lia.
Qed.

Lemma base32_length_ge : forall n l, (length l <= n)%nat -> zlen l <= zlen (base32hex l).
Proof.
  induction n as [|n IH]; intros l L; [destruct l; [cbn; lia|cbn in L; lia]|]. destruct l as [|a [|b [|c [|d [|e r]]]]]; try (cbn; lia). cbn [base32hex map app]. rewrite !zlen_cons. specialize (IH r ltac:(cbn [length] in L; lia)). lia.
Qed.

Lemma take_rd_all : forall l, take_rd l (zlen l) = Ok l.
Proof. intros l. rewrite <- (app_nil_r l) at 1. apply take_rd_app. reflexivity. Qed.
Lemma quoted_len : forall l, l <> [] -> 3 <= zlen (quoted l).
Proof.
  intros [|c l] N; [congruence|]. unfold quoted. rewrite !zlen_app. cbn [map concat]. rewrite zlen_app. pose proof (zlen_nonneg _ (concat (map quote_octet l))). change (zlen [34]) with 1.
  assert (1 <= zlen (quote_octet c)) by (unfold quote_octet; destruct ((c =? 34) || (c =? 92)); [cbn; lia|]; destruct ((32 <=? c) && (c <=? 126)); cbn; lia). lia.
Qed.
Lemma octets_prefix : forall a n, 0 <= n <= 16 -> zlen a = n -> rds (repeat 0 (Z.to_nat (16 - n)) ++ a) (16 - n) n = Ok a.
Proof.
  intros a n R L. apply rds_ok. split; [|auto]. exists (repeat 0 (Z.to_nat (16 - n))), []. split; [rewrite app_nil_r; reflexivity|rewrite zlen_repeat; lia].
Qed.
Definition prefix_second (p : Z) (s : bytes) : outcome (bytes * option bytes) :=
  let '(t, e) := token s in
  let oclen := (128 - p) / 8 + (if negb (p mod 8 =? 0) then 1 else 0) in
  match inet_pton6 t with
  | Some a => o <- rds a (16 - oclen) oclen ;;
    match end_or_null e with Some e' => if p =? 0 then match skip_space e' with [] => Ok (p :: o, None) | _ => Err res_parse_error end else Ok (p :: o, Some e') | None => Ok (p :: o, None) end
  | None => if negb (p =? 128) then Err res_parse_error else Ok ([p], Some s)
  end.
Lemma prefix_first : forall p s rest, 0 <= p <= 128 -> decimal p s -> skip_space rest <> [] -> sep rest -> prefix_field (s ++ rest) = prefix_second p (skip_space rest).
Proof.
  intros p s rest R D NS S. unfold prefix_field. pose proof (decimal_visible _ _ D) as [V _]. rewrite token_visible by auto. pose proof D as (F & _). rewrite digits_forallb by auto. cbn [negb].
  rewrite (scan_u_decimal p s rest) by (auto; try lia; apply sep_no_digit; auto). rewrite Z.mod_small by lia. replace (p >? 128) with false by lia. cbv zeta. destruct (skip_space rest); [congruence|reflexivity].
Qed.

Lemma field_parse : forall t v tk rest, t <> rdf_edns_opt_rdata -> field_tokens (pres_of t) v tk ->
  (match v with VName ls => valid_name ls | VOctets l => field_octets (fmt_of t) l /\ bytes_ok l /\ l <> [] end) ->
  (forall next, pres_of t <> PPrefix6 -> readable (pres_of t) v next) ->
  (pres_of t = PPrefix6 -> forall a, canon1 v = 128 :: a -> exists ls, valid_name ls /\ rest = 32 :: pres_name ls) ->
  (pres_of t = PPrefix6 -> forall a, canon1 v = 0 :: a -> rest = []) ->
  sep rest -> (last_field t = true -> rest = []) ->
  exists e, parse_text_field t (join_by 32 tk ++ rest) = Ok (canon1 v, e) /\ (left_over rest e \/ last_field t = true).
Proof.
  intros t v tk rest NE FT V RD R128 R0 S LF.
  assert (LR : to_end (fmt_of t) = true \/ unblanked t = true -> rest = []) by (intros H; apply LF; unfold last_field; destruct H as [-> | ->]; rewrite ?orb_true_r; reflexivity).
  assert (NM : forall ls, valid_name ls -> exists e, parse_text_field rdf_name (pres_name ls ++ rest) = Ok (wire ls, e) /\ left_over rest e).
  { intros ls VN. cbn [parse_text_field]. destruct (pres_name_visible ls (proj1 VN)) as (VV & _). rewrite token_visible by auto. rewrite roundtrip_case by auto. cbn [bind]. rewrite take_rd_all. cbn [bind]. eexists. split; [reflexivity|]. apply left_end. }
  destruct t; cbn [pres_of] in *; try congruence.
  - (* bytes *) inversion FT; subst. destruct V as (_ & B & N). rewrite (LR ltac:(auto)) in *. cbn [join_by canon1 parse_text_field]. rewrite app_nil_r. rewrite (hex_pairs_text true l) by (auto; lia). cbn [bind]. eexists. split; [reflexivity|]. left. right; reflexivity.
  - (* b64 *) inversion FT; subst. destruct V as (_ & B & N). rewrite (LR ltac:(auto)) in *. cbn [join_by canon1 parse_text_field]. rewrite app_nil_r. rewrite base64_roundtrip by auto. cbn [bind].
    pose proof (base64_len _ l (le_n _)). unfold skip. replace (zlen (base64 l) <? zlen l) with false by (destruct (zlen l =? 0); lia). cbn [bind]. eexists. split; [reflexivity|]. right. reflexivity.
  - (* bytes_str *) inversion FT; subst. destruct V as (_ & B & N). rewrite (LR ltac:(auto)) in *. cbn [join_by canon1 parse_text_field]. rewrite app_nil_r. pose proof (quoted_len l N).
    replace ((zlen (quoted l) >=? 3) && (nth 0 (quoted l) 0 =? 34) && (last (quoted l) 0 =? 34)) with true.
    + pose proof (from_str_quoted l [] B) as Q. rewrite app_nil_r in Q. rewrite Q. eexists. split; [reflexivity|]. left. right; reflexivity.
    + unfold quoted at 3. rewrite app_assoc, last_snoc. change (nth 0 (quoted l) 0) with 34. lia.
  - (* name *) inversion FT; subst. cbn [join_by canon1]. destruct (NM ls V) as (e & E & L). eauto.
  - (* uname *) inversion FT; subst. cbn [join_by canon1]. destruct (NM ls V) as (e & E & L). eauto.
  - (* int8 *) inversion FT; subst. destruct V as (L & B & N). cbn [join_by canon1 parse_text_field fmt_of field_octets] in *. rewrite (int_parse 1 l) by (auto; try lia; unfold zlen in L; lia). eexists. split; [reflexivity|]. left. apply left_same.
  - (* int16 *) inversion FT; subst. destruct V as (L & B & N). cbn [join_by canon1 parse_text_field fmt_of field_octets] in *. rewrite (int_parse 2 l) by (auto; try lia; unfold zlen in L; lia). eexists. split; [reflexivity|]. left. apply left_same.
  - (* int32 *) inversion FT; subst. destruct V as (L & B & N). cbn [join_by canon1 parse_text_field fmt_of field_octets] in *. rewrite (int_parse 4 l) by (auto; try lia; unfold zlen in L; lia). eexists. split; [reflexivity|]. left. apply left_same.
  - (* ipv4 *) inversion FT as [| | | | | | | | | | | ? ? T| | | | | | |]; subst. destruct V as (L & B & N). cbn [join_by canon1 parse_text_field]. rewrite token_visible by (auto; eapply ipv4_visible; eauto). rewrite (inet_pton4_text a s) by auto. eexists. split; [reflexivity|]. left. apply left_same.
  - (* ipv6 *) inversion FT as [| | | | | | | | | | | | ? ? T| | | | | |]; subst. destruct V as (L & B & N). cbn [join_by canon1 parse_text_field]. rewrite token_visible by (auto; eapply ipv6_visible; eauto). rewrite (inet_pton6_text a s) by auto. eexists. split; [reflexivity|]. left. apply left_end.
  - (* ipv6prefix *) inversion FT as [| | | | |EV|p a s u P D T EV| | | | | | | | | | | |]; subst v tk.
    + destruct (R128 eq_refl [] eq_refl) as (ls & VN & ->). destruct (pres_name_visible ls (proj1 VN)) as (VV & NN & p & EP). cbn [join_by canon1 parse_text_field].
      assert (SK : skip_space (32 :: pres_name ls) = pres_name ls).
      { destruct (pres_name ls) as [|c r]; [congruence|]. apply visible_cons in VV as [V0 _]. cbn [skip_space]. change (isspace 32) with true. cbv iota. replace (isspace c) with false by (unfold isspace; lia). reflexivity. }
      change (lit "128") with (fmt_u 128). rewrite (prefix_first 128 (fmt_u 128) (32 :: pres_name ls) ltac:(lia) (fmt_u_decimal 128 ltac:(lia)) ltac:(rewrite SK; exact NN) ltac:(right; eauto)).
      rewrite SK. unfold prefix_second. rewrite <- (app_nil_r (pres_name ls)). rewrite token_visible by (auto; left; auto). rewrite app_nil_r. rewrite EP, inet_pton6_dot. eexists. split; [reflexivity|]. left. exists (p ++ [46]). split; [reflexivity|]. rewrite <- EP. rewrite SK.
      destruct (pres_name ls) as [|c r]; [congruence|]. apply visible_cons in VV as [V0 _]. cbn [skip_space]. replace (isspace c) with false by (unfold isspace; lia). reflexivity.
    + destruct V as ((p' & a' & HP & LA & E) & B & N). injection E as <- <-. apply bytes_ok_cons in B as [Bp B]. pose proof (ipv6_visible _ _ T) as [VU NU].
      cbn [join_by canon1 parse_text_field]. rewrite <- app_assoc. cbn [app].
      assert (SK : skip_space (32 :: u ++ rest) = u ++ rest).
      { destruct u as [|c r]; [congruence|]. apply visible_cons in VU as [V0 _]. cbn [app skip_space]. change (isspace 32) with true. cbv iota. replace (isspace c) with false by (unfold isspace; lia). reflexivity. }
      rewrite (prefix_first p s (32 :: u ++ rest) ltac:(lia) D ltac:(rewrite SK; destruct u; [congruence|discriminate]) ltac:(right; eauto)).
      rewrite SK. unfold prefix_second. rewrite token_visible by auto. cbv zeta. rewrite prefix_octets by lia. rewrite <- LA. pose proof (zlen_nonneg _ a). assert (zlen a <= 16) by (rewrite LA; apply Z.lt_succ_r, Z.div_lt_upper_bound; lia).
      rewrite (inet_pton6_text _ u T) by (apply bytes_ok_app; split; auto; apply Forall_forall; intros x X; apply repeat_spec in X; subst; unfold is_byte; lia).
      rewrite octets_prefix by (auto; lia). cbn [bind]. destruct rest as [|c r]; [cbn [end_or_null]; eexists; split; [reflexivity|]; left; left; reflexivity|]. cbn [end_or_null].
      destruct (Z.eqb_spec p 0) as [-> |]; [specialize (R0 eq_refl a eq_refl); discriminate|]. eexists. split; [reflexivity|]. left. eapply left_same.
  - (* eui48 *) inversion FT as [| | | | | | | | | | | | |? ? T| | | | |]; subst. destruct V as (L & B & N). rewrite (LR ltac:(auto)) in *. cbn [join_by canon1 parse_text_field fmt_of field_octets] in *. rewrite app_nil_r. destruct (eui_text_parse l hs T N) as (E1 & E2 & E3).
    unfold eui_field. replace 6%nat with (length l) by (unfold zlen in L; lia). rewrite E3. replace (Z.of_nat (length l)) with (zlen l) by reflexivity. rewrite Z.eqb_refl. cbn [negb]. rewrite E1. cbn [bind negb]. rewrite E2. eexists. split; [reflexivity|]. right. reflexivity.
  - (* eui64 *) inversion FT as [| | | | | | | | | | | | |? ? T| | | | |]; subst. destruct V as (L & B & N). rewrite (LR ltac:(auto)) in *. cbn [join_by canon1 parse_text_field fmt_of field_octets] in *. rewrite app_nil_r. destruct (eui_text_parse l hs T N) as (E1 & E2 & E3).
    unfold eui_field. replace 8%nat with (length l) by (unfold zlen in L; lia). rewrite E3. replace (Z.of_nat (length l)) with (zlen l) by reflexivity. rewrite Z.eqb_refl. cbn [negb]. rewrite E1. cbn [bind negb]. rewrite E2. eexists. split; [reflexivity|]. right. reflexivity.
  - (* string *) inversion FT; subst. destruct V as (_ & B & N). unfold char_string in B. apply bytes_ok_cons in B as [BL B]. unfold is_byte in BL. cbn [join_by canon1 parse_text_field]. rewrite str_to_cs_quoted by (auto; lia). cbn [bind]. eexists. split; [reflexivity|]. left. apply left_same.
  - (* repstring *) inversion FT; subst. destruct V as (_ & B & N). rewrite (LR ltac:(auto)) in *. cbn [canon1 parse_text_field]. rewrite app_nil_r. rewrite (strings_read ss) by (auto using strings_bound; lia). cbn [bind]. eexists. split; [reflexivity|]. right. reflexivity.
  - (* rrtype *) inversion FT as [| | | | | | | | | | | | | | | |? ? T| |]; subst. destruct V as (L & B & N). specialize (RD [] ltac:(discriminate)). cbn [readable fmt_of field_octets] in *. pose proof (fixed_value 2 l B L) as FV. change (256 ^ 2) with 65536 in FV.
    cbn [join_by canon1 parse_text_field]. pose proof (type_text_visible _ _ T) as [VV _]. rewrite token_visible by auto. destruct (type_text_parse _ _ FV T) as [-> _]. replace (be_value l >? 0) with true by lia.
    assert (E : be16_octets (be_value l) = l). { destruct l as [|x [|y [|]]]; try (unfold zlen in L; cbn [length] in L; lia). apply (be_octets_value [x; y]); auto. }
    rewrite E. eexists. split; [reflexivity|]. left. apply left_end.
  - (* bitmap *) inversion FT as [| | | | | | | | | | | | | | | | |? ? T|]; subst. destruct V as (_ & B & N). rewrite (LR ltac:(auto)) in *. specialize (RD [] ltac:(discriminate)). cbn [readable] in RD. destruct RD as (ws' & C & E). apply windows_unique in E. subst ws'.
    cbn [canon1 parse_text_field]. rewrite app_nil_r. rewrite (types_read (bitmap_types ws) tk) by (auto; try lia; apply Forall_forall; intros; eapply canonical_range; eauto). cbn [bind]. rewrite bitmap_roundtrip by auto. cbn [bind]. eexists. split; [reflexivity|]. right. reflexivity.
  - (* salt *) inversion FT as [| | | | | | |EV|l s NL T EV| | | | | | | | | |]; subst v tk.
    + cbn [join_by canon1 parse_text_field]. rewrite token_visible by (auto; apply vis_lit_spec; reflexivity). change (nth 0 (lit "-" ++ rest) 0 =? 45) with true. change (zlen (lit "-") =? 1) with true. cbn [andb]. cbv iota. unfold skip.
      change (lit "-" ++ rest) with (45 :: rest). rewrite zlen_cons. pose proof (zlen_nonneg _ rest). replace (zlen rest + 1 <? 1) with false by lia. cbn [bind]. change (adv (45 :: rest) 1) with rest. eexists. split; [reflexivity|]. left. apply left_same.
    + destruct V as (_ & B & _). unfold char_string in B. apply bytes_ok_cons in B as [BL B]. unfold is_byte in BL. cbn [join_by canon1 parse_text_field]. pose proof (ht_nonempty _ _ _ T NL) as [VV NN]. rewrite token_visible by auto. pose proof (hex_text_len _ _ _ T) as HL.
      pose proof (zlen_hexw l NL). replace (zlen s =? 1) with false by lia. rewrite andb_false_r. rewrite HL. replace (2 * zlen l >? 510) with false by lia. rewrite (Z.mul_comm 2), Z.mod_mul, Z.div_mul by lia. change (0 =? 1) with false. cbn [orb].
      rewrite zlen_to_nat. rewrite (salt_pairs_text _ _ _ T). cbn [bind]. eexists. split; [reflexivity|]. left. apply left_same.
  - (* hash *) inversion FT as [| | | | | | | | |EV|l NL EV| | | | | | | |]; subst v tk.
    + cbn [join_by canon1 parse_text_field]. rewrite token_visible by (auto; apply vis_lit_spec; reflexivity). change (zlen (lit "0") =? 1) with true. cbv iota. unfold skip.
      change (lit "0" ++ rest) with (48 :: rest). rewrite zlen_cons. pose proof (zlen_nonneg _ rest). replace (zlen rest + 1 <? 1) with false by lia. cbn [bind]. change (adv (48 :: rest) 1) with rest. eexists. split; [reflexivity|]. left. apply left_same.
    + destruct V as (_ & B & _). unfold char_string in B. apply bytes_ok_cons in B as [BL B]. unfold is_byte in BL. cbn [join_by canon1 parse_text_field]. pose proof (base32_visible _ l (le_n _) B) as VV. rewrite token_visible by auto. pose proof (base32_length l NL).
      replace (zlen (base32hex l) =? 1) with false by lia. rewrite base32_roundtrip by (auto; apply (base32_length_ge (length l)); lia). cbn [bind]. rewrite Z.mod_small by lia. rewrite Z.eqb_refl. cbn [negb]. eexists. split; [reflexivity|]. left. apply left_same.
  - (* svcparams *) inversion FT as [| | | | | | | | | | | | | | | | | |? ? T]; subst. destruct V as ((ps' & PO & E) & B & N). apply params_unique in E. subst ps'. rewrite (LR ltac:(auto)) in *. specialize (RD [] ltac:(discriminate)). cbn [readable] in RD.
    specialize (RD ps eq_refl ltac:(eapply Forall_impl; [|exact PO]; cbn beta; tauto)). cbn [canon1 parse_text_field]. rewrite app_nil_r. rewrite (params_read ps tk) by (auto using params_bound; lia). cbn [bind]. eexists. split; [reflexivity|]. right. reflexivity.
Qed.

(** ** All fields *)
Lemma tokens_nonempty : forall p v tk next, field_tokens p v tk -> (match v with VName _ => True | VOctets l => l <> [] end) -> (p = PTypes -> readable p v next) -> tk <> [].
Proof.
  intros p v tk next F V R. destruct F; try discriminate.
  - intros E. apply V. destruct ss; [reflexivity|discriminate].
  - specialize (R eq_refl). cbn [readable] in R. destruct R as (ws' & C & E). apply windows_unique in E. subst ws'. destruct ws as [|[w l] ws]; [exfalso; apply V; reflexivity|].
    destruct C as (_ & B & L & N & _). destruct (window_has w l B L N) as (x & X & _). intros ->. unfold bitmap_types in H. cbn [map concat] in H. inversion H as [E|]; subst. symmetry in E. apply app_eq_nil in E as [E _]. rewrite E in X. contradiction.
  - intros ->. apply V. inversion H; subst. reflexivity.
Qed.
Lemma solid_skip : forall t r, solid t -> skip_space (t ++ r) = t ++ r.
Proof. intros [|c t] r (N & S & _); [congruence|]. cbn [app skip_space hd] in *. rewrite S. reflexivity. Qed.
Lemma skip_idem : forall s, skip_space (skip_space s) = skip_space s.
Proof. induction s as [|c s IH]; [reflexivity|]. cbn [skip_space]. destruct (isspace c) eqn:E; [exact IH|]. cbn [skip_space]. rewrite E. reflexivity. Qed.
Definition stands (toks : list bytes) (e : option bytes) : Prop :=
  match toks with [] => e = None \/ exists s, e = Some s /\ skip_space s = [] | _ => exists s, e = Some s /\ skip_space s = join_by 32 toks end.
Lemma join_app : forall a b, a <> [] -> join_by 32 (a ++ b) = join_by 32 a ++ (match b with [] => [] | _ => 32 :: join_by 32 b end).
Proof.
  induction a as [|x a IH]; intros b N; [congruence|]. destruct a as [|y a].
  - cbn [app join_by]. destruct b; [cbn [join_by]; rewrite app_nil_r; reflexivity|reflexivity].
  - change ((x :: y :: a) ++ b) with (x :: ((y :: a) ++ b)). rewrite !join_cons by discriminate. rewrite IH by discriminate. rewrite <- app_assoc. reflexivity.
Qed.
Lemma fields_tokens_nil : forall ps vs, fields_tokens ps vs [] -> (exists fs, wf_values fs vs) -> all_readable ps vs -> vs = [].
Proof.
  intros ps vs F [fs W] R. inversion F as [|p ps' v vs' tk tk' FT FS E1 E2 E3]; subst; auto. exfalso. apply app_eq_nil in E3 as [-> _]. cbn [all_readable] in R. destruct R as [R _].
  eapply (tokens_nonempty p v [] vs'); eauto. destruct v; auto. inversion W; subst; auto.
Qed.

Lemma fields_parse : forall ts vs toks e, wf_values (map fmt_of ts) vs -> fields_tokens (map pres_of ts) vs toks -> all_readable (map pres_of ts) vs ->
  ends_ok ts = true -> unblanked_ok ts = true -> ~ In rdf_edns_opt_rdata ts -> stands toks e -> parse_text_fields ts e = Ok (canon vs).
Proof.
  induction ts as [|t ts IH]; intros vs toks e W F R EO UO NE ST.
  { cbn [map] in *. inversion F; subst. reflexivity. }
  inversion F as [|p ps v vs' tk tk' FT FS E1 E2 E3]; subst.
  { cbn [stands] in ST. destruct ST as [-> |(s & -> & K)]; [reflexivity|]. cbn [parse_text_fields]. rewrite K. reflexivity. }
  cbn [map all_readable] in *. destruct R as [R1 R2]. assert (W' : wf_values (map fmt_of ts) vs') by (inversion W; subst; auto).
  assert (VOK : match v with VName ls => valid_name ls | VOctets l => field_octets (fmt_of t) l /\ bytes_ok l /\ l <> [] end) by (destruct v; inversion W; subst; auto).
  assert (SOL : Forall solid tk). { eapply field_tokens_solid; [exact FT|]. destruct v; [apply VOK|tauto]. }
  assert (NT : tk <> []). { eapply (tokens_nonempty _ _ _ vs' FT); [destruct v; tauto|auto]. }
  assert (SOL' : Forall solid tk').
  { clear - FS W'. revert FS W'. generalize (map pres_of ts), (map fmt_of ts). intros ps fs FS. revert fs. induction FS as [|p ps v vs tk tk' FT FS IH]; intros fs W'; [constructor|].
    apply Forall_app. split; [|inversion W'; subst; eauto]. eapply field_tokens_solid; [exact FT|]. inversion W'; subst; auto. apply H2. }
  set (rest := match tk' with [] => [] | _ => 32 :: join_by 32 tk' end).
  assert (SR : sep rest) by (unfold rest; destruct tk'; [left; auto|right; eauto]).
  assert (NIL : vs' = [] -> rest = []).
  { intros ->. unfold rest. inversion FS; subst. reflexivity. }
  assert (NE1 : t <> rdf_edns_opt_rdata) by (intros ->; apply NE; left; reflexivity).
  assert (LF : last_field t = true -> vs' = []).
  { unfold last_field. rewrite orb_true_iff. intros [H|H].
    - inversion W; subst; auto. match goal with K : FName = fmt_of t |- _ => rewrite <- K in H; discriminate end.
    - destruct ts as [|t' ts']; [cbn [map] in W'; inversion W'; reflexivity|]. cbn [unblanked_ok] in UO. rewrite H in UO. discriminate. }
  destruct (field_parse t v tk rest NE1 FT VOK) as (e' & PE & LO); auto.
  - intros next NP. destruct (pres_of t); try congruence; destruct v; cbn [readable] in *; auto.
  - intros P6 a CA. destruct v as [ls|l]; [cbn [canon1] in CA; rewrite P6 in FT; inversion FT|]. cbn [canon1] in CA. subst l. rewrite P6 in R1. cbn [readable] in R1. destruct (proj1 R1 eq_refl) as (ls & ->).
    assert (VN : valid_name ls) by (inversion W'; subst; auto).
    exists ls. split; [auto|]. inversion FS as [|p ps w ws tk1 tk2 FT1 FS1]; subst. inversion FS1; subst. inversion FT1; subst. unfold rest. reflexivity.
  - intros P6 a CA. apply NIL. destruct v as [ls|l]; [cbn [canon1] in CA; rewrite P6 in FT; inversion FT|]. cbn [canon1] in CA. subst l. rewrite P6 in R1. cbn [readable] in R1. apply R1. reflexivity.
  - assert (J : join_by 32 (tk ++ tk') = join_by 32 tk ++ rest) by (apply join_app; auto).
    assert (ST' : exists s, e = Some s /\ skip_space s = join_by 32 tk ++ rest) by (rewrite <- J; destruct tk; [congruence|exact ST]).
    destruct ST' as (s & -> & SK). cbn [parse_text_fields]. rewrite SK. destruct (join_by 32 tk ++ rest) as [|c0 r0] eqn:EJ.
    + exfalso. apply app_eq_nil in EJ as [EJ _]. pose proof (join_last tk NT SOL) as [_ K]. congruence.
    + rewrite PE. cbn [bind]. assert (RES : parse_text_fields ts e' = Ok (canon vs')).
      { destruct (last_field t) eqn:LL.
        - specialize (LF eq_refl). subst vs'. inversion FS; subst. destruct ts as [|t' ts']; [reflexivity|]. exfalso. unfold last_field in LL. cbn [ends_ok unblanked_ok] in *. apply orb_true_iff in LL as [LL|LL]; rewrite LL in *; discriminate.
        - destruct LO as [LO|LO]; [|discriminate]. eapply IH; eauto.
          + destruct ts; [reflexivity|]. cbn [ends_ok] in EO. destruct (negb _); [exact EO|discriminate].
          + destruct ts; [reflexivity|]. cbn [unblanked_ok] in UO. destruct (negb _); [exact UO|discriminate].
          + intros K. apply NE. right. exact K.
          + unfold stands. unfold rest in LO. destruct tk' as [|u tk']; cbn [left_over] in LO.
            * destruct LO as [-> | ->]; [left; reflexivity|right; exists []; auto].
            * destruct LO as (e2 & -> & E). exists e2. split; [reflexivity|]. rewrite E. cbn [skip_space]. change (isspace 32) with true. cbv iota.
              inversion SOL' as [|? ? SU SOL2]; subst. destruct tk'; [cbn [join_by]; rewrite <- (app_nil_r u) at 1; rewrite solid_skip by auto; apply app_nil_r|]. rewrite join_cons by discriminate. apply solid_skip; auto. }
      rewrite RES. reflexivity.
Qed.

Lemma rdata_parse : forall t c vs s, t <> 41 -> has_fields t c = true -> wf_values (format_of t c) vs -> all_readable (presentation_of t) vs -> rdata_text t vs s ->
  str_to_rdata s t c = Ok (canon vs).
Proof.
  intros t c vs s N H W R (toks & F & ->). destruct (table_fields t c H N) as (d & E1 & E2 & E3 & E4 & E5 & E6).
  rewrite format_of_fields, <- E3 in W. rewrite E4 in *. unfold str_to_rdata. rewrite E1, E2. cbn [negb]. eapply fields_parse; eauto.
  - rewrite E3. apply fields_for_ends.
  - destruct toks as [|x toks].
    + right. exists []. auto.
    + exists (join_by 32 (x :: toks)). split; [reflexivity|]. assert (SX : solid x).
      { inversion F as [|p ps v vs' tk tk' FT FS A1 A2 A3]; subst. assert (VOK : match v with VName ls => valid_labels ls | VOctets l => bytes_ok l /\ l <> [] end).
        { inversion W; subst; auto. match goal with K : valid_name _ |- _ => apply K end. }
        pose proof (field_tokens_solid _ _ _ FT VOK) as K. destruct tk as [|y tk].
        - exfalso. eapply (tokens_nonempty p v [] vs' FT); [destruct v; tauto|intros _; rewrite <- A1 in R; apply R|reflexivity].
        - injection A3 as -> _. inversion K; auto. }
      destruct toks; [cbn [join_by]; rewrite <- (app_nil_r x) at 1; rewrite solid_skip by auto; apply app_nil_r|]. rewrite join_cons by discriminate. apply solid_skip; auto.
Qed.
