(** ProofRead3.v: character-strings, type lists, numbers, EUI addresses, exactly. *)
From Verif Require Import Base Lib SpecName SpecStrName SpecMessage SpecFormat SpecText SpecRead Libc ModelName ModelFormat ModelTables ModelDescr ModelFromStr.
From Verif Require Import ProofUnpack ProofFormat ProofB64 ProofB32 ProofStrName ProofField ProofFromStr ProofBitmap ProofFromSafe ProofRoundTrip2 ProofRead1 ProofRead2.

Lemma digit_iff : forall c, digit c <-> is_digit c = true.
Proof. intros c. unfold digit, is_digit. lia. Qed.

(** ** Character-strings *)
Definition fss_end (q : bool) (e0 e : bytes) : Prop := if q then e0 = 34 :: e else e0 = e /\ (e = [] \/ exists c r, e = c :: r /\ white c).
Lemma fss_sound : forall n q s l e, (length s <= n)%nat -> fss q s = Some (l, e) -> exists t e0, s = t ++ e0 /\ cs_octets q t l /\ fss_end q e0 e.
Proof.
  induction n as [|n IH]; intros q s l e L E.
  - destruct s; [|cbn in L; lia]. cbn [fss] in E. destruct q; [discriminate|]. injection E as <- <-. exists [], []. split; [reflexivity|]. split; [constructor|]. cbn. auto.
  - destruct s as [|c r]; cbn [fss] in E.
    { destruct q; [discriminate|]. injection E as <- <-. exists [], []. split; [reflexivity|]. split; [constructor|]. cbn. auto. }
    cbn [length] in L. destruct (q && (c =? 34)) eqn:Q.
    { injection E as <- <-. apply andb_prop in Q as [Q C]. subst q. exists [], (c :: r). split; [reflexivity|]. split; [constructor|]. cbn. f_equal. lia. }
    destruct (negb q && isspace c) eqn:W.
    { injection E as <- <-. apply andb_prop in W as [W C]. destruct q; [discriminate|]. exists [], (c :: r). split; [reflexivity|]. split; [constructor|]. cbn. split; auto. right. exists c, r. split; auto. apply white_iff; auto. }
    assert (STEP : forall t0 v r', c :: r = t0 ++ r' -> (length r' <= n)%nat -> cs_octet q t0 v -> cons_fst v (fss q r') = Some (l, e) ->
      exists t e0, c :: r = t ++ e0 /\ cs_octets q t l /\ fss_end q e0 e).
    { intros t0 v r' EQ L' CO X. destruct (fss q r') as [[l' e']|] eqn:FR; [|discriminate]. cbn [cons_fst] in X. injection X as <- <-.
      destruct (IH _ _ _ _ L' FR) as (t & e0 & -> & CS & FE). exists (t0 ++ t), e0. rewrite EQ, app_assoc. split; [reflexivity|]. split; [constructor; auto|auto]. }
    destruct (c =? 92) eqn:B.
    + destruct r as [|d r1]; [discriminate|]. cbn [length] in L. destruct ((d =? 34) || (d =? 92)) eqn:D.
      { apply (STEP [c; d] d r1) in E; [exact E|reflexivity|lia|]. replace c with 92 by lia. apply co_quote. lia. }
      destruct (is_digit d) eqn:D1; [|discriminate]. destruct r1 as [|e1 [|f1 r2]]; [discriminate|discriminate|]. cbn [length] in L.
      destruct (is_digit e1 && is_digit f1) eqn:D2; [|discriminate]. apply andb_prop in D2 as [D2 D3]. cbv zeta in E.
      match type of E with (if negb ?x then _ else _) = _ => destruct x eqn:M; cbn [negb] in E; [|discriminate E] end. apply digit_iff in D1. apply digit_iff in D2. apply digit_iff in D3.
      apply (STEP [c; d; e1; f1] _ r2) in E; [exact E|reflexivity|lia|]. replace c with 92 by lia. apply co_ddd; auto. unfold digit in *.
      apply Z.eqb_eq in M. pose proof (Z.mod_pos_bound ((d - 48) * 100 + (e1 - 48) * 10 + (f1 - 48)) 256). lia.
    + destruct ((32 <=? c) && (c <=? 126)) eqn:P; [|discriminate]. apply (STEP [c] c r) in E; [exact E|reflexivity|lia|]. apply co_plain; [lia|lia|]. unfold isspace in W. destruct q; cbn in *; lia.
Qed.
Lemma fss_complete : forall q t l, cs_octets q t l -> forall e0 e, fss_end q e0 e -> fss q (t ++ e0) = Some (l, e).
Proof.
  induction 1 as [|t c s l CO CS IH]; intros e0 e FE.
  - cbn [app]. destruct q; cbn in FE; [subst e0; reflexivity|]. destruct FE as [-> [->|(c & r & -> & W)]]; [reflexivity|]. cbn [fss]. apply white_iff in W. rewrite W. reflexivity.
  - rewrite <- app_assoc. specialize (IH e0 e FE). destruct CO as [c R N1 N2|c C|a b c Da Db Dc V].
    + cbn [app fss]. replace (q && (c =? 34)) with false by (destruct q; cbn; lia). replace (negb q && isspace c) with false by (unfold isspace; destruct q; cbn; lia).
      replace (c =? 92) with false by lia. replace ((32 <=? c) && (c <=? 126)) with true by lia. rewrite IH. reflexivity.
    + cbn [app fss]. replace (q && (92 =? 34)) with false by (destruct q; reflexivity). replace (negb q && isspace 92) with false by (destruct q; reflexivity).
      change (92 =? 92) with true. cbv iota. replace ((c =? 34) || (c =? 92)) with true by lia. rewrite IH. reflexivity.
    + cbn [app fss]. replace (q && (92 =? 34)) with false by (destruct q; reflexivity). replace (negb q && isspace 92) with false by (destruct q; reflexivity).
      change (92 =? 92) with true. cbv iota. replace ((a =? 34) || (a =? 92)) with false by (unfold digit in *; lia).
      rewrite (proj1 (digit_iff a) Da), (proj1 (digit_iff b) Db), (proj1 (digit_iff c) Dc). cbn [andb]. cbv zeta.
      rewrite Z.mod_small by (unfold digit in *; lia). rewrite Z.eqb_refl. cbn [negb]. rewrite IH. reflexivity.
Qed.
Lemma cs_head : forall t l, cs_octets false t l -> forall c r, t = c :: r -> 32 < c.
Proof. intros t l H c r E. destruct H as [|? ? ? ? CO _]; [discriminate|]. destruct CO; injection E as <- <-; cbn in *; lia. Qed.
Lemma string_iff : forall s l e, from_str_string s = Some (l, e) <-> string_read s l e.
Proof.
  intros s l e. unfold from_str_string. split.
  - destruct s as [|c r]; [discriminate|]. destruct (c =? 34) eqn:Q.
    + intros H. apply (fss_sound _ _ _ _ _ (le_n _)) in H as (t & e0 & -> & CS & ->). replace c with 34 by lia. apply st_quoted; auto.
    + destruct (isspace c) eqn:W; [discriminate|]. intros H. apply (fss_sound _ _ _ _ _ (le_n _)) in H as (t & e0 & EQ & CS & -> & E). rewrite EQ. apply st_plain; auto.
      destruct t as [|x t]; [|injection EQ as -> _; cbn; lia]. cbn [app] in EQ. subst e. exfalso. destruct E as [E|(y & z & E & Y)]; [discriminate|]. injection E as <- <-. apply white_iff in Y. congruence.
  - intros [t l' e' CS|t l' e' CS HD E].
    + change (34 =? 34) with true. cbv iota. apply fss_complete; auto. reflexivity.
    + destruct t as [|c t]; [cbn in HD; congruence|]. cbn in HD. pose proof (cs_head _ _ CS c t eq_refl) as P. cbn [app]. replace (c =? 34) with false by lia. replace (isspace c) with false by (unfold isspace; lia).
      change (c :: t ++ e') with ((c :: t) ++ e'). apply fss_complete; auto. cbn. auto.
Qed.
Lemma string_len : forall s l e, string_read s l e -> (length e < length s)%nat.
Proof. intros s l e [t l' e' CS|t l' e' CS HD E]; cbn [length]; rewrite app_length; cbn [length]; [lia|]. destruct t; [cbn in HD; congruence|cbn; lia]. Qed.
Lemma cs_iff : forall s o e, str_to_cs s = Ok (o, e) <-> exists l, string_read s l e /\ zlen l <= 255 /\ o = char_string l.
Proof.
  intros s o e. unfold str_to_cs, char_string. split.
  - destruct (from_str_string s) as [[l r]|] eqn:E; [|discriminate]. destruct (negb _) eqn:M; [discriminate|]. intros H. injection H as <- <-. exists l. split; [apply string_iff; auto|]. split; [|reflexivity].
    pose proof (Z.mod_pos_bound (zlen l) 256). apply negb_false_iff, Z.eqb_eq in M. lia.
  - intros (l & S & L & ->). apply string_iff in S. rewrite S. rewrite Z.mod_small by (pose proof (zlen_nonneg _ l); lia). rewrite Z.eqb_refl. reflexivity.
Qed.
Lemma strings_iff : forall f s o, (length s < f)%nat -> (strings_parse f s = Ok o <-> exists ls, strings_read s ls /\ o = concat (map char_string ls)).
Proof.
  induction f as [|f IH]; intros s o L; [lia|]. cbn [strings_parse]. destruct s as [|c r].
  - split; [intros H; injection H as <-; exists []; split; [constructor|reflexivity]|]. intros (ls & H & ->). inversion H; subst. reflexivity.
  - cbn [length] in L. destruct (isspace c) eqn:W.
    + apply white_iff in W. rewrite IH by lia. split; intros (ls & H & ->); exists ls; split; auto; [apply ss_white; auto|]. inversion H; subst; auto. contradiction.
    + assert (NW : ~ white c) by (intros X; apply white_iff in X; congruence). split.
      * intros H. apply bind_ok in H as ([o1 e] & H1 & H). apply bind_ok in H as (o2 & H2 & H). injection H as <-. apply cs_iff in H1 as (l & S & Ll & ->).
        pose proof (string_len _ _ _ S) as LE. cbn [length] in LE. apply IH in H2 as (ls & H2 & ->); [|lia]. exists (l :: ls). split; [eapply ss_string; eauto|reflexivity].
      * intros (ls & H & ->). inversion H as [| |? ? l e ls' N S Ll R]; subst; [contradiction|]. pose proof (string_len _ _ _ S) as LE. cbn [length] in LE.
        rewrite (proj2 (cs_iff (c :: r) (char_string l) e)) by eauto. cbn [bind]. rewrite (proj2 (IH e (concat (map char_string ls')) ltac:(lia))) by eauto. reflexivity.
Qed.

(** ** Type lists *)
Lemma word_len : forall s t e, word s t e -> (length e < length s)%nat.
Proof. intros s t e (-> & N & _). rewrite app_length. destruct t; [congruence|cbn; lia]. Qed.
Lemma types_iff : forall f s ts, (length s < f)%nat -> (bitmap_toks f s = Ok ts <-> types_read s ts).
Proof.
  induction f as [|f IH]; intros s ts L; [lia|]. cbn [bitmap_toks]. destruct s as [|c r].
  - split; [intros H; injection H as <-; constructor|]. intros H. inversion H; subst. reflexivity.
  - cbn [length] in L. destruct (isspace c) eqn:W.
    + rewrite IH by lia. apply white_iff in W. split; intros H; [apply tt_white; auto|]. inversion H; subst; auto. contradiction.
    + assert (NW : ~ white c) by (intros X; apply white_iff in X; congruence). destruct (token (c :: r)) as [t e] eqn:T. cbv zeta. split.
      * intros H. apply (word_token c r t e W) in T. pose proof (word_len _ _ _ T) as LE. cbn [length] in LE. destruct (_ && _) eqn:Z0; [discriminate|]. apply bind_ok in H as (o & H1 & H). injection H as <-.
        apply IH in H1; [|lia]. eapply tt_type; eauto. intros E0. rewrite E0 in Z0. change (0 =? 0) with true in Z0. cbn [andb] in Z0. apply negb_false_iff, Z.eqb_eq in Z0. exact Z0.
      * intros H. inversion H as [| |? ? t' e' ts' N WD Z0 R]; subst; [contradiction|]. apply (word_token c r t' e' W) in WD. rewrite T in WD. injection WD as <- <-.
        apply (word_token c r t e W) in T. pose proof (word_len _ _ _ T) as LE. cbn [length] in LE.
        replace ((str_to_rrtype t =? 0) && negb (strcasecmp t (lit "TYPE0") =? 0)) with false.
        2:{ symmetry. destruct (str_to_rrtype t =? 0) eqn:E; auto. cbn [andb]. rewrite Z0 by lia. reflexivity. }
        rewrite (proj2 (IH e ts' ltac:(lia)) R). reflexivity.
Qed.
Lemma bitmap_iff : forall s o, (exists ts, bitmap_toks (S (length s)) s = Ok ts /\ types_to_bitmap ts = Ok o) <->
  exists ts ws, types_read s ts /\ canonical ws /\ (forall t, In t (bitmap_types ws) <-> In t ts) /\ o = concat (map window ws).
Proof.
  intros s o. split.
  - intros (ts & H & E). pose proof (bitmap_toks_range _ _ _ H) as R. destruct (types_to_bitmap_spec ts R) as (ws & E' & C & X). exists ts, ws. split; [apply types_iff in H; auto|]. split; auto. split; auto. congruence.
  - intros (ts & ws & H & C & X & ->). apply (types_iff (S (length s))) in H; [|lia]. exists ts. split; auto. pose proof (bitmap_toks_range _ _ _ H) as R. destruct (types_to_bitmap_spec ts R) as (ws' & E' & C' & X').
    rewrite E'. rewrite (canonical_unique ws' ws); auto. intros x. rewrite X, X'. reflexivity.
Qed.

(** ** Numbers *)
Lemma digits_forall : forall t, forallb is_digit t = true <-> Forall digit t.
Proof. intros t. rewrite forallb_forall, Forall_forall. split; intros H x I; apply digit_iff; auto. Qed.
Lemma word_end_digit : forall s t e, word s t e -> no_digit_head e.
Proof. intros s t e (_ & _ & _ & [->|(c & r & -> & B)]); unfold no_digit_head; auto. unfold blank in B. unfold digit. lia. Qed.
Lemma scan_u_word : forall t e, t <> [] -> Forall digit t -> no_digit_head e -> scan_u (t ++ e) = ScanVal (Z.min (dec_value t) (2 ^ 64 - 1)) e.
Proof.
  intros t e N F ND. unfold scan_u. destruct t as [|c t]; [congruence|]. pose proof (Forall_inv F) as D. unfold digit in D. cbn [app skip_space]. replace (isspace c) with false by (unfold isspace; lia).
  unfold scan_sign. replace (c =? 45) with false by lia. replace (c =? 43) with false by lia.
  change (c :: t ++ e) with ((c :: t) ++ e). rewrite scan_digits_app by auto. rewrite Z.mul_0_l, Z.add_0_l.
  f_equal. destruct (dec_value (c :: t) >? 2 ^ 64 - 1) eqn:G; lia.
Qed.
Lemma int_iff : forall n c r o e', isspace c = false -> (n <= 4)%nat ->
  (int_field n (c :: r) = Ok (o, e') <-> exists t e v, e' = Some e /\ word (c :: r) t e /\ numeral t v /\ bytes_ok o /\ zlen o = Z.of_nat n /\ be_value o = v).
Proof.
  intros n c r o e' W N4. unfold int_field. destruct (token (c :: r)) as [t e] eqn:T. apply (word_token c r t e W) in T.
  assert (PB : 256 ^ Z.of_nat n <= 256 ^ 4) by (apply Z.pow_le_mono_r; lia). change (256 ^ 4) with 4294967296 in PB. assert (P0 : 0 < 256 ^ Z.of_nat n) by (apply Z.pow_pos_nonneg; lia).
  assert (SC : Forall digit t -> scan_u (c :: r) = ScanVal (Z.min (dec_value t) (2 ^ 64 - 1)) e).
  { intros F. destruct T as (EQ & NT & TR). rewrite EQ. apply scan_u_word; auto. apply (word_end_digit (c :: r) t). repeat split; tauto. }
  change (2 ^ 64 - 1) with 18446744073709551615 in SC. split.
  - destruct (forallb is_digit t) eqn:F; [|discriminate]. apply digits_forall in F. cbn [negb]. rewrite SC by auto. pose proof (ProofFormat.dec_value_nonneg t F) as D0.
    destruct (negb _) eqn:M; [discriminate|]. intros H. injection H as <- <-. apply negb_false_iff, Z.eqb_eq in M. pose proof (Z.mod_pos_bound (Z.min (dec_value t) 18446744073709551615) (256 ^ Z.of_nat n) P0) as MB.
    destruct (be_octets_spec n (Z.min (dec_value t) 18446744073709551615) ltac:(lia)) as (B & L & V). exists t, e, (dec_value t). split; [reflexivity|]. split; [exact T|]. split; [split; [apply T|auto]|].
    split; [exact B|]. split; [exact L|]. rewrite V. lia.
  - intros (t' & e0 & v & -> & WD & (NT & F & ->) & B & L & V). apply (word_token c r t' e0 W) in WD. apply (word_token c r t e W) in T. rewrite T in WD. injection WD as <- <-.
    rewrite (proj2 (digits_forall t) F). cbn [negb]. rewrite SC by auto. pose proof (fixed_value (Z.of_nat n) o B L) as FV. rewrite V in FV.
    replace (Z.min (dec_value t) 18446744073709551615) with (dec_value t) by lia. rewrite Z.mod_small by lia. rewrite Z.eqb_refl. cbn [negb]. rewrite <- V.
    replace n with (length o) by (unfold zlen in L; lia). rewrite be_octets_value by auto. reflexivity.
Qed.
