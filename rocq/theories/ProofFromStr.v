(** ProofFromStr.v: reading the text forms of SpecText: character-strings, tokens, simple fields. *)
From Coq Require Strings.String.
From Verif Require Import Base Lib SpecName SpecMessage SpecEncode SpecFormat SpecTables SpecText Libc ModelName ModelFormat ModelTables ModelDescr ModelFromStr ModelParse
  ProofUnpack ProofCopy ProofNameStr ProofStrName ProofNameMore ProofFormat ProofInet ProofInet6 ProofB64 ProofB32 ProofTables ProofRdata ProofPrint ProofPrint2 ProofField ProofVisible ProofEncode.

(** ** Character-strings *)
Lemma fss_octet : forall q c r, is_byte c -> (q = true \/ (c <> 32)) -> fss q (quote_octet c ++ r) = cons_fst c (fss q r).
Proof.
  intros q c r H Q. unfold is_byte in H. unfold quote_octet. destruct ((c =? 34) || (c =? 92)) eqn:E1.
  - cbn [app fss]. replace (q && (92 =? 34)) with false by (destruct q; reflexivity). replace (negb q && isspace 92) with false by (destruct q; reflexivity).
    change (92 =? 92) with true. cbv iota. replace ((c =? 34) || (c =? 92)) with true by lia. reflexivity.
  - destruct ((32 <=? c) && (c <=? 126)) eqn:E2.
    + cbn [app fss]. replace (q && (c =? 34)) with false by (destruct q; lia). replace (negb q && isspace c) with false by (unfold isspace; destruct q; cbn [negb andb]; destruct Q; try discriminate; lia).
      replace (c =? 92) with false by lia. rewrite E2. reflexivity.
    + cbn [app fss]. replace (q && (92 =? 34)) with false by (destruct q; reflexivity). replace (negb q && isspace 92) with false by (destruct q; reflexivity).
      change (92 =? 92) with true. cbv iota.
      assert (D : 0 <= c / 100 < 3 /\ 0 <= c / 10 mod 10 < 10 /\ 0 <= c mod 10 < 10 /\ c / 100 * 100 + c / 10 mod 10 * 10 + c mod 10 = c) by zdm.
      destruct D as (D1 & D2 & D3 & D4).
      replace ((48 + c / 100 =? 34) || (48 + c / 100 =? 92)) with false by lia. unfold is_digit.
      replace ((48 <=? 48 + c / 100) && (48 + c / 100 <=? 57)) with true by lia.
      replace ((48 <=? 48 + c / 10 mod 10) && (48 + c / 10 mod 10 <=? 57)) with true by lia.
      replace ((48 <=? 48 + c mod 10) && (48 + c mod 10 <=? 57)) with true by lia. cbn [andb].
      replace ((48 + c / 100 - 48) * 100 + (48 + c / 10 mod 10 - 48) * 10 + (48 + c mod 10 - 48)) with c by lia.
      rewrite Z.mod_small by lia. rewrite Z.eqb_refl. reflexivity.
Qed.
Lemma fss_quoted : forall l rest, bytes_ok l -> fss true (concat (map quote_octet l) ++ 34 :: rest) = Some (l, rest).
Proof.
  induction l as [|c l IH]; intros rest B; [reflexivity|]. apply bytes_ok_cons in B as [Hc B]. cbn [map concat]. rewrite <- app_assoc, fss_octet by auto.
  rewrite IH by auto. reflexivity.
Qed.
Lemma from_str_quoted : forall l rest, bytes_ok l -> from_str_string (quoted l ++ rest) = Some (l, rest).
Proof. intros l rest B. unfold quoted. cbn [app from_str_string]. change (34 =? 34) with true. cbv iota. rewrite <- app_assoc. apply fss_quoted; auto. Qed.
Lemma str_to_cs_quoted : forall l rest, bytes_ok l -> zlen l <= 255 -> str_to_cs (quoted l ++ rest) = Ok (char_string l, rest).
Proof.
  intros l rest B L. pose proof (zlen_nonneg _ l). unfold str_to_cs. rewrite from_str_quoted by auto. rewrite Z.mod_small by lia. rewrite Z.eqb_refl. reflexivity.
Qed.
(** Unquoted text of visible characters without backslash and without leading quote. *)
Definition sep (rest : bytes) : Prop := rest = [] \/ exists r, rest = 32 :: r.
Lemma fss_plain : forall l rest, visible l -> ~ In 92 l -> sep rest -> fss false (l ++ rest) = Some (l, rest).
Proof.
  induction l as [|c l IH]; intros rest V N S.
  - destruct S as [-> |(r & ->)]; reflexivity.
  - apply visible_cons in V as [Hc V]. cbn [app fss negb andb]. replace (isspace c) with false by (unfold isspace; lia). 
    replace (c =? 92) with false by (cbn [In] in N; lia). replace ((32 <=? c) && (c <=? 126)) with true by lia. rewrite IH; [reflexivity|auto|intros I; apply N; right; auto|auto].
Qed.
Lemma from_str_plain : forall l rest, visible l -> l <> [] -> ~ In 92 l -> hd 0 l <> 34 -> sep rest -> from_str_string (l ++ rest) = Some (l, rest).
Proof.
  intros l rest V N B H S. rewrite <- (fss_plain l rest V B S). destruct l as [|c l]; [congruence|]. apply visible_cons in V as [Hc V]. cbn [app from_str_string hd] in *.
  replace (c =? 34) with false by lia. replace (isspace c) with false by (unfold isspace; lia). reflexivity.
Qed.

(** ** Tokens *)
Lemma split_at_app : forall f t rest, Forall (fun c => f c = false) t -> (rest = [] \/ exists c r, rest = c :: r /\ f c = true) -> split_at f (t ++ rest) = (t, rest).
Proof.
  induction t as [|c t IH]; intros rest F S.
  - destruct S as [-> |(c & r & -> & E)]; [reflexivity|]. cbn [app split_at]. rewrite E. reflexivity.
  - inversion F as [|? ? E F']; subst. cbn [app split_at]. rewrite E, IH by auto. reflexivity.
Qed.
Lemma token_visible : forall t rest, visible t -> sep rest -> token (t ++ rest) = (t, rest).
Proof.
  intros t rest V S. unfold token. apply split_at_app.
  - eapply Forall_impl; [|exact V]. cbn beta. intros c H. unfold is_blank. lia.
  - destruct S as [-> |(r & ->)]; [left; auto|right; exists 32, r; auto].
Qed.
Lemma token_space : forall t rest, visible t -> sep rest -> split_at isspace (t ++ rest) = (t, rest).
Proof.
  intros t rest V S. apply split_at_app.
  - eapply Forall_impl; [|exact V]. cbn beta. intros c H. unfold isspace. lia.
  - destruct S as [-> |(r & ->)]; [left; auto|right; exists 32, r; auto].
Qed.
Lemma sep_no_digit : forall rest, sep rest -> no_digit_head rest.
Proof. intros rest [-> |(r & ->)]; cbn; [auto|]. unfold digit. lia. Qed.
Lemma digits_forallb : forall s, Forall digit s -> forallb is_digit s = true.
Proof. intros s F. apply forallb_forall. intros c C. rewrite Forall_forall in F. apply is_digit_spec. auto. Qed.

(** ** Integers *)
Lemma be_octets_value : forall l, bytes_ok l -> be_octets (length l) (be_value l) = l.
Proof.
  intros l. induction l as [|c l IH] using rev_ind; intros B; [reflexivity|]. apply bytes_ok_app in B as [B Bc]. apply bytes_ok_cons in Bc as [Hc _]. unfold is_byte in Hc.
  rewrite app_length, Nat.add_1_r. cbn [be_octets]. unfold be_value in *. rewrite fold_left_app. cbn [fold_left].
  set (v := fold_left (fun a b => a * 256 + b) l 0) in *.
  rewrite Z.div_add_l by lia. rewrite (Z.div_small c) by lia. rewrite Z.add_0_r, IH by auto. f_equal. f_equal.
  rewrite Z.add_comm, Z.mod_add by lia. apply Z.mod_small. lia.
Qed.
Lemma int_parse : forall sz l s rest, bytes_ok l -> length l = sz -> (1 <= sz <= 4)%nat -> decimal (be_value l) s -> sep rest ->
  int_field sz (s ++ rest) = Ok (l, Some rest).
Proof.
  intros sz l s rest B L SZ D S. pose proof (decimal_visible _ _ D) as [V _]. unfold int_field. rewrite token_visible by auto.
  pose proof D as (F & _). rewrite digits_forallb by auto. cbn [negb].
  assert (Lz : zlen l = Z.of_nat sz) by (unfold zlen; lia).
  pose proof (fixed_value (Z.of_nat sz) l B Lz) as R.
  assert (P : 256 ^ Z.of_nat sz <= 2 ^ 32) by (change (2 ^ 32) with (256 ^ 4); apply Z.pow_le_mono_r; lia).
  rewrite (scan_u_decimal (be_value l) s rest D) by (auto using sep_no_digit; lia).
  rewrite Z.mod_small by lia. rewrite Z.eqb_refl. cbn [negb]. rewrite <- L, be_octets_value by auto. reflexivity.
Qed.

(** ** Hexadecimal *)
Lemma hex_octet_unique : forall up b h, hex_octet up b h -> is_byte b /\ h = hex2 up b.
Proof.
  intros up b h (x & y & u & v & -> & H1 & H2 & -> & C1 & C2).
  assert (G : forall c w, hex_digit c w -> hex_case up c -> 0 <= w < 16 /\ c = hexd up w).
  { intros c w D C. unfold hexd. destruct D; unfold hex_case in C; destruct up; (destruct (_ <=? 9) eqn:Q; lia). }
  destruct (G _ _ H1 C1) as [U ->], (G _ _ H2 C2) as [V ->]. split; [unfold is_byte; lia|]. unfold hex2.
  replace ((16 * u + v) / 16) with u by zdm. replace ((16 * u + v) mod 16) with v by zdm. reflexivity.
Qed.
Lemma hex_scan : forall up b h r, hex_octet up b h -> exists x y, h = [x; y] /\ scan_octet (x :: y :: r) = Ok b.
Proof.
  intros up b h r H. pose proof H as (x & y & _ & _ & E & _). exists x, y. split; [exact E|]. apply hex_octet_unique in H as [Hb Eh].
  change (x :: y :: r) with ([x; y] ++ r). rewrite <- E, Eh. unfold scan_octet. rewrite scan_hh_hex2 by auto. reflexivity.
Qed.
Lemma hex_text_len : forall up l s, hex_text up l s -> zlen s = 2 * zlen l.
Proof.
  induction 1 as [|b h l s H _ IH]; [reflexivity|]. pose proof H as (x & y & _ & _ & -> & _). rewrite zlen_app, IH. change (zlen [x; y]) with 2. rewrite zlen_cons. lia.
Qed.
Lemma hex_pairs_text : forall up l s, hex_text up l s -> forall f, (length s < f)%nat -> hex_pairs f s = Ok l.
Proof.
  induction 1 as [|b h l s H _ IH]; intros f L; (destruct f as [|f]; [cbn in L; lia|]); [reflexivity|].
  destruct (hex_scan up b h s H) as (x & y & -> & E). cbn [app hex_pairs]. rewrite E. cbn [bind]. rewrite IH by (cbn [app length] in L; lia). reflexivity.
Qed.
Lemma salt_pairs_text : forall up l s, hex_text up l s -> forall rest, salt_pairs (length l) (s ++ rest) = Ok (l, rest).
Proof.
  induction 1 as [|b h l s H _ IH]; intros rest; [reflexivity|].
  destruct (hex_scan up b h (s ++ rest) H) as (x & y & -> & E). cbn [length salt_pairs app]. rewrite E. cbn [bind]. unfold skip.
  replace (zlen (x :: y :: s ++ rest) <? 2) with false by (rewrite !zlen_cons; pose proof (zlen_nonneg _ (s ++ rest)); lia). change (adv (x :: y :: s ++ rest) 2) with (s ++ rest).
  cbn [bind]. rewrite IH. reflexivity.
Qed.
Lemma isxdigit_hex : forall up b h, hex_octet up b h -> exists x y, h = [x; y] /\ isxdigit x = true /\ isxdigit y = true.
Proof.
  intros up b h (x & y & u & v & -> & H1 & H2 & _). exists x, y. split; auto. unfold isxdigit, hexval.
  destruct H1, H2; split; repeat (match goal with |- context [if ?b then _ else _] => destruct b eqn:? end); lia.
Qed.
Lemma eui_text_parse : forall l hs, Forall2 (hex_octet false) l hs -> l <> [] ->
  eui_check (length l) (join_by 45 hs) = Ok true /\ eui_scan (length l) (join_by 45 hs) = Some l /\ zlen (join_by 45 hs) = 3 * zlen l - 1.
Proof.
  induction 1 as [|b h l hs H F IH]; intros N; [congruence|]. destruct (isxdigit_hex _ _ _ H) as (x & y & E & X & Y). apply hex_octet_unique in H as [Hb Eh].
  destruct F as [|b' h' l' hs' H' F'].
  - cbn [join_by length]. split; [|split].
    + subst h. rewrite E. cbn [eui_check hd_rd tl bind]. rewrite X, Y. reflexivity.
    + cbn [eui_scan]. rewrite <- (app_nil_r h), Eh, scan_hh_hex2 by auto. reflexivity.
    + rewrite E. reflexivity.
  - destruct (IH ltac:(discriminate)) as (C1 & C2 & C3). rewrite join_cons by discriminate. set (r := join_by 45 (h' :: hs')) in *. cbn [length] in *. split; [|split].
    + rewrite E. cbn [app eui_check hd_rd tl bind]. rewrite X, Y. cbn [negb orb]. change (45 =? 45) with true. cbn [negb]. change (adv (x :: y :: 45 :: r) 3) with r. exact C1.
    + cbn [eui_scan]. cbn [eui_scan] in C2. rewrite Eh, scan_hh_hex2 by auto. change (45 =? 45) with true. cbv iota. rewrite C2. reflexivity.
    + rewrite E. cbn [app]. rewrite !zlen_cons, C3. rewrite !zlen_cons. lia.
Qed.

(** ** Types and keys *)
Lemma type_text_parse : forall n s, 0 <= n < 65536 -> type_text n s -> str_to_rrtype s = n /\ (n = 0 -> s = lit "TYPE0").
Proof.
  intros n s R [M|(NM & d & D & ->)].
  - apply (proj2 (table_registry _ _ _ types_ok n s)) in M. split.
    + unfold str_to_rrtype, str_to_generic. rewrite (table_lookup _ _ _ types_ok n s s M); [reflexivity|apply lower_same_letters; reflexivity].
    + intros ->. vm_compute in M. discriminate.
  - split.
    + unfold str_to_rrtype, str_to_generic.
      assert (CT : same_letters (lit "TYPE") (lit "TYPE")) by (apply lower_same_letters; reflexivity).
      rewrite (generic_not_found _ _ _ types_ok).
      * rewrite (convert_generic_ok _ _ n) by (auto; lia). reflexivity.
      * apply Forall_app. split; [|eapply decimal_c_string; eauto]. repeat constructor; lia.
      * apply prefix_caseeq_app; auto.
    + intros ->. rewrite (decimal_fmt_u 0 d) by (auto; lia). reflexivity.
Qed.
Lemma key_text_parse : forall k s, key_text k s -> str_to_svckey s = k /\ 0 <= k < 65535.
Proof.
  intros k s [(m & I & ->)|(R & d & D & ->)].
  - cbn [In iana_svckeys] in I. repeat (destruct I as [I|I]; [injection I as <- <-; split; [reflexivity|lia]|]). contradiction.
  - split; [apply svc_generic; auto; lia|lia].
Qed.
