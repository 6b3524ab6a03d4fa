(** ProofRoundTrip2.v: integer fields, generic rdata, type bit maps of rdata text. *)
From Coq Require Strings.String.
From Verif Require Import Base Lib SpecName SpecMessage SpecEncode SpecFormat SpecTables SpecText Libc ModelName ModelFormat ModelTables ModelDescr ModelFromStr ModelParse ModelToStr
  ProofUnpack ProofCopy ProofNameStr ProofStrName ProofNameMore ProofFormat ProofInet ProofInet6 ProofB64 ProofB32 ProofTables ProofRdata ProofPrint ProofPrint2 ProofField ProofVisible ProofRdataText ProofEncode ProofFromStr ProofBitmap ProofSvc ProofRoundTrip.

(** ** Fields in front of others *)
Lemma fields_parse_more : forall ts1 ts2 vs toks x s, length vs = length ts1 -> wf_values (map fmt_of ts1) vs -> fields_tokens (map pres_of ts1) vs toks -> all_readable (map pres_of ts1) vs ->
  Forall (fun t => last_field t = false /\ t <> rdf_edns_opt_rdata /\ pres_of t <> PPrefix6) ts1 -> solid x -> skip_space s = join_by 32 (toks ++ [x]) ->
  exists e, skip_space e = x /\ parse_text_fields (ts1 ++ ts2) (Some s) = (o <- parse_text_fields ts2 (Some e) ;; Ok (canon vs ++ o)).
Proof.
  induction ts1 as [|t ts1 IH]; intros ts2 vs toks x s L W F R Q SX SK.
  { destruct vs; [|discriminate]. inversion F; subst. cbn [app join_by] in *. exists s. split; [auto|]. destruct (parse_text_fields ts2 (Some s)); reflexivity. }
  destruct vs as [|v vs]; [discriminate|]. cbn [map] in *. inversion F as [|p ps v' vs' tk tk' FT FS E1 E2 E3]; subst. cbn [all_readable] in R. destruct R as [R1 R2]. inversion Q as [|? ? (Q1 & Q2 & Q3) Q']; subst.
  assert (W' : wf_values (map fmt_of ts1) vs) by (inversion W; subst; auto).
  assert (VOK : match v with VName ls => valid_name ls | VOctets l => field_octets (fmt_of t) l /\ bytes_ok l /\ l <> [] end) by (destruct v; inversion W; subst; auto).
  assert (SOL : Forall solid tk). { eapply field_tokens_solid; [exact FT|]. destruct v; [apply VOK|tauto]. }
  assert (NT : tk <> []). { eapply (tokens_nonempty _ _ _ vs FT); [destruct v; tauto|auto]. }
  set (rest := 32 :: join_by 32 (tk' ++ [x])). assert (J : join_by 32 ((tk ++ tk') ++ [x]) = join_by 32 tk ++ rest).
  { rewrite <- app_assoc. rewrite join_app by auto. unfold rest. destruct (tk' ++ [x]) eqn:E; [destruct tk'; discriminate|reflexivity]. }
  destruct (field_parse t v tk rest Q2 FT VOK) as (e' & PE & LO); auto.
  - intros next _. destruct (pres_of t); try congruence; destruct v; cbn [readable] in *; auto.
  - congruence.
  - congruence.
  - right. unfold rest. eauto.
  - congruence.
  - destruct LO as [LO|LO]; [|congruence]. unfold rest in LO. cbn [left_over] in LO. destruct LO as (e1 & -> & E1).
    destruct (IH ts2 vs tk' x e1) as (e & K1 & K2); auto.
    + rewrite E1. cbn [skip_space]. change (isspace 32) with true. cbv iota.
      assert (SOL' : Forall solid (tk' ++ [x])).
      { apply Forall_app. split; [|constructor; auto]. clear - FS W'. revert FS W'. generalize (map pres_of ts1), (map fmt_of ts1). intros ps fs FS. revert fs. induction FS as [|p ps v vs tk tk' FT FS IH]; intros fs W'; [constructor|].
        apply Forall_app. split; [|inversion W'; subst; eauto]. eapply field_tokens_solid; [exact FT|]. inversion W'; subst; auto. match goal with K : valid_name _ |- _ => apply K end. }
      destruct (tk' ++ [x]) as [|u us] eqn:E; [destruct tk'; discriminate|]. inversion SOL'; subst. destruct us; [cbn [join_by]; rewrite <- (app_nil_r u) at 1; rewrite solid_skip by auto; apply app_nil_r|]. rewrite join_cons by discriminate. apply solid_skip; auto.
    + exists e. split; [auto|]. cbn [app parse_text_fields]. rewrite SK, J. destruct (join_by 32 tk ++ rest) as [|c0 r0] eqn:EJ; [destruct (join_by 32 tk); discriminate|]. rewrite PE. cbn [bind]. rewrite K2.
      destruct (parse_text_fields ts2 (Some e)); cbn [bind]; unfold canon; cbn [map concat]; rewrite ?app_assoc; reflexivity.
Qed.

(** ** Integer fields *)
Lemma scan_digits_all : forall s a b, Forall digit s -> scan_digits s a b = (fold_left (fun a c => a * 10 + (c - 48)) s a, b || negb (match s with [] => true | _ => false end), []).
Proof.
  induction s as [|c s IH]; intros a b F; [cbn; rewrite orb_false_r; reflexivity|]. inversion F; subst. cbn [scan_digits]. rewrite (proj2 (is_digit_spec c)) by auto. rewrite IH by auto. cbn [fold_left negb]. rewrite orb_true_r. destruct b; reflexivity.
Qed.
Lemma dec_value_nonneg : forall s, Forall digit s -> 0 <= dec_value s.
Proof.
  assert (G : forall s a, Forall digit s -> 0 <= a -> 0 <= fold_left (fun a c => a * 10 + (c - 48)) s a).
  { induction s as [|c s IH]; intros a F A; [cbn; auto|]. inversion F as [|? ? D F']; subst. cbn [fold_left]. apply IH; auto. unfold digit in D. lia. }
  intros s F. apply G; auto. lia.
Qed.
Lemma be_octets_spec : forall sz v, 0 <= v < 256 ^ Z.of_nat sz -> bytes_ok (be_octets sz v) /\ zlen (be_octets sz v) = Z.of_nat sz /\ be_value (be_octets sz v) = v.
Proof.
  induction sz as [|sz IH]; intros v H.
  - cbn in *. repeat split; try constructor. lia.
  - rewrite Nat2Z.inj_succ, Z.pow_succ_r in H by lia. cbn [be_octets]. assert (0 <= v / 256 < 256 ^ Z.of_nat sz) as D by (split; [apply Z.div_pos; lia|apply Z.div_lt_upper_bound; lia]).
    destruct (IH _ D) as (B & L & V). pose proof (Z.mod_pos_bound v 256 ltac:(lia)). split; [apply bytes_ok_app; split; auto; constructor; [unfold is_byte; lia|constructor]|]. split; [rewrite zlen_app; change (zlen [v mod 256]) with 1; lia|].
    unfold be_value in *. rewrite fold_left_app, V. cbn [fold_left]. rewrite (Z.div_mod v 256) at 3 by lia. lia.
Qed.
Lemma int_field_token : forall sz x e, (1 <= sz <= 4)%nat -> visible x -> x <> [] -> skip_space e = x ->
  int_field sz (skip_space e) = if forallb is_digit x && (dec_value x <? 256 ^ Z.of_nat sz) then Ok (be_octets sz (dec_value x), Some []) else Err res_parse_error.
Proof.
  intros sz x e SZ V N ->. unfold int_field. rewrite <- (app_nil_r x) at 1. rewrite token_visible by (auto; left; auto). destruct (forallb is_digit x) eqn:FD; [|reflexivity]. cbn [negb andb].
  assert (F : Forall digit x) by (apply Forall_forall; intros c C; rewrite forallb_forall in FD; apply is_digit_spec; auto).
  assert (P : 256 ^ Z.of_nat sz <= 2 ^ 32) by (change (2 ^ 32) with (256 ^ 4); apply Z.pow_le_mono_r; lia). assert (0 < 256 ^ Z.of_nat sz) by (apply Z.pow_pos_nonneg; lia).
  assert (SC : scan_u x = ScanVal (if dec_value x >? 2 ^ 64 - 1 then 2 ^ 64 - 1 else dec_value x) []).
  { unfold scan_u. destruct x as [|c x]; [congruence|]. inversion F; subst. unfold digit in *. cbn [skip_space]. replace (isspace c) with false by (unfold isspace; lia).
    cbn [scan_sign]. replace (c =? 45) with false by lia. replace (c =? 43) with false by lia. rewrite scan_digits_all by auto. cbn [negb orb]. unfold dec_value. reflexivity. }
  rewrite SC. pose proof (dec_value_nonneg x F). set (v := dec_value x) in *. destruct (Z.ltb_spec v (256 ^ Z.of_nat sz)).
  - replace (v >? 2 ^ 64 - 1) with false by lia. rewrite Z.mod_small by lia. rewrite Z.eqb_refl. reflexivity.
  - destruct (Z.gtb_spec v (2 ^ 64 - 1)).
    + pose proof (Z.mod_pos_bound (2 ^ 64 - 1) (256 ^ Z.of_nat sz) ltac:(lia)). replace ((2 ^ 64 - 1) mod 256 ^ Z.of_nat sz =? 2 ^ 64 - 1) with false by lia. reflexivity.
    + pose proof (Z.mod_pos_bound v (256 ^ Z.of_nat sz) ltac:(lia)). replace (v mod 256 ^ Z.of_nat sz =? v) with false by lia. reflexivity.
Qed.

Lemma prefix_alone : forall t, In PPrefix6 (presentation_of t) -> ~ In PDec (presentation_of t).
Proof.
  intros t. unfold presentation_of. destruct (find (fun e => fst e =? t) rr_presentation) as [[i ps]|] eqn:F; [|contradiction]. apply find_some in F as [F _]. intros A B.
  assert (K : forallb (fun e : Z * list pres => negb (existsb (fun p => match p with PPrefix6 => true | _ => false end) (snd e) && existsb (fun p => match p with PDec => true | _ => false end) (snd e))) rr_presentation = true) by (vm_compute; reflexivity).
  rewrite forallb_forall in K. specialize (K _ F). cbn [snd] in K. apply negb_true_iff, andb_false_iff in K as [K|K].
  - assert (X : existsb (fun p => match p with PPrefix6 => true | _ => false end) ps = true) by (apply existsb_exists; exists PPrefix6; auto). congruence.
  - assert (X : existsb (fun p => match p with PDec => true | _ => false end) ps = true) by (apply existsb_exists; exists PDec; auto). congruence.
Qed.
Lemma not_last : forall ts1 t ts2, ends_ok (ts1 ++ t :: ts2) = true -> unblanked_ok (ts1 ++ t :: ts2) = true -> Forall (fun t => last_field t = false) ts1.
Proof.
  induction ts1 as [|u ts1 IH]; intros t ts2 E U; [constructor|]. cbn [app] in *. assert (N : exists a b, ts1 ++ t :: ts2 = a :: b) by (destruct ts1; cbn; eauto). destruct N as (a & b & N).
  constructor.
  - rewrite N in *. cbn [ends_ok unblanked_ok] in *. unfold last_field. destruct (to_end (fmt_of u)), (unblanked u); cbn in *; congruence.
  - apply (IH t ts2); rewrite N in *; cbn [ends_ok unblanked_ok] in *; [destruct (negb (to_end (fmt_of u))); [auto|discriminate]|destruct (negb (unblanked u)); [auto|discriminate]].
Qed.
Lemma map_split : forall A B (f : A -> B) l b1 x b2, map f l = b1 ++ x :: b2 -> exists l1 y l2, l = l1 ++ y :: l2 /\ map f l1 = b1 /\ f y = x /\ map f l2 = b2.
Proof.
  induction l as [|a l IH]; intros b1 x b2 E; [destruct b1; discriminate|]. destruct b1 as [|b b1]; cbn [map app] in E.
  - injection E as E1 E2. exists [], a, l. auto.
  - injection E as E1 E2. destruct (IH _ _ _ E2) as (l1 & y & l2 & -> & M1 & M2 & M3). exists (a :: l1), y, l2. cbn [map app]. rewrite E1, M1. auto.
Qed.

Lemma integer_parse : forall t c fs1 n fs2 ps1 ps2 vs toks x, t <> 41 -> has_fields t c = true -> format_of t c = fs1 ++ FFixed n :: fs2 -> presentation_of t = ps1 ++ PDec :: ps2 -> length fs1 = length ps1 ->
  length vs = length fs1 -> wf_values fs1 vs -> fields_tokens ps1 vs toks -> all_readable ps1 vs -> visible x -> x <> [] ->
  str_to_rdata (join_by 32 (toks ++ [x])) t c =
    if forallb is_digit x && (dec_value x <? 256 ^ n) then Ok (canon vs ++ be_octets (Z.to_nat n) (dec_value x)) else Err res_parse_error.
Proof.
  intros t c fs1 n fs2 ps1 ps2 vs toks x N41 HF EF EP LEN LV W F R VX NX. destruct (table_fields t c HF N41) as (d & E1 & E2 & E3 & E4 & E5 & E6).
  rewrite format_of_fields, <- E3 in EF. pose proof EP as EP0. rewrite E4 in EP. destruct (map_split _ _ _ _ _ _ _ EF) as (l1 & y & l2 & EL & M1 & M2 & _). destruct (map_split _ _ _ _ _ _ _ EP) as (k1 & z & k2 & EK & P1 & P2 & _).
  assert (l1 = k1 /\ y = z).
  { rewrite EL in EK. assert (LL : length l1 = length k1) by (rewrite <- (map_length fmt_of l1), <- (map_length pres_of k1), M1, P1; exact LEN). clear - EK LL. revert k1 EK LL. induction l1 as [|a l1 IH]; intros [|b k1] EK LL; try discriminate.
    - injection EK as -> _. auto.
    - cbn [app] in EK. injection EK as -> EK. destruct (IH k1 EK ltac:(cbn in LL; lia)) as [-> ->]. auto. }
  destruct H as [<- <-]. subst fs1 ps1.
  assert (ENDS : ends_ok (d_types d) = true) by (rewrite E3; apply fields_for_ends).
  assert (Q : Forall (fun t => last_field t = false /\ t <> rdf_edns_opt_rdata /\ pres_of t <> PPrefix6) l1).
  { rewrite EL in *. pose proof (not_last l1 y l2 ENDS E5) as K. rewrite Forall_forall in *. intros u U. split; [auto|]. split; [intros ->; apply E6; apply in_or_app; auto|].
    intros P6. apply (prefix_alone t); rewrite EP0; apply in_or_app; [left; rewrite <- P6; apply in_map; auto|right; left; reflexivity]. }
  assert (SX : solid x) by (apply visible_solid; auto).
  assert (SOL : Forall solid (toks ++ [x])).
  { apply Forall_app. split; [|constructor; auto]. clear - F W. revert F W. generalize (map pres_of l1), (map fmt_of l1). intros ps fs FS. revert fs. induction FS as [|p ps v vs tk tk' FT FS IH]; intros fs W'; [constructor|].
    apply Forall_app. split; [|inversion W'; subst; eauto]. eapply field_tokens_solid; [exact FT|]. inversion W'; subst; auto. match goal with K : valid_name _ |- _ => apply K end. }
  assert (SK : skip_space (join_by 32 (toks ++ [x])) = join_by 32 (toks ++ [x])).
  { destruct (toks ++ [x]) as [|u us] eqn:E; [reflexivity|]. inversion SOL; subst. destruct us; [cbn [join_by]; rewrite <- (app_nil_r u) at 1; rewrite solid_skip by auto; apply app_nil_r|]. rewrite join_cons by discriminate. apply solid_skip; auto. }
  rewrite map_length in LV. destruct (fields_parse_more l1 (y :: l2) vs toks x (join_by 32 (toks ++ [x])) LV W F R Q SX SK) as (e & EX & PE).
  unfold str_to_rdata. rewrite E1, E2. cbn [negb]. rewrite EL, PE. cbn [parse_text_fields].
  assert (SZ : exists sz, (1 <= sz <= 4)%nat /\ n = Z.of_nat sz /\ parse_text_field y (skip_space e) = int_field sz (skip_space e)).
  { destruct y; cbn [pres_of] in P2; try discriminate; cbn [fmt_of] in M2; injection M2 as <-; [exists 1%nat|exists 2%nat|exists 4%nat]; split; try lia; split; reflexivity. }
  destruct SZ as (sz & SZ & -> & PI). rewrite EX in *. destruct x as [|c0 x0] eqn:EQX; [congruence|]. rewrite PI. rewrite <- EX at 1. rewrite (int_field_token sz (c0 :: x0) e SZ VX NX EX). rewrite Nat2Z.id.
  destruct (forallb is_digit (c0 :: x0) && (dec_value (c0 :: x0) <? 256 ^ Z.of_nat sz)); [|reflexivity]. cbn [bind]. destruct l2; cbn [parse_text_fields skip_space bind]; rewrite app_nil_r; reflexivity.
Qed.

(** ** Generic rdata *)
Lemma white_space : forall c, white c -> isspace c = true.
Proof. intros c H. unfold isspace, white in *. lia. Qed.
Lemma hex_digit_spec : forall c x, hex_digit c x -> isspace c = false /\ isxdigit c = true /\ hexval c = x /\ (c =? 45) || (c =? 43) = false /\ (tolower c =? 120) = false /\ 0 <= x < 16.
Proof.
  intros c x H. destruct H as [c R|c R|c R]; unfold isspace, isxdigit, hexval, tolower;
    repeat match goal with |- context [if ?b then _ else _] => let E := fresh in destruct b eqn:E; try lia end; repeat split; lia.
Qed.
Lemma scan_pair : forall h k x y r, hex_digit h x -> hex_digit k y -> scan_octet (h :: k :: r) = Ok (16 * x + y).
Proof.
  intros h k x y r H K. destruct (hex_digit_spec _ _ H) as (H1 & H2 & H3 & H4 & H5 & H6), (hex_digit_spec _ _ K) as (K1 & K2 & K3 & K4 & K5 & K6).
  unfold scan_octet, scan_hh. cbn [skip_space]. rewrite H1, H4, K5, andb_false_r. cbn [scan_xdigits]. rewrite H2, K2, H3, K3. f_equal. lia.
Qed.
Lemma generic_octets_read : forall l s, spaced_hex l s -> forall f, (length s < f)%nat -> generic_octets f s = Ok l.
Proof.
  induction 1 as [|c l s W H IH|h k x y l s H1 H2 H IH]; intros f L; (destruct f as [|f]; [lia|]); [reflexivity| |].
  - cbn [generic_octets]. rewrite (white_space c W). apply IH. cbn [length] in L. lia.
  - cbn [generic_octets]. destruct (hex_digit_spec _ _ H1) as (-> & _). rewrite (scan_pair h k x y s H1 H2). cbn [bind]. rewrite IH by (cbn [length] in L; lia). reflexivity.
Qed.
Lemma generic_spaced : forall l h, generic_hex l h -> spaced_hex l h.
Proof.
  induction 1 as [|b h l s (x & y & u & v & -> & H1 & H2 & -> & _) H IH]; [constructor|]. cbn [app]. apply sh_octet; auto. apply sh_white; [left; reflexivity|auto].
Qed.
Lemma generic_parse : forall t c n d l h, find (fun e => fst e =? t) rr_formats = None -> decimal n d -> n < 2 ^ 64 -> spaced_hex l h ->
  str_to_rdata (lit "\# " ++ d ++ [32] ++ h) t c = if zlen l =? n mod 65536 then Ok l else Err res_parse_error.
Proof.
  intros t c n d l h F D B H. apply no_fields_generic in F. unfold str_to_rdata. rewrite F. change (lit "\# ") with [92; 35; 32]. unfold str_to_generic_rdata. cbn [app].
  change (prefix_eq [92; 35] (92 :: 35 :: 32 :: d ++ 32 :: h)) with true. cbn [negb skipn]. change (isspace 32) with true. cbn [negb].
  assert (SK : skip_space (32 :: d ++ 32 :: h) = d ++ 32 :: h) by (cbn [skip_space]; change (isspace 32) with true; cbv iota; apply (skip_space_digit n); auto). rewrite SK.
  pose proof (decimal_visible _ _ D) as [V _]. rewrite token_space by (auto; right; eauto). pose proof D as (FD & _). rewrite digits_forallb by auto. cbn [negb].
  rewrite (scan_u_decimal n d (32 :: h) D B) by (cbn; unfold digit; lia). cbn [bind]. rewrite (generic_octets_read l (32 :: h) (sh_white 32 l h (or_introl eq_refl) H)) by (cbn [length]; lia). cbn [bind]. destruct (zlen l =? n mod 65536); reflexivity.
Qed.
Lemma generic_octets_odd : forall l s, spaced_hex l s -> forall c, isspace c = false -> forall f, (S (length s) < f)%nat -> generic_octets f (s ++ [c]) = Err res_parse_error.
Proof.
  induction 1 as [|c0 l s W H IH|h k x y l s H1 H2 H IH]; intros c NW f L; (destruct f as [|f]; [lia|]); cbn [app generic_octets].
  - rewrite NW. reflexivity.
  - rewrite (white_space c0 W). apply IH; auto. cbn [length] in L. lia.
  - destruct (hex_digit_spec _ _ H1) as (-> & _). rewrite (scan_pair h k x y (s ++ [c]) H1 H2). cbn [bind]. rewrite IH by (auto; cbn [length] in L; lia). reflexivity.
Qed.
Lemma generic_odd : forall t c n d l h x, find (fun e => fst e =? t) rr_formats = None -> decimal n d -> n < 2 ^ 64 -> spaced_hex l h -> isspace x = false ->
  str_to_rdata (lit "\# " ++ d ++ [32] ++ h ++ [x]) t c = Err res_parse_error.
Proof.
  intros t c n d l h x F D B H NW. apply no_fields_generic in F. unfold str_to_rdata. rewrite F. change (lit "\# ") with [92; 35; 32]. unfold str_to_generic_rdata. cbn [app].
  change (prefix_eq [92; 35] (92 :: 35 :: 32 :: d ++ 32 :: h ++ [x])) with true. cbn [negb skipn]. change (isspace 32) with true. cbn [negb].
  assert (SK : skip_space (32 :: d ++ 32 :: h ++ [x]) = d ++ 32 :: h ++ [x]) by (cbn [skip_space]; change (isspace 32) with true; cbv iota; apply (skip_space_digit n); auto). rewrite SK.
  pose proof (decimal_visible _ _ D) as [V _]. rewrite token_space by (auto; right; eauto). pose proof D as (FD & _). rewrite digits_forallb by auto. cbn [negb].
  rewrite (scan_u_decimal n d (32 :: h ++ [x]) D B) by (cbn; unfold digit; lia). cbn [bind].
  change (32 :: h ++ [x]) with ((32 :: h) ++ [x]). rewrite (generic_octets_odd l (32 :: h) (sh_white 32 l h (or_introl eq_refl) H) x NW) by (rewrite app_length; cbn [length]; lia). reflexivity.
Qed.

(** ** Type bit maps: NSEC (47), next name and types *)
Lemma nsec_parse : forall c ls ns ts, valid_name ls -> ns <> [] -> Forall (fun n => 0 <= n < 65536) ns -> Forall2 type_text ns ts ->
  exists ws, str_to_rdata (pres_name ls ++ 32 :: join_by 32 ts) 47 c = Ok (wire ls ++ concat (map window ws)) /\ canonical ws /\ (forall x, In x (bitmap_types ws) <-> In x ns).
Proof.
  intros c ls ns ts V N B F. destruct (types_to_bitmap_spec ns B) as (ws & E & C & X). exists ws. split; [|split; auto].
  unfold str_to_rdata. change (lookup_descr 47) with (Some {| d_class := class_un; d_types := [rdf_uname; rdf_type_bitmap] |}). cbn [d_class d_types]. change (class_un =? class_un) with true. cbn [orb negb].
  destruct (pres_name_visible ls (proj1 V)) as (VV & NN & _). assert (SX : solid (pres_name ls)) by (apply visible_solid; auto). cbn [parse_text_fields]. rewrite solid_skip by auto.
  destruct (pres_name ls ++ 32 :: join_by 32 ts) as [|c0 r0] eqn:EJ; [destruct (pres_name ls); discriminate|]. rewrite <- EJ. clear EJ c0 r0.
  cbn [parse_text_field]. rewrite token_visible by (auto; right; eauto). rewrite roundtrip_case by auto. cbn [bind]. rewrite take_rd_all. cbn [bind end_or_null]. 
  assert (NT : ts <> []) by (eapply Forall2_nonnil; eauto). assert (ST : Forall solid ts) by (eapply Forall2_right; [exact F|]; intros a b T; apply type_text_visible in T as [? ?]; apply visible_solid; auto).
  assert (SK : skip_space (32 :: join_by 32 ts) = join_by 32 ts).
  { cbn [skip_space]. change (isspace 32) with true. cbv iota. destruct ts as [|u us]; [congruence|]. inversion ST; subst. destruct us; [cbn [join_by]; rewrite <- (app_nil_r u) at 1; rewrite solid_skip by auto; apply app_nil_r|]. rewrite join_cons by discriminate. apply solid_skip; auto. }
  rewrite SK. destruct (join_by 32 ts) as [|c1 r1] eqn:EJ; [pose proof (join_last ts NT ST) as [_ K]; congruence|]. rewrite <- EJ. rewrite (types_read ns ts) by (auto; lia). cbn [bind]. rewrite E. cbn [bind]. rewrite app_nil_r. reflexivity.
Qed.
