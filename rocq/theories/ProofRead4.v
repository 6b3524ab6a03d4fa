(** ProofRead4.v: every field, all fields and the generic form, exactly. *)
From Verif Require Import Base Lib SpecName SpecStrName SpecMessage SpecFormat SpecText SpecRead Libc ModelName ModelFormat ModelTables ModelDescr ModelFromStr.
From Verif Require Import ProofUnpack ProofFormat ProofB64 ProofB32 ProofRdata ProofStrName ProofStrName2 ProofField ProofFromStr ProofBitmap ProofFromSafe ProofRoundTrip ProofRoundTrip2 ProofWritten
  ProofRead1 ProofRead2 ProofRead3 ProofReadSvc.

(** ** EUI addresses *)
Definition hex_pair (b : Z) (h : bytes) : Prop := exists c d x y, h = [c; d] /\ hex_digit c x /\ hex_digit d y /\ b = 16 * x + y.
Lemma scan_hh_two : forall a b r, isxdigit a = true -> isxdigit b = true -> scan_hh (a :: b :: r) = ScanVal (16 * hexval a + hexval b) r.
Proof.
  intros a b r A B. assert (HA : hex_digit a (hexval a)) by (apply hex_digit_iff; auto). assert (HB : hex_digit b (hexval b)) by (apply hex_digit_iff; auto).
  pose proof (hex_digit_range _ _ HA) as (_ & W & N1 & N2). unfold scan_hh. cbn [skip_space]. rewrite W. replace ((a =? 45) || (a =? 43)) with false by lia.
  replace (tolower b =? 120) with false by (unfold tolower; destruct HB; destruct ((65 <=? c) && (c <=? 90)) eqn:E; lia). rewrite andb_false_r.
  cbn [scan_xdigits]. rewrite A. cbn [scan_xdigits]. rewrite B. cbn [scan_xdigits]. f_equal; lia.
Qed.
Lemma hex_pair_byte : forall b h, hex_pair b h -> is_byte b.
Proof. intros b h (c & d & x & y & _ & X & Y & ->). apply hex_digit_range in X. apply hex_digit_range in Y. unfold is_byte. lia. Qed.
Lemma eui_iff : forall n s l, zlen s = 3 * Z.of_nat (S n) - 1 ->
  (eui_check (S n) s = Ok true /\ eui_scan (S n) s = Some l <-> length l = S n /\ exists hs, Forall2 hex_pair l hs /\ s = join_by 45 hs).
Proof.
  induction n as [|n IH]; intros s l L.
  - destruct s as [|a [|b [|]]]; try (unfold zlen in L; cbn [length] in L; lia). cbn [eui_check eui_scan tl]. change (hd_rd (a :: [b])) with (Ok a). change (hd_rd [b]) with (Ok b). cbn [bind]. split.
    + intros [C S]. destruct (isxdigit a) eqn:A; [|discriminate]. destruct (isxdigit b) eqn:B; [|discriminate]. rewrite scan_hh_two in S by auto. injection S as <-. split; [reflexivity|].
      exists [[a; b]]. split; [|reflexivity]. constructor; [|constructor]. exists a, b, (hexval a), (hexval b). split; [reflexivity|]. split; [apply hex_digit_iff; auto|]. split; [apply hex_digit_iff; auto|reflexivity].
    + intros (Ll & hs & F & E). destruct F as [|x h l' hs' (c & d & x1 & y1 & -> & X & Y & ->) F]; [discriminate|]. destruct F; [|discriminate]. cbn [join_by] in E. injection E as <- <-.
      apply hex_digit_iff in X as (X & ->). apply hex_digit_iff in Y as (Y & ->). rewrite X, Y. cbn [negb orb]. split; [reflexivity|]. rewrite scan_hh_two by auto. reflexivity.
  - destruct s as [|a [|b [|m s]]]; try (unfold zlen in L; cbn [length] in L; lia). assert (L' : zlen s = 3 * Z.of_nat (S n) - 1) by (unfold zlen in *; cbn [length] in L; lia).
    assert (EC : eui_check (S (S n)) (a :: b :: m :: s) = if negb (isxdigit a) || negb (isxdigit b) then Ok false else if negb (m =? 45) then Ok false else eui_check (S n) s) by reflexivity.
    assert (ES : eui_scan (S (S n)) (a :: b :: m :: s) = match scan_hh (a :: b :: m :: s) with ScanVal v r => match r with c :: r' => if c =? 45 then match eui_scan (S n) r' with Some l => Some (v :: l) | None => None end else None | [] => None end | _ => None end) by reflexivity.
    rewrite EC, ES. clear EC ES. split.
    + intros [C S]. destruct (isxdigit a) eqn:A; [|discriminate]. destruct (isxdigit b) eqn:B; [|discriminate]. cbn [negb orb] in C. destruct (m =? 45) eqn:M; [|discriminate]. cbn [negb] in C. rewrite scan_hh_two in S by auto. rewrite M in S.
      destruct (eui_scan (Datatypes.S n) s) as [l'|] eqn:E; [|discriminate]. injection S as <-. destruct (proj1 (IH s l' L') (conj C E)) as (Ll & hs & F & EQ).
      split; [cbn [length]; lia|]. exists ([a; b] :: hs). split.
      * constructor; auto. exists a, b, (hexval a), (hexval b). split; [reflexivity|]. split; [apply hex_digit_iff; auto|]. split; [apply hex_digit_iff; auto|reflexivity].
      * destruct hs as [|h hs]; [destruct l'; [discriminate|inversion F]|]. cbn [join_by app]. replace m with 45 by lia. rewrite EQ. reflexivity.
    + intros (Ll & hs & F & E). destruct F as [|x h l' hs' (c & d & x1 & y1 & -> & X & Y & ->) F]; [discriminate|]. destruct F as [|x2 h2 l2 hs2 P F]; [discriminate|].
      cbn [join_by app] in E. injection E as <- <- -> E. apply hex_digit_iff in X as (X & ->). apply hex_digit_iff in Y as (Y & ->). rewrite X, Y. cbn [negb orb]. change (45 =? 45) with true. cbn [negb].
      destruct (proj2 (IH s (x2 :: l2) L')) as (C1 & C2). { split; [cbn [length] in *; lia|]. exists (h2 :: hs2). split; [constructor; auto|]. exact E. }
      rewrite C1. split; [reflexivity|]. rewrite scan_hh_two by auto. change (45 =? 45) with true. rewrite C2. reflexivity.
Qed.
Lemma join_len : forall l hs, Forall2 hex_pair l hs -> l <> [] -> zlen (join_by 45 hs) = 3 * zlen l - 1.
Proof.
  induction 1 as [|b h l hs (c & d & x & y & -> & _) F IH]; intros N; [congruence|]. destruct F as [|b2 h2 l2 hs2 P F]; [reflexivity|].
  cbn [join_by]. cbn [join_by] in IH. specialize (IH ltac:(discriminate)). cbn [app]. rewrite !zlen_cons in *. lia.
Qed.
Lemma eui_field_iff : forall n s o e', eui_field (S n) s = Ok (o, e') <->
  e' = Some [] /\ zlen o = Z.of_nat (S n) /\ Forall is_byte o /\ exists hs, Forall2 hex_pair o hs /\ s = join_by 45 hs.
Proof.
  intros n s o e'. unfold eui_field. split.
  - destruct (zlen s =? 3 * Z.of_nat (S n) - 1) eqn:L; [|discriminate]. cbn [negb]. apply Z.eqb_eq in L. intros H. apply bind_ok in H as (b & C & H). destruct b; [|discriminate]. cbn [negb] in H.
    destruct (eui_scan (S n) s) as [l|] eqn:E; [|discriminate]. injection H as <- <-. destruct (proj1 (eui_iff n s l L) (conj C E)) as (Ll & hs & F & EQ). split; [reflexivity|]. split; [unfold zlen; lia|].
    split; [|eauto]. clear - F. induction F; constructor; auto. eapply hex_pair_byte; eauto.
  - intros (-> & L & _ & hs & F & ->). assert (LJ : zlen (join_by 45 hs) = 3 * Z.of_nat (S n) - 1). { rewrite (join_len o) by (auto; intros ->; discriminate). lia. }
    rewrite LJ, Z.eqb_refl. cbn [negb]. destruct (proj2 (eui_iff n (join_by 45 hs) o LJ)) as (C & E). { split; [unfold zlen in L; lia|eauto]. } rewrite C. cbn [bind negb]. rewrite E. reflexivity.
Qed.

(** ** One field *)
Definition norm (e : option bytes) : bytes := match e with Some e => e | None => [] end.
Lemma norm_end : forall e, norm (end_or_null e) = e.
Proof. intros [|c e]; reflexivity. Qed.
Lemma skip_inv : forall s n r, skip s n = Ok r -> r = adv s n.
Proof. intros s n r. unfold skip. destruct (_ <? _); [discriminate|]. congruence. Qed.
Lemma skip_word : forall s t e, word s t e -> skip s (zlen t) = Ok e.
Proof. intros s t e (-> & _). unfold skip. rewrite zlen_app. pose proof (zlen_nonneg _ e). replace (zlen t + zlen e <? zlen t) with false by lia. rewrite adv_app by reflexivity. reflexivity. Qed.
Lemma word_fun : forall s t e t' e', word s t e -> word s t' e' -> t = t' /\ e = e'.
Proof.
  intros s t e t' e' W W'. destruct s as [|c r]. { destruct W as (E & N & _). destruct t; [congruence|discriminate]. }
  destruct (isspace c) eqn:I.
  - (* a word may start with white space that is no blank *)
    revert t t' W W'. assert (G : forall s t t', s = t ++ e -> s = t' ++ e' -> Forall (fun c => ~ blank c) t -> Forall (fun c => ~ blank c) t' ->
      (e = [] \/ exists c r, e = c :: r /\ blank c) -> (e' = [] \/ exists c r, e' = c :: r /\ blank c) -> t = t' /\ e = e').
    { clear. induction s as [|c s IH]; intros t t' E E' F F' H H'.
      - destruct t, e, t', e'; try discriminate. auto.
      - destruct t as [|x t], t' as [|y t'].
        + cbn [app] in *. subst. auto.
        + exfalso. cbn [app] in *. subst e. injection E' as -> E'. destruct H as [X|(a & b & X & B)]; [discriminate|]. injection X as -> ->. inversion F'; auto.
        + exfalso. cbn [app] in *. subst e'. injection E as -> E. destruct H' as [X|(a & b & X & B)]; [discriminate|]. injection X as -> ->. inversion F; auto.
        + cbn [app] in *. injection E as -> E. injection E' as -> E'. inversion F; inversion F'; subst. destruct (IH t t'); auto. subst. auto. }
    intros t t' (E & _ & F & H) (E' & _ & F' & H'). eapply G; eauto.
  - apply (word_token c r) in W; auto. apply (word_token c r) in W'; auto. rewrite W in W'. injection W' as <- <-. auto.
Qed.
Lemma hex_columns_app : forall k s l e, hex_columns k s l e -> exists t, s = t ++ e /\ zlen t = 2 * Z.of_nat k /\ zlen l = Z.of_nat k.
Proof.
  induction 1 as [s|k a b s v l e V H (t & -> & L & L2)]; [exists []; split; [reflexivity|split; reflexivity]|]. exists (a :: b :: t). split; [reflexivity|]. rewrite !zlen_cons. split; lia.
Qed.
Lemma u16_octets : forall v, 0 <= v < 65536 -> be16_octets v = u16 v.
Proof. intros v H. unfold be16_octets, u16. rewrite (Z.mod_small (v / 256)); [reflexivity|]. split; [apply Z.div_pos; lia|apply Z.div_lt_upper_bound; lia]. Qed.
Lemma skip_space_app : forall w c r, Forall white w -> ~ white c -> skip_space (w ++ c :: r) = c :: r.
Proof.
  induction w as [|x w IH]; intros c r F N; cbn [app skip_space].
  - replace (isspace c) with false; [reflexivity|]. symmetry. apply white_isspace; auto.
  - inversion F; subst. replace (isspace x) with true by (symmetry; apply white_iff; auto). apply IH; auto.
Qed.
Lemma skip_space_split : forall s c r, skip_space s = c :: r -> exists w, s = w ++ c :: r /\ Forall white w /\ ~ white c.
Proof.
  induction s as [|x s IH]; intros c r H; cbn [skip_space] in H; [discriminate|]. destruct (isspace x) eqn:E.
  - destruct (IH c r H) as (w & -> & F & N). exists (x :: w). split; [reflexivity|]. split; auto. constructor; auto. apply white_iff; auto.
  - injection H as -> ->. exists []. split; [reflexivity|]. split; [constructor|]. apply white_isspace; auto.
Qed.
Lemma skip_space_nil : forall s, skip_space s = [] <-> Forall white s.
Proof.
  induction s as [|x s IH]; cbn [skip_space]; [split; auto|]. destruct (isspace x) eqn:E.
  - rewrite IH. split; intros H; [constructor; auto; apply white_iff; auto|inversion H; auto].
  - split; [discriminate|]. intros H. inversion H as [|? ? W]; subst. apply white_iff in W. congruence.
Qed.

Lemma rds_tail : forall a k, 0 <= k <= zlen a -> rds a (zlen a - k) k = Ok (skipn (length a - Z.to_nat k) a).
Proof.
  intros a k H. assert (E : a = firstn (length a - Z.to_nat k) a ++ skipn (length a - Z.to_nat k) a) by (rewrite firstn_skipn; reflexivity).
  unfold rds. replace ((zlen a - k <? 0) || (k <? 0) || (zlen a <? zlen a - k + k)) with false by lia.
  rewrite (firstn_all2 (n := Z.to_nat k)); [f_equal; f_equal; unfold zlen; lia|]. rewrite skipn_length. unfold zlen in *. lia.
Qed.

Definition skipped (t : rdf) (e : option bytes) : bytes := if to_end (fmt_of t) then [] else norm e.
Lemma prefix_iff : forall c r o e, isspace c = false -> (reads_field FPrefix6 PPrefix6 (c :: r) o e <-> exists e', prefix_field (c :: r) = Ok (o, e') /\ e = norm e').
Proof.
  intros c r o e W. unfold prefix_field. destruct (token (c :: r)) as [t e1] eqn:T. apply (word_token c r t e1 W) in T.
  assert (SC : Forall digit t -> scan_u (c :: r) = ScanVal (Z.min (dec_value t) (2 ^ 64 - 1)) e1).
  { intros F. destruct T as (EQ & NT & TR). rewrite EQ. apply scan_u_word; auto. apply (word_end_digit (c :: r) t). repeat split; tauto. }
  change (2 ^ 64 - 1) with 18446744073709551615 in SC.
  assert (OC : forall p, 0 <= p <= 128 -> (128 - p) / 8 + (if negb (p mod 8 =? 0) then 1 else 0) = (128 - p + 7) / 8).
  { intros p P. assert (G : ((128 - p) / 8 + (if negb (p mod 8 =? 0) then 1 else 0) =? (128 - p + 7) / 8) = true); [|apply Z.eqb_eq in G; exact G].
    assert (P' : 0 <= p < Z.of_nat 129) by lia. revert p P P'. assert (Q : forall p, 0 <= p < Z.of_nat 129 -> ((128 - p) / 8 + (if negb (p mod 8 =? 0) then 1 else 0) =? (128 - p + 7) / 8) = true) by (apply forall_small; vm_compute; reflexivity). auto. }
  split.
  - intros H. inversion H as [| | | | | | | | | | | | | | |f s t0 e0 v p w c2 r2 t2 e2 a WD (NT & F & V) P PL EW FW NW W2 IP PZ Q1 Q2 Q3 Q4|f s t0 e0 v w c2 r2 t2 e2 WD (NT & F & V) P EW FW NW W2 IP Q1 Q2 Q3 Q4| |]; subst f s.
    + destruct (word_fun _ _ _ _ _ WD T) as [-> ->]. rewrite (proj2 (digits_forall t) F). cbn [negb]. rewrite SC by auto. cbv zeta. change (2 ^ 64 - 1) with 18446744073709551615 in P. rewrite <- V, <- P.
      assert (PR : 0 <= p < 256) by (rewrite P; apply Z.mod_pos_bound; lia). replace (p >? 128) with false by lia. rewrite EW, skip_space_app by auto.
      apply (word_token c2 r2 t2 e2) in W2; [|apply white_isspace; auto]. rewrite W2, IP. rewrite OC by lia. destruct (inet_pton6_out _ _ IP) as (BA & LA).
      assert (K : 0 <= (128 - p + 7) / 8 <= 16) by (assert ((128 - p + 7) / 8 < 17) by (apply Z.div_lt_upper_bound; lia); assert (0 <= (128 - p + 7) / 8) by (apply Z.div_pos; lia); lia).
      rewrite <- LA. rewrite rds_tail by lia. cbn [bind]. replace (length a) with 16%nat by (unfold zlen in LA; lia). destruct e2 as [|x y]; cbn [end_or_null].
      * eexists. split; [reflexivity|]. cbn [norm]. destruct (p =? 0); reflexivity.
      * destruct (p =? 0) eqn:Z0; [|eexists; split; reflexivity]. rewrite (proj2 (skip_space_nil (x :: y))) by (apply PZ; lia). eexists. split; reflexivity.
    + destruct (word_fun _ _ _ _ _ WD T) as [-> ->]. rewrite (proj2 (digits_forall t) F). cbn [negb]. rewrite SC by auto. cbv zeta. change (2 ^ 64 - 1) with 18446744073709551615 in P. rewrite V in P. rewrite P.
      change (128 >? 128) with false. cbv iota. rewrite EW, skip_space_app by auto. apply (word_token c2 r2 t2 e2) in W2; [|apply white_isspace; auto]. rewrite W2, IP. change (128 =? 128) with true. cbn [negb].
      eexists. split; reflexivity.
  - intros (e' & H & ->). destruct (forallb is_digit t) eqn:F; [|discriminate]. apply digits_forall in F. cbn [negb] in H. rewrite SC in H by auto. cbv zeta in H.
    remember (Z.min (dec_value t) 18446744073709551615 mod 256) as p eqn:P. assert (PR : 0 <= p < 256) by (rewrite P; apply Z.mod_pos_bound; lia).
    destruct (p >? 128) eqn:PL; [discriminate|]. destruct (skip_space e1) as [|c2 r2] eqn:SK; [discriminate|]. apply skip_space_split in SK as (w & EW & FW & NW).
    destruct (token (c2 :: r2)) as [t2 e2] eqn:W2. apply (word_token c2 r2) in W2; [|apply white_isspace; auto]. assert (NU : numeral t (dec_value t)) by (split; [apply T|auto]).
    destruct (inet_pton6 t2) as [a|] eqn:IP.
    + rewrite OC in H by lia. destruct (inet_pton6_out _ _ IP) as (BA & LA).
      assert (K : 0 <= (128 - p + 7) / 8 <= 16) by (assert ((128 - p + 7) / 8 < 17) by (apply Z.div_lt_upper_bound; lia); assert (0 <= (128 - p + 7) / 8) by (apply Z.div_pos; lia); lia).
      rewrite <- LA in H. rewrite rds_tail in H by lia. cbn [bind] in H. replace (length a) with 16%nat in H by (unfold zlen in LA; lia).
      assert (R : (p = 0 -> Forall white e2) -> reads_field FPrefix6 PPrefix6 (c :: r) (p :: skipn (16 - Z.to_nat ((128 - p + 7) / 8)) a) (if p =? 0 then [] else e2)).
      { intros PZ. eapply rf_prefix; eauto. lia. }
      destruct e2 as [|x y]; cbn [end_or_null] in H.
      * injection H as <- <-. cbn [norm]. specialize (R ltac:(auto)). destruct (p =? 0); exact R.
      * destruct (p =? 0) eqn:Z0.
        { destruct (skip_space (x :: y)) eqn:SN; [|discriminate]. injection H as <- <-. apply skip_space_nil in SN. apply R. auto. }
        injection H as <- <-. apply R. lia.
    + destruct (p =? 128) eqn:P8; [|discriminate]. cbn [negb] in H. injection H as <- <-. replace p with 128 in * by lia. eapply rf_prefix_128; eauto.
Qed.

Lemma field_iff : forall t c r o e, t <> rdf_edns_opt_rdata -> isspace c = false -> SpecName.c_string (c :: r) ->
  (reads_field (fmt_of t) (pres_of t) (c :: r) o e <-> exists e', parse_text_field t (c :: r) = Ok (o, e') /\ e = skipped t e').
Proof.
  intros t c r o e NE W CS. assert (BO : bytes_ok (c :: r)) by (eapply Forall_impl; [|exact CS]; intros x X; unfold is_byte; cbn in X; lia).
  assert (WT : forall t' e'', token (c :: r) = (t', e'') <-> word (c :: r) t' e'') by (intros; apply word_token; auto).
  assert (INT : forall n, (n <= 4)%nat -> (reads_field (FFixed (Z.of_nat n)) PDec (c :: r) o e <-> exists e', int_field n (c :: r) = Ok (o, e') /\ e = norm e')).
  { intros n N4. split.
    - intros H. inversion H as [|? ? t0 e0 v ? WD NU B L V| | | | | | | | | | | | | | | | |]; subst. exists (Some e). split; [|reflexivity]. apply int_iff; auto. exists t0, e, (be_value o). auto 10.
    - intros (e' & H & ->). apply int_iff in H as (t0 & e0 & v & -> & WD & NU & B & L & V); auto. cbn [norm]. eapply rf_number; eauto. }
  assert (EUI : forall n, reads_field (FFixed (Z.of_nat (S n))) PEui (c :: r) o e <-> exists e', eui_field (S n) (c :: r) = Ok (o, e') /\ e = norm e').
  { intros n. split.
    - intros H. inversion H as [| | | | | | | | | | | |? ? ? L B HX| | | | | |]; subst. exists (Some []). split; [|reflexivity]. apply eui_field_iff. auto.
    - intros (e' & H & ->). apply eui_field_iff in H as (-> & L & B & HX). cbn [norm]. apply rf_eui; auto. }
  destruct (token (c :: r)) as [tk te] eqn:T. pose proof (proj1 (WT tk te) eq_refl) as TW. unfold skipped.
  destruct t; try congruence; cbn [fmt_of pres_of to_end parse_text_field]; rewrite ?T; try apply (INT 1%nat); try apply (INT 2%nat); try apply (INT 4%nat); try apply (EUI 5%nat); try apply (EUI 7%nat); try (apply prefix_iff; auto); try lia.
  - (* hex *) split.
    + intros H. inversion H as [| | | | |f k s l HC| | | | | | | | | | | | |]; subst. exists (Some []). rewrite (proj2 (hex_pairs_iff (S (length (c :: r))) (c :: r) o ltac:(lia))) by eauto. auto.
    + intros (e' & H & ->). apply bind_ok in H as (l & H1 & H). injection H as <- <-. apply hex_pairs_iff in H1 as (k & HC); [|lia]. eapply rf_hex; eauto.
  - (* base64 *) split.
    + intros H. inversion H as [| | | | | |f s vs l V O| | | | | | | | | | | |]; subst. assert (E : base64_str_to_bytes (c :: r) = Ok o) by (apply base64_iff; eauto). rewrite E. cbn [bind].
      pose proof (base64_len_le _ _ BO E) as L. unfold skip. replace (zlen (c :: r) <? zlen o) with false by lia. cbn [bind]. eexists. split; reflexivity.
    + intros (e' & H & ->). apply bind_ok in H as (l & H1 & H). apply bind_ok in H as (q & H2 & H). injection H as <- <-. apply base64_iff in H1 as (vs & V & O); auto. eapply rf_base64; eauto.
  - (* quoted *) split.
    + intros H. inversion H as [| | | | | | |f s l e0 SR N34 LA Q1 Q2 Q3 Q4| | | | | | | | | | |]; subst. exists (Some []). split; [|reflexivity].
      assert (L3 : zlen (34 :: r) >=? 3 = true). { destruct r as [|x [|y r]]; [cbn in LA; lia|cbn in LA; congruence|]. rewrite !zlen_cons. pose proof (zlen_nonneg _ r). lia. }
      rewrite L3. cbn [nth]. change (34 =? 34) with true. replace (last (34 :: r) 0) with 34. 2:{ destruct r; [discriminate|]. exact (eq_sym LA). }
      change (34 =? 34) with true. cbn [andb]. apply string_iff in SR. rewrite SR. reflexivity.
    + intros (e' & H & ->). destruct ((zlen (c :: r) >=? 3) && (nth 0 (c :: r) 0 =? 34) && (last (c :: r) 0 =? 34)) eqn:B; [|discriminate]. apply andb_prop in B as [B B3]. apply andb_prop in B as [B1 B2]. cbn [nth] in B2.
      replace c with 34 in * by lia. destruct (from_str_string (34 :: r)) as [[l e0]|] eqn:FS; [|discriminate]. injection H as <- <-. apply string_iff in FS.
      destruct r as [|x r]; [unfold zlen in B1; cbn in B1; discriminate|]. eapply rf_quoted; [exact FS| |].
      * intros E. injection E as -> ->. unfold zlen in B1; cbn in B1; discriminate.
      * change (last (34 :: x :: r) 0) with (last (x :: r) 0) in B3. lia.
  - (* name *) assert (CT : SpecName.c_string tk) by (exact (proj1 (word_c_string _ _ _ CS TW))). split.
    + intros H. inversion H as [f s t0 e0 ls WD WR L| | | | | | | | | | | | | | | | | |]; subst. destruct (word_fun _ _ _ _ _ WD TW) as [-> ->].
      assert (E : str_to_name_case tk [] = Ok (wire ls, zlen (wire ls))) by (apply (gen_ok_iff false tk [] CT); exists ls; auto). rewrite E. cbn [bind]. rewrite take_rd_all. cbn [bind]. eexists. split; [reflexivity|]. rewrite norm_end. reflexivity.
    + intros (e' & H & ->). apply bind_ok in H as ([d len] & H1 & H). apply (gen_ok_iff false tk [] CT) in H1 as (ls & WR & L & -> & ->). rewrite take_rd_all in H. cbn [bind] in H. injection H as <- <-. rewrite norm_end. eapply rf_name; eauto.
  - (* uname *) assert (CT : SpecName.c_string tk) by (exact (proj1 (word_c_string _ _ _ CS TW))). split.
    + intros H. inversion H as [f s t0 e0 ls WD WR L| | | | | | | | | | | | | | | | | |]; subst. destruct (word_fun _ _ _ _ _ WD TW) as [-> ->].
      assert (E : str_to_name_case tk [] = Ok (wire ls, zlen (wire ls))) by (apply (gen_ok_iff false tk [] CT); exists ls; auto). rewrite E. cbn [bind]. rewrite take_rd_all. cbn [bind]. eexists. split; [reflexivity|]. rewrite norm_end. reflexivity.
    + intros (e' & H & ->). apply bind_ok in H as ([d len] & H1 & H). apply (gen_ok_iff false tk [] CT) in H1 as (ls & WR & L & -> & ->). rewrite take_rd_all in H. cbn [bind] in H. injection H as <- <-. rewrite norm_end. eapply rf_name; eauto.
  - (* ipv4 *) split.
    + intros H. inversion H as [| | |f s t0 e0 a WD IP| | | | | | | | | | | | | | |]; subst. destruct (word_fun _ _ _ _ _ WD TW) as [-> ->]. rewrite IP. eexists. split; reflexivity.
    + intros (e' & H & ->). destruct (inet_pton4 tk) as [a|] eqn:IP; [|discriminate]. injection H as <- <-. cbn [norm]. eapply rf_ipv4; eauto.
  - (* ipv6 *) split.
    + intros H. inversion H as [| | | |f s t0 e0 a WD IP| | | | | | | | | | | | | |]; subst. destruct (word_fun _ _ _ _ _ WD TW) as [-> ->]. rewrite IP. eexists. split; [reflexivity|]. rewrite norm_end. reflexivity.
    + intros (e' & H & ->). destruct (inet_pton6 tk) as [a|] eqn:IP; [|discriminate]. injection H as <- <-. rewrite norm_end. eapply rf_ipv6; eauto.
  - (* string *) split.
    + intros H. inversion H as [| | | | | | | | | | | | |f s l e0 SR L| | | | |]; subst. rewrite (proj2 (cs_iff (c :: r) (char_string l) e)) by eauto. cbn [bind]. eexists. split; reflexivity.
    + intros (e' & H & ->). apply bind_ok in H as ([l q] & H1 & H). injection H as <- <-. apply cs_iff in H1 as (l' & SR & L & ->). cbn [norm]. apply rf_string; auto.
  - (* strings *) split.
    + intros H. inversion H as [| | | | | | | | | | | | | |f s ls SR| | | |]; subst. rewrite (proj2 (strings_iff (S (length (c :: r))) (c :: r) (concat (map char_string ls)) ltac:(lia))) by eauto. cbn [bind]. eexists. split; reflexivity.
    + intros (e' & H & ->). apply bind_ok in H as (l & H1 & H). injection H as <- <-. apply strings_iff in H1 as (ls & SR & ->); [|lia]. apply rf_strings; auto.
  - (* rrtype *) pose proof (rrtype_range tk) as RR. split.
    + intros H. inversion H as [| |f s t0 e0 WD N0| | | | | | | | | | | | | | | |]; subst. destruct (word_fun _ _ _ _ _ WD TW) as [-> ->]. replace (str_to_rrtype tk >? 0) with true by lia. rewrite u16_octets by auto. eexists. split; [reflexivity|]. rewrite norm_end. reflexivity.
    + intros (e' & H & ->). cbv zeta in H. destruct (str_to_rrtype tk >? 0) eqn:P; [|discriminate]. rewrite (u16_octets _ RR) in H. assert (o = u16 (str_to_rrtype tk)) by congruence. assert (e' = end_or_null te) by congruence. subst o e'. rewrite norm_end. eapply rf_type; eauto. lia.
  - (* types *) split.
    + intros H. inversion H as [| | | | | | | | | | | | | | | | | |f s ts ws TR C X]; subst. destruct (proj2 (bitmap_iff (c :: r) (concat (map window ws)))) as (ts' & E1 & E2); [eauto 10|]. rewrite E1. cbn [bind]. rewrite E2. cbn [bind]. eexists. split; reflexivity.
    + intros (e' & H & ->). apply bind_ok in H as (ts & H1 & H). apply bind_ok in H as (l & H2 & H). injection H as <- <-. destruct (proj1 (bitmap_iff (c :: r) l)) as (ts' & ws & TR & C & X & ->); [eauto|]. eapply rf_types; eauto.
  - (* salt *) split.
    + intros H. inversion H as [| | | | | | | |f s e0 WD|f s t0 e0 k l WD L K HC| | | | | | | | |]; subst; destruct (word_fun _ _ _ _ _ WD TW) as [<- <-].
      * pose proof WD as (EQ & _). injection EQ as -> EQ. cbn [nth]. change (45 =? 45) with true. change (zlen [45] =? 1) with true. cbn [andb].
        unfold skip. replace (zlen (45 :: r) <? 1) with false by (rewrite zlen_cons; pose proof (zlen_nonneg _ r); lia). cbn [bind]. eexists. split; [reflexivity|]. cbn [norm].
        assert (Q := skip_word _ _ _ WD). apply skip_inv in Q. exact Q.
      * replace (zlen t0 =? 1) with false by lia. rewrite andb_false_r. replace (zlen t0 >? 510) with false by lia. rewrite L. replace (2 * Z.of_nat k) with (Z.of_nat k * 2) by lia. rewrite Z.mod_mul by lia. cbn [orb Z.eqb]. rewrite Z.div_mul by lia. rewrite Nat2Z.id.
        rewrite (proj2 (salt_pairs_iff k (c :: r) l e) HC). cbn [bind]. destruct (hex_columns_app _ _ _ _ HC) as (_ & _ & _ & LL). unfold char_string. rewrite LL. eexists. split; reflexivity.
    + intros (e' & H & ->). destruct ((nth 0 (c :: r) 0 =? 45) && (zlen tk =? 1)) eqn:B.
      * apply andb_prop in B as [B1 B2]. cbn [nth] in B1. destruct tk as [|x [|y tk]]; try (unfold zlen in B2; cbn [length] in B2; lia). pose proof TW as (EQ & _). injection EQ as <- EQ. replace c with 45 in * by lia.
        pose proof (skip_word _ _ _ TW) as SW. change (zlen [45]) with 1 in SW. rewrite SW in H. cbn [bind] in H. injection H as <- <-. cbn [norm]. apply rf_no_salt. exact TW.
      * destruct ((zlen tk >? 510) || (zlen tk mod 2 =? 1)) eqn:B2; [discriminate|]. apply orb_false_iff in B2 as [B2 B3]. apply bind_ok in H as ([l q] & H1 & H). injection H as <- <-. apply salt_pairs_iff in H1.
        pose proof (zlen_nonneg _ tk) as ZP. pose proof (Z.div_mod (zlen tk) 2 ltac:(lia)) as DM. pose proof (Z.mod_pos_bound (zlen tk) 2 ltac:(lia)) as MB. 
        destruct (hex_columns_app _ _ _ _ H1) as (t' & EQ & LT & LL). rewrite Z2Nat.id in LT, LL by lia.
        assert (QE : q = te). { destruct TW as (EQ' & _). rewrite EQ in EQ'. apply (f_equal (fun x => adv x (zlen t'))) in EQ'. rewrite adv_app in EQ' by reflexivity. rewrite adv_app in EQ' by lia. exact EQ'. }
        subst q. cbn [norm]. replace (zlen tk / 2) with (zlen l) by lia. change (zlen l :: l) with (char_string l). eapply rf_salt; [exact TW| | |exact H1]; lia.
  - (* hash *) assert (BT : bytes_ok tk). { destruct TW as (EQ & _). rewrite EQ in BO. apply bytes_ok_app in BO. tauto. } split.
    + intros H. inversion H as [| | | | | | | | | |f s c0 e0 WD|f s t0 e0 vs l WD L V O L2| | | | | | |]; subst; destruct (word_fun _ _ _ _ _ WD TW) as [<- <-].
      * change (zlen [c0] =? 1) with true. cbv iota. pose proof (skip_word _ _ _ WD) as SW. change (zlen [c0]) with 1 in SW. rewrite SW. cbn [bind]. eexists. split; reflexivity.
      * replace (zlen t0 =? 1) with false by lia. rewrite (proj2 (base32_iff t0 l BT)) by eauto. cbn [bind]. rewrite Z.mod_small by (pose proof (zlen_nonneg _ l); lia). rewrite Z.eqb_refl. cbn [negb]. eexists. split; reflexivity.
    + intros (e' & H & ->). destruct (zlen tk =? 1) eqn:L1.
      * destruct tk as [|x [|y tk]]; try (unfold zlen in L1; cbn [length] in L1; lia). pose proof (skip_word _ _ _ TW) as SW. change (zlen [x]) with 1 in SW. rewrite SW in H. cbn [bind] in H. injection H as <- <-. cbn [norm]. eapply rf_no_hash; eauto.
      * apply bind_ok in H as (ol & H1 & H). destruct ol as [l|]; [|discriminate]. destruct (negb (zlen l mod 256 =? zlen l)) eqn:M; [discriminate|]. injection H as <- <-. apply base32_iff in H1 as (vs & V & O); auto. cbn [norm].
        change (zlen l :: l) with (char_string l). apply negb_false_iff, Z.eqb_eq in M. pose proof (Z.mod_pos_bound (zlen l) 256 ltac:(lia)).
        assert (1 < zlen tk). { destruct TW as (_ & N & _). destruct tk as [|x tk]; [congruence|]. rewrite zlen_cons in *. pose proof (zlen_nonneg _ tk). lia. }
        eapply rf_hash; eauto. lia.
  - (* svcparams *) split.
    + intros H. inversion H as [| | | | | | | | | | | | | | | | |f s o0 PR|]; subst. rewrite (proj2 (params_iff (S (length (c :: r))) (c :: r) o ltac:(lia)) PR). cbn [bind]. eexists. split; reflexivity.
    + intros (e' & H & ->). apply bind_ok in H as (l & H1 & H). injection H as <- <-. apply params_iff in H1; [|lia]. apply rf_params; auto.
Qed.
