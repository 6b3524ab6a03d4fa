(** ProofWritten.v: what wdns_str_to_rdata writes. *)
From Coq Require Strings.String.
From Verif Require Import Base Lib SpecName SpecMessage SpecFormat SpecTables SpecText Libc ModelName ModelFormat ModelTables ModelDescr ModelRRset ModelFromStr.
From Verif Require Import SpecEncode SpecWritten ProofStrName ProofTables ProofFormat ProofRdata ProofBitmap ProofField ProofRdataText ProofFromSafe.

Lemma s2n_dangling : forall f down t slen ll nl buf ocl r, dangling t = true -> slen = zlen t ->
  s2n_loop f down (t ++ [0]) slen ll nl buf ocl <> Ok r.
Proof.
  induction f as [|f IH]; intros down t slen ll nl buf ocl r D -> E; [discriminate|].
  destruct t as [|c t]; [discriminate|]. cbn [s2n_loop app hd_rd bind tl] in E. rewrite zlen_cons in E. pose proof (zlen_nonneg _ t) as Z0.
  replace (zlen t + 1 =? 0) with false in E by lia.
  destruct (nl >=? MAXLEN_NAME); [discriminate|].
  cbn [dangling] in D.
  destruct ((65 <=? c) && (c <=? 90)) eqn:U.
  { replace (c =? 92) with false in D by lia. destruct (push _ _ _); cbn [bind] in E; try discriminate. eapply IH in E; eauto. lia. }
  destruct (c =? 92) eqn:B.
  - destruct t as [|d t].
    + cbn [app hd_rd bind tl] in E. change (negb (is_digit 0)) with true in E. cbv iota in E. change (zlen [] + 1 <=? 0) with false in E. cbv iota in E.
      destruct (push _ _ _); cbn [bind] in E; try discriminate. destruct f; cbn in E; discriminate.
    + cbn [app hd_rd bind tl] in E. rewrite zlen_cons in *. pose proof (zlen_nonneg _ t) as Z1. destruct (negb (is_digit d)) eqn:Nd.
      * replace (_ <=? 0) with false in E by lia. destruct (push _ _ _); cbn [bind] in E; try discriminate. eapply IH in E; eauto. lia.
      * cbn [andb] in E. destruct (_ >=? 3) eqn:G; [|cbv iota in E; discriminate E]. destruct t as [|d1 t]; [change (zlen []) with 0 in G; lia|]. cbn [app hd_rd bind tl] in E.
        destruct t as [|d2 t].
        { cbn [app hd_rd bind tl] in E. change (is_digit 0) with false in E. rewrite orb_true_r in E. discriminate. }
        cbn [app hd_rd bind tl] in E. rewrite !zlen_cons in *. destruct (false || negb (is_digit d1) || negb (is_digit d2)) eqn:ND; [discriminate E|].
        destruct (_ <=? 255); [|discriminate]. destruct (push _ _ _); cbn [bind] in E; try discriminate. eapply IH in E; eauto; rewrite ?zlen_cons; [|lia].
        cbn [dangling] in D. unfold is_digit in *. replace (d1 =? 92) with false in D by lia. replace (d2 =? 92) with false in D by lia. auto.
  - cbn [bind andb] in E. destruct (c =? 46).
    + destruct (set_at _ _ _); cbn [bind] in E; try discriminate. destruct (_ =? 0); [discriminate|]. destruct (push _ _ _); cbn [bind] in E; try discriminate.
      destruct (_ =? 1) eqn:S0; [destruct t; [discriminate|rewrite zlen_cons in S0; pose proof (zlen_nonneg _ t); lia]|]. eapply IH in E; eauto. lia.
    + destruct (negb (c =? 0)); [|eapply IH in E; eauto; lia]. destruct (push _ _ _); cbn [bind] in E; try discriminate. eapply IH in E; eauto. lia.
Qed.
Lemma gen_ok_dangling : forall down s w n, str_to_name_gen down s [] = Ok (w, n) -> dangling s = false.
Proof.
  intros down s w n E. destruct (dangling s) eqn:D; auto. exfalso. unfold str_to_name_gen in E.
  destruct ((zlen s =? 0) || _) eqn:G.
  { destruct s as [|c [|d s]]; [discriminate| |rewrite !zlen_cons in G; pose proof (zlen_nonneg _ s); lia]. cbn in D. rewrite zlen_cons in G. change (zlen []) with 0 in G. destruct (c =? 92) eqn:?; [|discriminate]. lia. }
  eapply s2n_dangling in E; eauto.
Qed.

(** ** Octets *)
Lemma bytes_ok_one : forall x, is_byte x -> bytes_ok [x].
Proof. intros x H. constructor; [exact H|constructor]. Qed.
Lemma scan_xdigits_range : forall n s v seen v' seen' r, 0 <= v -> scan_xdigits n s v seen = (v', seen', r) -> 0 <= v' < (v + 1) * 16 ^ Z.of_nat n.
Proof.
  induction n as [|n IH]; intros s v seen v' seen' r V E; cbn [scan_xdigits] in E.
  - injection E as <- _ _. change (16 ^ Z.of_nat 0) with 1. lia.
  - rewrite Nat2Z.inj_succ, Z.pow_succ_r by lia. assert (P : 0 < 16 ^ Z.of_nat n) by (apply Z.pow_pos_nonneg; lia).
    destruct s as [|c s]; [injection E as <- _ _; nia|]. destruct (isxdigit c) eqn:X; [|injection E as <- _ _; nia].
    assert (H : 0 <= hexval c < 16). { unfold isxdigit in X. unfold hexval in *. repeat (match goal with |- context[if ?b then _ else _] => destruct b eqn:? end); lia. }
    apply IH in E; nia.
Qed.
Lemma scan_octet_byte : forall s v, scan_octet s = Ok v -> is_byte v.
Proof.
  intros s v E. unfold scan_octet, scan_hh in E. destruct (skip_space s) as [|c r]; [discriminate|]. unfold is_byte.
  destruct ((c =? 45) || (c =? 43)).
  - destruct (scan_xdigits 1 r 0 false) as [[v' seen] r'] eqn:X. apply scan_xdigits_range in X; [|lia]. change ((0 + 1) * 16 ^ Z.of_nat 1) with 16 in X.
    destruct seen; [|discriminate]. assert (K : (if c =? 45 then - v' mod 256 else v') = v) by congruence. destruct (c =? 45); [|lia]. pose proof (Z.mod_pos_bound (- v') 256 ltac:(lia)). lia.
  - destruct (_ && _); [injection E as <-; lia|]. destruct (scan_xdigits 2 (c :: r) 0 false) as [[v' seen] r'] eqn:X. apply scan_xdigits_range in X; [|lia].
    change ((0 + 1) * 16 ^ Z.of_nat 2) with 256 in X. destruct seen; [|discriminate]. assert (K : v' = v) by congruence. lia.
Qed.
Lemma hex_pairs_bytes : forall f s o, hex_pairs f s = Ok o -> bytes_ok o.
Proof.
  induction f as [|f IH]; intros s o E; [discriminate|]. cbn [hex_pairs] in E. destruct s as [|a [|b s]]; [injection E as <-; constructor|discriminate|].
  apply bind_ok in E as (c & C & E). apply bind_ok in E as (o' & O & E). injection E as <-. constructor; [eapply scan_octet_byte; eauto|exact (IH _ _ O)].
Qed.
Lemma generic_octets_bytes : forall f s o, generic_octets f s = Ok o -> bytes_ok o.
Proof.
  induction f as [|f IH]; intros s o E; [discriminate|]. cbn [generic_octets] in E. destruct s as [|a s]; [injection E as <-; constructor|].
  destruct (isspace a); [eauto|]. destruct s as [|b s]; [discriminate|].
  apply bind_ok in E as (c & C & E). apply bind_ok in E as (o' & O & E). injection E as <-. constructor; [eapply scan_octet_byte; eauto|exact (IH _ _ O)].
Qed.
Lemma salt_pairs_out : forall n s o e, salt_pairs n s = Ok (o, e) -> bytes_ok o /\ zlen o = Z.of_nat n.
Proof.
  induction n as [|n IH]; intros s o e E; cbn [salt_pairs] in E; [injection E as <- _; split; [constructor|reflexivity]|].
  apply bind_ok in E as (c & C & E). apply bind_ok in E as (s' & S & E). apply bind_ok in E as ([o' e'] & O & E). injection E as <- _.
  apply IH in O as (B & L). split; [constructor; [eapply scan_octet_byte; eauto|auto]|rewrite zlen_cons; lia].
Qed.
Lemma be_octets_out : forall sz v, bytes_ok (be_octets sz v) /\ zlen (be_octets sz v) = Z.of_nat sz.
Proof.
  induction sz as [|sz IH]; intros v; cbn [be_octets]; [split; [constructor|reflexivity]|]. destruct (IH (v / 256)) as (B & L). split.
  - apply bytes_ok_app. split; [auto|]. apply bytes_ok_one. unfold is_byte. pose proof (Z.mod_pos_bound v 256 ltac:(lia)). lia.
  - rewrite zlen_app. change (zlen [v mod 256]) with 1. lia.
Qed.
Lemma be16_bytes : forall v, bytes_ok (be16_octets v).
Proof. intros v. unfold be16_octets. pose proof (Z.mod_pos_bound v 256 ltac:(lia)). pose proof (Z.mod_pos_bound (v / 256) 256 ltac:(lia)). repeat constructor; unfold is_byte; lia. Qed.
Lemma be16_u16 : forall v, 0 <= v < 65536 -> be16_octets v = u16 v.
Proof. intros v H. unfold be16_octets, u16. rewrite (Z.mod_small (v / 256)); [auto|]. split; [apply Z.div_pos; lia|apply Z.div_lt_upper_bound; lia]. Qed.
Lemma eui_scan_out : forall n s l, eui_scan n s = Some l -> bytes_ok l /\ zlen l = Z.of_nat n.
Proof.
  induction n as [|n IH]; intros s l E; cbn [eui_scan] in E; [injection E as <-; split; [constructor|reflexivity]|].
  destruct (scan_hh s) as [| |v r] eqn:SC; try discriminate. assert (BV : is_byte v) by (apply (scan_octet_byte s); unfold scan_octet; rewrite SC; auto).
  destruct n as [|n]; [injection E as <-; split; [apply bytes_ok_one; auto|reflexivity]|].
  destruct r as [|c r]; [discriminate|]. destruct (c =? 45); [|discriminate]. destruct (eui_scan (S n) r) as [l'|] eqn:X; [|discriminate]. injection E as <-.
  apply IH in X as (B & L). split; [constructor; auto|rewrite zlen_cons; lia].
Qed.
Lemma pton4_bytes : forall s done cur a, pton4_loop s done cur = Some a -> bytes_ok done -> (forall v, cur = Some v -> is_byte v) -> bytes_ok a.
Proof.
  unfold is_byte. induction s as [|c s IH]; intros done cur a E B C; cbn [pton4_loop] in E.
  - destruct cur as [v|]; [|discriminate]. destruct (_ =? 3); [|discriminate]. injection E as <-. apply bytes_ok_app. split; [auto|apply bytes_ok_one, C; auto].
  - destruct (is_digit c) eqn:D.
    + unfold is_digit in D. destruct cur as [v|].
      * specialize (C v eq_refl). destruct (v =? 0); [discriminate|]. destruct (_ >? 255) eqn:G; [discriminate|]. apply IH in E; auto. intros w W. injection W as <-. lia.
      * destruct (_ >=? 4); [discriminate|]. apply IH in E; auto. intros w W. injection W as <-. lia.
    + destruct cur as [v|]; [|discriminate]. destruct (c =? 46); [|discriminate]. destruct (_ >=? 3); [discriminate|]. apply IH in E; auto; [|discriminate].
      apply bytes_ok_app. split; [auto|apply bytes_ok_one, C; auto].
Qed.
Lemma pton6_loop_bytes : forall s tmp cp ct nx val tmp' cp' nx' val', pton6_loop s tmp cp ct nx val = Some (tmp', cp', nx', val') -> bytes_ok tmp ->
  0 <= nx <= 4 -> 0 <= val < 16 ^ nx -> bytes_ok tmp' /\ 0 <= val' < 65536.
Proof.
  induction s as [|c s IH]; intros tmp cp ct nx val tmp' cp' nx' val' E B NX V; cbn [pton6_loop] in E.
  - injection E as <- _ _ <-. split; [auto|]. assert (16 ^ nx <= 16 ^ 4) by (apply Z.pow_le_mono_r; lia). change (16 ^ 4) with 65536 in *. lia.
  - assert (PW : 16 ^ nx <= 65536) by (change 65536 with (16 ^ 4); apply Z.pow_le_mono_r; lia).
    destruct (isxdigit c) eqn:X.
    + destruct (nx =? 4) eqn:N4; [discriminate|]. assert (H : 0 <= hexval c < 16). { unfold isxdigit in X. unfold hexval in *. repeat (match goal with |- context[if ?b then _ else _] => destruct b eqn:? end); lia. }
      apply IH in E; auto; [lia|]. rewrite Z.pow_add_r by lia. change (16 ^ 1) with 16. nia.
    + destruct (c =? 58).
      * destruct (nx =? 0).
        -- destruct cp; [discriminate|]. apply IH in E; auto; [lia|]. change (16 ^ 0) with 1. lia.
        -- destruct (match s with [] => true | _ => false end); [discriminate|]. destruct (_ >? 16); [discriminate|]. apply IH in E; auto; [|lia|change (16 ^ 0) with 1; lia].
           apply bytes_ok_app. split; [auto|]. pose proof (Z.mod_pos_bound val 256 ltac:(lia)). assert (0 <= val / 256 < 256) by (split; [apply Z.div_pos; lia|apply Z.div_lt_upper_bound; lia]).
           repeat constructor; unfold is_byte; lia.
      * destruct (_ && _); [|discriminate]. destruct (inet_pton4 ct) as [a|] eqn:P; [|discriminate]. injection E as <- _ _ <-. split; [|lia]. apply bytes_ok_app. split; [auto|].
        eapply pton4_bytes; [exact P|constructor|discriminate].
Qed.
Lemma inet_pton4_out : forall s a, inet_pton4 s = Some a -> bytes_ok a /\ zlen a = 4.
Proof. intros s a E. split; [eapply pton4_bytes; [exact E|constructor|discriminate]|eapply pton4_len; eauto]. Qed.
Lemma inet_pton6_out : forall s a, inet_pton6 s = Some a -> bytes_ok a /\ zlen a = 16.
Proof.
  intros s a E. split; [|apply inet_pton6_len in E; auto]. unfold inet_pton6 in E.
  destruct (match s with [] => None | _ => _ end) as [s'|]; [|discriminate].
  destruct (pton6_loop s' [] None s' 0 0) as [[[[tmp cp] nx] val]|] eqn:P; [|discriminate].
  apply pton6_loop_bytes in P as (B & V); [|constructor|lia|change (16 ^ 0) with 1; lia].
  destruct (_ && _); [discriminate|]. cbv zeta in E.
  assert (BT : bytes_ok (if nx >? 0 then tmp ++ [val / 256; val mod 256] else tmp)).
  { destruct (nx >? 0); [|auto]. apply bytes_ok_app. split; [auto|]. pose proof (Z.mod_pos_bound val 256 ltac:(lia)). assert (0 <= val / 256 < 256) by (split; [apply Z.div_pos; lia|apply Z.div_lt_upper_bound; lia]).
    repeat constructor; unfold is_byte; lia. }
  destruct cp as [k|]; destruct (_ =? 16); try discriminate; assert (X : a = a) by auto.
  - injection E as <-. apply bytes_ok_app. split; [apply bytes_ok_firstn; auto|]. apply bytes_ok_app. split; [|apply bytes_ok_skipn; auto].
    apply Forall_forall. intros x I. apply repeat_spec in I. subst. unfold is_byte. lia.
  - injection E as <-. auto.
Qed.

(** ** base64, base32 *)
Lemma lor_byte : forall a b, is_byte a -> is_byte b -> is_byte (Z.lor a b).
Proof.
  intros a b A B. unfold is_byte in *. assert (N : 0 <= Z.lor a b) by (apply Z.lor_nonneg; lia). split; [lia|].
  destruct (Z.eq_dec (Z.lor a b) 0) as [->|NZ]; [lia|]. change 256 with (2 ^ 8). apply Z.log2_lt_pow2; [lia|]. rewrite Z.log2_lor by lia.
  apply Z.max_lub_lt; [destruct (Z.eq_dec a 0) as [->|]|destruct (Z.eq_dec b 0) as [->|]]; try (cbn; lia); apply Z.log2_lt_pow2; lia.
Qed.
Lemma decode_value_range : forall c f, base64_decode_value c = Ok f -> f < 64.
Proof.
  intros c f E. unfold base64_decode_value in E. destruct (_ || _); [injection E as <-; lia|].
  assert (I : In f b64_decoding). { unfold rd in E. destruct (_ <? 0); [discriminate|]. destruct (nth_error b64_decoding _) eqn:N; [|discriminate]. apply nth_error_In in N. congruence. }
  assert (T : forallb (fun v => v <? 64) b64_decoding = true) by (vm_compute; reflexivity). rewrite forallb_forall in T. specialize (T f I). lia.
Qed.
Lemma small_land : forall f, 0 <= f < 64 -> is_byte (Z.shiftl (Z.land f 63) 2) /\ is_byte (Z.shiftr (Z.land f 48) 4) /\ is_byte (Z.shiftl (Z.land f 15) 4) /\
  is_byte (Z.shiftr (Z.land f 60) 2) /\ is_byte (Z.shiftl (Z.land f 3) 6) /\ is_byte (Z.land f 63).
Proof.
  assert (T : forall x, 0 <= x < Z.of_nat 64 -> (fun f => forallb (fun v => (0 <=? v) && (v <? 256)) [Z.shiftl (Z.land f 63) 2; Z.shiftr (Z.land f 48) 4; Z.shiftl (Z.land f 15) 4; Z.shiftr (Z.land f 60) 2; Z.shiftl (Z.land f 3) 6; Z.land f 63]) x = true)
    by (apply ProofB32.forall_small; vm_compute; reflexivity).
  intros f F. specialize (T f F). cbv beta in T. rewrite forallb_forall in T. unfold is_byte.
  repeat split; (match goal with |- 0 <= ?v => specialize (T v) | |- ?v < 256 => specialize (T v) end; cbn [In] in T; lia).
Qed.
Lemma decode_bytes : forall code step cap out cur o, b64_decode_block code step cap out cur = Ok o -> bytes_ok out -> is_byte cur -> bytes_ok o.
Proof.
  induction code as [|c r IH]; intros step cap out cur o E B C; cbn [b64_decode_block] in E.
  - destruct (_ <? _); [injection E as <-; auto|discriminate].
  - apply bind_ok in E as (f & F & E). apply decode_value_range in F. destruct (f <? 0) eqn:N; [eauto|]. destruct (small_land f ltac:(lia)) as (S1 & S2 & S3 & S4 & S5 & S6).
    destruct step; apply bind_ok in E as (? & _ & E); apply IH in E; auto; apply bytes_ok_app; (split; [auto|apply bytes_ok_one, lor_byte; auto]).
Qed.
Lemma base64_bytes : forall s o, base64_str_to_bytes s = Ok o -> bytes_ok o.
Proof. intros s o E. eapply decode_bytes; [exact E|constructor|unfold is_byte; lia]. Qed.

Lemma land_byte : forall a m, 0 <= m < 256 -> is_byte (Z.land a m).
Proof.
  intros a m M. unfold is_byte. assert (N : 0 <= Z.land a m) by (apply Z.land_nonneg; lia). split; [auto|].
  destruct (Z.eq_dec (Z.land a m) 0) as [->|NZ]; [lia|]. assert (Z.land a m <= m); [|lia].
  rewrite Z.land_comm. apply Z.ldiff_le; [lia|]. apply Z.bits_inj. intros i. rewrite Z.ldiff_spec, Z.land_spec, Z.bits_0. destruct (Z.testbit m i), (Z.testbit a i); reflexivity.
Qed.
Lemma shiftl_land_byte : forall a m k, 0 <= m -> 0 <= k -> Z.shiftl m k < 256 -> is_byte (Z.shiftl (Z.land a m) k).
Proof.
  intros a m k M K L. rewrite Z.shiftl_land. apply land_byte. split; [apply Z.shiftl_nonneg; lia|auto].
Qed.
Lemma b32_octets_bytes : forall s, bytes_ok (b32_octets s).
Proof.
  intros s. unfold b32_octets. cbv zeta.
  assert (L : forall x l, is_byte x -> bytes_ok l -> bytes_ok (x :: l)) by (intros; constructor; auto).
  repeat (match goal with |- bytes_ok (if ?b then _ else _) => destruct b end; [constructor|]; apply L);
  try (repeat apply lor_byte; first [apply land_byte; lia|apply shiftl_land_byte; [lia|lia|reflexivity]]). constructor.
Qed.
Lemma b32_dloop_out : forall data size s pad dst o, b32_dloop data size s pad dst = Ok (Some o) -> bytes_ok dst -> bytes_ok o.
Proof.
  induction data as [|c r IH]; intros size s pad dst o E B; cbn [b32_dloop] in E; [congruence|].
  cbv zeta in E. destruct (negb (c =? 61) && _); [discriminate|]. destruct (_ >? 8); [discriminate|].
  set (dst' := if _ : bool then dst ++ _ else dst) in E.
  assert (B' : bytes_ok dst'). { unfold dst'. destruct (_ || _); [|auto]. apply bytes_ok_app. split; [auto|apply bytes_ok_firstn, b32_octets_bytes]. }
  destruct (zlen dst' =? size); [congruence|eauto].
Qed.

(** ** SvcParams *)
Lemma prefix_eq_app : forall p s, prefix_eq p s = true -> exists r, s = p ++ r.
Proof. induction p as [|x p IH]; intros s E; [exists s; auto|]. destruct s as [|y s]; cbn [prefix_eq] in E; [discriminate|]. apply andb_prop in E as (A & B). apply IH in B as (r & ->). exists r. assert (x = y) by lia. subst. auto. Qed.
Lemma scan_digits_nonneg : forall s v seen v' seen' r, 0 <= v -> scan_digits s v seen = (v', seen', r) -> 0 <= v'.
Proof.
  induction s as [|c s IH]; intros v seen v' seen' r V E; cbn [scan_digits] in E; [injection E as <- _ _; auto|].
  destruct (is_digit c) eqn:D; [|injection E as <- _ _; auto]. apply IH in E; auto. unfold is_digit in D. lia.
Qed.
Lemma strtoul_nonneg : forall s v r, strtoul s = (v, r) -> 0 <= v.
Proof.
  intros s v r E. unfold strtoul in E. destruct (scan_sign (skip_space s)) as [neg t]. destruct (scan_digits t 0 false) as [[v' seen] r'] eqn:X. apply scan_digits_nonneg in X; [|lia].
  destruct seen; [|assert (v = 0) by congruence; lia]. assert (K : (if v' >? 2 ^ 64 - 1 then 2 ^ 64 - 1 else if neg then - v' mod 2 ^ 64 else v') = v) by congruence. subst v.
  destruct (_ >? _); [change (2 ^ 64) with 18446744073709551616; lia|]. destruct neg; [apply Z.mod_pos_bound; reflexivity|auto].
Qed.
Lemma svckey_range : forall s, str_to_svckey s <> spr_invalid -> 0 <= str_to_svckey s < 65535 /\ (str_to_svckey s = 1 -> s = lit "alpn" \/ exists r, s = lit "key" ++ r).
Proof.
  intros s N. unfold str_to_svckey in *. unfold spr_mandatory, spr_alpn, spr_nd_alpn, spr_port, spr_ech, spr_ipv4hint, spr_ipv6hint, spr_invalid in *.
  destruct (streq s (lit "mandatory")); [split; [lia|discriminate]|]. destruct (streq s (lit "alpn")) eqn:A; [split; [lia|intros _; left; apply streq_eq; auto]|].
  destruct (streq s (lit "no-default-alpn")); [split; [lia|discriminate]|]. destruct (streq s (lit "port")); [split; [lia|discriminate]|].
  destruct (streq s (lit "ech")); [split; [lia|discriminate]|]. destruct (streq s (lit "ipv4hint")); [split; [lia|discriminate]|]. destruct (streq s (lit "ipv6hint")); [split; [lia|discriminate]|].
  destruct (prefix_eq (lit "key") s && _) eqn:P; [|congruence]. apply andb_prop in P as (P & _). apply prefix_eq_app in P.
  destruct (strtoul (skipn 3 s)) as [v r] eqn:U. apply strtoul_nonneg in U. destruct r; [|congruence]. destruct (v >=? 65535) eqn:G; [congruence|]. split; [lia|auto].
Qed.
Lemma mandatory_out : forall f s o, mandatory_toks f s = Ok o -> bytes_ok o /\ exists n, zlen o = 2 * n.
Proof.
  induction f as [|f IH]; intros s o E; cbn [mandatory_toks] in E; [discriminate|]. destruct (strtok 44 s) as [[t r]|]; [|injection E as <-; split; [constructor|exists 0; reflexivity]].
  cbv zeta in E. destruct (_ =? _); [discriminate|]. apply bind_ok in E as (o' & O & E). assert (X : be16_octets (str_to_svckey t) ++ o' = o) by congruence. subst o. apply IH in O as (B & n & L). split; [apply bytes_ok_app; split; [apply be16_bytes|auto]|].
  exists (n + 1). rewrite zlen_app. change (zlen (be16_octets _)) with 2. lia.
Qed.
Lemma hint_out : forall f v4 s o, hint_toks f v4 s = Ok o -> bytes_ok o /\ exists n, zlen o = (if v4 then 4 else 16) * n.
Proof.
  induction f as [|f IH]; intros v4 s o E; cbn [hint_toks] in E; [discriminate|]. destruct (strtok 44 s) as [[t r]|]; [|injection E as <-; split; [constructor|exists 0; destruct v4; reflexivity]].
  assert (X : forall a, (if v4 then inet_pton4 t else inet_pton6 t) = Some a -> bytes_ok a /\ zlen a = (if v4 then 4 else 16)) by (intros a; destruct v4; [apply inet_pton4_out|apply inet_pton6_out]).
  destruct (if v4 then inet_pton4 t else inet_pton6 t) as [a|]; [|discriminate]. destruct (X a eq_refl) as (BA & LA).
  apply bind_ok in E as (o' & O & E). injection E as <-. apply IH in O as (B & n & L). split; [apply bytes_ok_app; auto|]. exists (n + 1). rewrite zlen_app, LA, L. destruct v4; lia.
Qed.

Definition total (ids : list bytes) : Z := fold_right (fun id n => zlen id mod 256 + 1 + n) 0 ids.
Lemma total_app : forall a b, total (a ++ b) = total a + total b.
Proof.
  induction a as [|x a IH]; intros b; [reflexivity|]. change (total ((x :: a) ++ b)) with (zlen x mod 256 + 1 + total (a ++ b)).
  change (total (x :: a)) with (zlen x mod 256 + 1 + total a). rewrite IH. lia.
Qed.
Lemma alpn_out : forall n v out cur oclen vl o k ids, (length v <= n)%nat -> alpn_parse v out cur oclen vl = Ok (o, k) -> bytes_ok v -> bytes_ok cur -> Forall bytes_ok ids ->
  out = concat (map alpn_id ids) -> oclen = zlen cur mod 256 -> vl = total ids mod 65536 ->
  exists ids', ids' <> [] /\ Forall bytes_ok ids' /\ o = concat (map alpn_id ids') /\ k = alpn_announced ids' mod 65536.
Proof.
  assert (END : forall out cur oclen vl o k ids, alpn_parse [] out cur oclen vl = Ok (o, k) -> bytes_ok cur -> Forall bytes_ok ids ->
    out = concat (map alpn_id ids) -> oclen = zlen cur mod 256 -> vl = total ids mod 65536 ->
    exists ids', ids' <> [] /\ Forall bytes_ok ids' /\ o = concat (map alpn_id ids') /\ k = alpn_announced ids' mod 65536).
  { intros out cur oclen vl o k ids E BC BI -> -> ->. cbn [alpn_parse] in E. exists (ids ++ [cur]). split; [destruct ids; discriminate|].
    split; [apply Forall_app; split; [auto|constructor; auto]|]. unfold alpn_announced. rewrite last_last. fold (total (ids ++ [cur])). rewrite total_app.
    change (total [cur]) with (zlen cur mod 256 + 1 + 0). rewrite map_app, concat_app. cbn [map concat]. unfold alpn_id at 2. rewrite app_nil_r.
    destruct (zlen cur mod 256 =? 0) eqn:Z0; cbn [negb] in E.
    - assert (E0 : zlen cur mod 256 = 0) by lia. rewrite E0. assert (EK : k = total ids mod 65536) by congruence. split; [cbn [app] in E; congruence|]. rewrite EK. f_equal. lia.
    - assert (EK : k = (total ids mod 65536 + zlen cur mod 256 + 1) mod 65536) by congruence. split; [cbn [app] in E; congruence|]. rewrite EK.
      rewrite <- Z.add_assoc, Zplus_mod_idemp_l. f_equal. lia. }
  induction n as [|n IH]; intros v out cur oclen vl o k ids LN E BV BC BI EO EL EV; (destruct v as [|c v]; cbn [length] in LN; [eapply END; eauto|]); [lia|].
  apply bytes_ok_cons in BV as (Hc & BV). cbn [alpn_parse] in E.
  assert (ST : forall d v', bytes_ok v' -> is_byte d -> (length v' <= n)%nat -> alpn_parse v' out (cur ++ [d]) ((oclen + 1) mod 256) vl = Ok (o, k) ->
    exists ids', ids' <> [] /\ Forall bytes_ok ids' /\ o = concat (map alpn_id ids') /\ k = alpn_announced ids' mod 65536).
  { intros d v' B' Hd L' E'. eapply (IH v' out (cur ++ [d])); [exact L'|exact E'|exact B'|apply bytes_ok_app; split; [auto|apply bytes_ok_one; auto]|exact BI|exact EO| |exact EV].
    rewrite EL, Zplus_mod_idemp_l, zlen_app. reflexivity. }
  destruct (c =? 92).
  - destruct v as [|d v]; [discriminate|]. apply bytes_ok_cons in BV as (Hd & BV). destruct (_ && _); [discriminate|]. cbn [length] in LN. eapply ST; [exact BV|exact Hd|lia|exact E].
  - destruct (c =? 44); [|eapply ST; [exact BV|exact Hc|lia|exact E]].
    eapply (IH v _ [] 0 _ o k (ids ++ [cur])); [lia|exact E|exact BV|constructor|apply Forall_app; split; [auto|constructor; auto]| |reflexivity|].
    + rewrite EO, EL, map_app, concat_app. cbn [map concat]. unfold alpn_id at 2. rewrite app_nil_r. reflexivity.
    + rewrite total_app, EV, EL. change (total [cur]) with (zlen cur mod 256 + 1 + 0). rewrite <- Z.add_assoc, Zplus_mod_idemp_l. f_equal. lia.
Qed.

Lemma svcparam_out : forall key val o, str_to_svcparam key val = Ok o -> 0 <= key < 65535 -> (forall v, val = Some v -> bytes_ok v) ->
  written_param o /\ (key <> 1 -> exists v, param_ok key v /\ bytes_ok v /\ o = u16 key ++ u16 (zlen v mod 65536) ++ v).
Proof.
  intros key val o E K BV.
  assert (OK : forall v, key <> 1 -> param_ok key v -> bytes_ok v -> o = be16_octets key ++ be16_octets (zlen v mod 65536) ++ v ->
    written_param o /\ (key <> 1 -> exists v, param_ok key v /\ bytes_ok v /\ o = u16 key ++ u16 (zlen v mod 65536) ++ v)).
  { intros v N P B ->. pose proof (Z.mod_pos_bound (zlen v) 65536 ltac:(lia)). rewrite !be16_u16 by lia. split; [apply wp_value; auto|]. eauto. }
  unfold str_to_svcparam in E. unfold spr_invalid, spr_nd_alpn, spr_mandatory, spr_port, spr_ech, spr_ipv4hint, spr_ipv6hint, spr_alpn in E. replace (key =? 65535) with false in E by lia.
  destruct (key =? 2) eqn:K2.
  { destruct val; [discriminate|]. assert (X : be16_octets key ++ [0; 0] = o) by congruence. apply (OK []); [lia| |constructor|subst; reflexivity].
    unfold param_ok. split; [lia|]. repeat split; intros; try lia. }
  destruct val as [v|]; [|discriminate]. specialize (BV v eq_refl). cbv zeta in E.
  set (done := fun r : outcome (bytes * Z) => '(o, vl) <- r ;; Ok (be16_octets key ++ be16_octets vl ++ o)) in E.
  assert (D : forall r, done r = Ok o -> exists w vl, r = Ok (w, vl) /\ o = be16_octets key ++ be16_octets vl ++ w).
  { intros r R. unfold done in R. apply bind_ok in R as ([w vl] & R & X). exists w, vl. split; congruence. }
  assert (LS : forall r, (match strtok 44 (cstr v) with None => Err res_parse_error | Some _ => done (o <- r ;; Ok (o, zlen o mod 65536)) end) = Ok o ->
    exists w, r = Ok w /\ o = be16_octets key ++ be16_octets (zlen w mod 65536) ++ w).
  { intros r R. destruct (strtok 44 (cstr v)); [|discriminate]. apply D in R as (w & vl & R & X). apply bind_ok in R as (w' & R & Y). assert (w' = w) by congruence. subst w'.
    exists w. split; [auto|]. assert (vl = zlen w mod 65536) by congruence. congruence. }
  destruct (key =? 0) eqn:K0.
  { apply LS in E as (w & R & X). apply mandatory_out in R as (B & n & L). apply (OK w); auto; [lia|]. unfold param_ok. split; [lia|]. repeat split; intros; try lia. eauto. }
  destruct (key =? 3) eqn:K3.
  { destruct (strtok 32 (cstr v)) as [[t r]|]; [|discriminate]. destruct (strtoul t) as [x rest]. destruct (_ || _); [discriminate|]. apply D in E as (w & vl & R & X).
    assert (w = be16_octets x /\ vl = 2) as (-> & ->) by (split; congruence). apply (OK (be16_octets x)); auto; [lia| |apply be16_bytes]. unfold param_ok. split; [lia|]. repeat split; intros; try lia. }
  destruct (key =? 5) eqn:K5.
  { destruct (strtok 32 (cstr v)) as [[t r]|]; [|discriminate]. destruct (_ >? 255); [discriminate|]. apply D in E as (w & vl & R & X). apply bind_ok in R as (w' & R & Y).
    assert (w' = w) by congruence. subst w'. assert (vl = zlen w mod 65536) by congruence. subst vl. apply (OK w); auto; [lia| |eapply base64_bytes; eauto]. unfold param_ok. split; [lia|]. repeat split; intros; lia. }
  destruct (key =? 4) eqn:K4.
  { apply LS in E as (w & R & X). apply hint_out in R as (B & n & L). apply (OK w); auto; [lia|]. unfold param_ok. split; [lia|]. repeat split; intros; try lia. eauto. }
  destruct (key =? 6) eqn:K6.
  { apply LS in E as (w & R & X). apply hint_out in R as (B & n & L). apply (OK w); auto; [lia|]. unfold param_ok. split; [lia|]. repeat split; intros; try lia. eauto. }
  destruct (key =? 1) eqn:K1.
  { apply D in E as (w & vl & R & X). assert (key = 1) by lia. subst key. split; [|congruence].
    eapply (alpn_out (length v) v [] [] 0 0 w vl []) in R as (ids & N & B & -> & ->); auto; try constructor.
    pose proof (Z.mod_pos_bound (alpn_announced ids) 65536 ltac:(lia)). rewrite X, !be16_u16 by lia. apply wp_alpn; auto. }
  apply D in E as (w & vl & R & X). assert (w = v /\ vl = zlen v mod 65536) as (-> & ->) by (split; congruence).
  apply (OK v); auto; [lia|]. unfold param_ok. split; [lia|]. repeat split; intros; lia.
Qed.

Definition plain_written (p : bytes) : Prop := exists k v, k <> 1 /\ param_ok k v /\ bytes_ok v /\ p = u16 k ++ u16 (zlen v mod 65536) ++ v.
Lemma no_alpn_suffix : forall e s, suffix e s -> no_alpn s -> no_alpn e.
Proof. intros e s (p & ->) (A & K). split; intros a b ->; [apply (A (p ++ a) b)|apply (K (p ++ a) b)]; rewrite <- app_assoc; reflexivity. Qed.
Lemma bytes_suffix : forall e s, suffix e s -> bytes_ok s -> bytes_ok e.
Proof. intros e s (p & ->) B. apply bytes_ok_app in B. tauto. Qed.
Lemma svcparams_out : forall f s o, svcparams_parse f s = Ok o -> bytes_ok s ->
  exists ps, o = concat ps /\ Forall written_param ps /\ (no_alpn s -> Forall plain_written ps) /\ (forall c r, s = c :: r -> c <> 32 -> ps <> []).
Proof.
  induction f as [|f IH]; intros s o E B; cbn [svcparams_parse] in E; [discriminate|]. destruct s as [|c r]; [injection E as <-; exists []; repeat split; auto; discriminate|].
  destruct (c =? 32) eqn:C.
  { apply bytes_ok_cons in B as (_ & B). apply IH in E as (ps & X & W & N & _); auto. exists ps. repeat split; auto.
    - intros NA. apply N. eapply no_alpn_suffix; [|exact NA]. exists [c]. auto.
    - intros c' r' EQ. injection EQ as <- <-. lia. }
  destruct (split_at _ (c :: r)) as [ks val] eqn:SP. cbv zeta in E. destruct (str_to_svckey ks =? spr_invalid) eqn:KI; [discriminate|].
  pose proof (split_at_eq _ _ _ _ SP) as (EQ & DV & _). pose proof (split_suffix _ _ _ _ SP) as SV.
  destruct (svckey_range ks ltac:(lia)) as (KR & K1).
  assert (BARE : (if negb (str_to_svckey ks =? spr_nd_alpn) then Err res_parse_error else o <- str_to_svcparam (str_to_svckey ks) None ;; o' <- svcparams_parse f val ;; Ok (o ++ o')) = Ok o ->
    exists ps, o = concat ps /\ Forall written_param ps /\ (no_alpn (c :: r) -> Forall plain_written ps) /\ (forall c0 r0, c :: r = c0 :: r0 -> c0 <> 32 -> ps <> [])).
  { clear E. intros E. destruct (negb _) eqn:KN; [discriminate|]. unfold spr_nd_alpn in KN. apply bind_ok in E as (o1 & O1 & E). apply bind_ok in E as (o2 & O2 & E).
    apply svcparam_out in O1 as (W & P); [|lia|discriminate]. apply IH in O2 as (ps & X & W2 & N & _); [|eapply bytes_suffix; eauto]. exists (o1 :: ps). split; [cbn [concat]; congruence|]. split; [constructor; auto|].
    split; [|discriminate]. intros NA. constructor; [|apply N; eapply no_alpn_suffix; eauto]. destruct P as (v & P1 & P2 & P3); [lia|]. exists (str_to_svckey ks), v. split; [lia|auto]. }
  destruct val as [|d v]; [auto|]. destruct (d =? 61) eqn:D; [|auto]. clear BARE.
  destruct (from_str_string v) as [[l e]|] eqn:FS; [|discriminate]. apply string_suffix in FS as (SE & _ & BL & _).
  assert (SVV : suffix v (c :: r)) by (eapply suffix_tl; eauto).
  apply bind_ok in E as (o1 & O1 & E). apply bind_ok in E as (o2 & O2 & E).
  apply svcparam_out in O1 as (W & P); [|lia|intros w WE; injection WE as <-; apply BL; eapply bytes_suffix; eauto].
  assert (SEE : suffix e (c :: r)) by (eapply suffix_trans; eauto).
  apply IH in O2 as (ps & X & W2 & N & _); [|eapply bytes_suffix; eauto]. exists (o1 :: ps). split; [cbn [concat]; congruence|]. split; [constructor; auto|]. split; [|discriminate].
  intros NA. constructor; [|apply N; eapply no_alpn_suffix; eauto]. destruct (Z.eq_dec (str_to_svckey ks) 1) as [E1|N1].
  - exfalso. destruct NA as (A & K). assert (d = 61) by lia. subst d. destruct (K1 E1) as [->|(q & ->)].
    + apply (A [] v). rewrite EQ. reflexivity.
    + apply (K [] (q ++ 61 :: v)). rewrite EQ, <- app_assoc. reflexivity.
  - destruct (P N1) as (w & P1 & P2 & P3). exists (str_to_svckey ks), w. auto.
Qed.

(** ** Fields *)
Definition part (t s : bytes) : Prop := exists a b, s = a ++ t ++ b.
Definition field_result (s : bytes) (f : fmt) (o : bytes) : Prop :=
  match f with
  | FName => exists ls t, loose_name ls /\ o = wire ls /\ part t s /\ name_text t ls
  | FParams => exists ps, o = concat ps /\ Forall written_param ps /\ (no_alpn s -> Forall plain_written ps) /\ ps <> []
  | f => field_octets f o /\ bytes_ok o /\ (to_end f = false -> o <> [])
  end.
Lemma int_out : forall sz c r o e, int_field sz (c :: r) = Ok (o, e) -> isspace c = false -> bytes_ok o /\ zlen o = Z.of_nat sz.
Proof.
  intros sz c r o e E I. unfold int_field in E. destruct (token (c :: r)) as [t e'] eqn:T. destruct (negb (forallb is_digit t)) eqn:D; [discriminate|].
  assert (NB : is_blank c = false). { destruct (is_blank c) eqn:NB; auto. exfalso. unfold is_blank, isspace in *. lia. }
  unfold token in T. cbn [split_at] in T. rewrite NB in T. destruct (split_at is_blank r) as [a b]. injection T as <- <-. cbn [forallb] in D.
  assert (DC : is_digit c = true) by (destruct (is_digit c); [auto|discriminate]).
  assert (SN : exists v r', scan_u (c :: r) = ScanVal v r').
  { unfold scan_u. cbn [skip_space]. rewrite I. unfold scan_sign. unfold is_digit in DC. replace (c =? 45) with false by lia. replace (c =? 43) with false by lia. cbn [scan_digits].
    replace (is_digit c) with true by (symmetry; unfold is_digit; lia).
    assert (G : forall s v, exists v' r', scan_digits s v true = (v', true, r')). { clear. induction s as [|x s IH]; intros v; cbn [scan_digits]; [eauto|]. destruct (is_digit x); eauto. }
    destruct (G r (0 * 10 + (c - 48))) as (v' & r' & ->). eauto. }
  destruct SN as (v & r' & SN). rewrite SN in E. destruct (negb (v mod _ =? v)); [discriminate|]. assert (X : be_octets sz v = o) by congruence. subst o. apply be_octets_out.
Qed.
Lemma cs_out : forall s o e, str_to_cs s = Ok (o, e) -> bytes_ok s -> exists l, zlen l <= 255 /\ o = char_string l /\ bytes_ok o.
Proof.
  intros s o e E B. unfold str_to_cs in E. destruct (from_str_string s) as [[l r]|] eqn:F; [|discriminate]. apply string_suffix in F as (_ & _ & BL & _). destruct (negb _) eqn:L; [discriminate|].
  assert (X : zlen l :: l = o) by congruence. pose proof (Z.mod_pos_bound (zlen l) 256 ltac:(lia)). exists l. split; [lia|]. split; [auto|]. subst o. apply bytes_ok_cons. split; [unfold is_byte; lia|auto].
Qed.
Lemma strings_out : forall f s o, strings_parse f s = Ok o -> bytes_ok s -> bytes_ok o /\ exists ss, Forall (fun s => zlen s <= 255) ss /\ o = concat (map char_string ss).
Proof.
  induction f as [|f IH]; intros s o E B; cbn [strings_parse] in E; [discriminate|]. destruct s as [|c r]; [injection E as <-; split; [constructor|exists []; auto]|].
  destruct (isspace c); [apply bytes_ok_cons in B as (_ & B); eauto|]. apply bind_ok in E as ([o1 e] & O1 & E). pose proof (cs_rest _ _ _ O1) as (SE & _). apply cs_out in O1 as (l & L & -> & B1); auto.
  apply bind_ok in E as (o2 & O2 & E). apply IH in O2 as (B2 & ss & F & ->); [|eapply bytes_suffix; eauto]. assert (X : char_string l ++ concat (map char_string ss) = o) by congruence. subst o.
  split; [apply bytes_ok_app; auto|]. exists (l :: ss). split; [constructor; auto|reflexivity].
Qed.
Lemma window_bytes : forall k ws, canonical_from k ws -> 0 <= k -> bytes_ok (concat (map window ws)) /\ Forall (fun w => 1 <= zlen (snd w) <= 32) ws.
Proof.
  intros k ws. revert k. induction ws as [|[w l] ws IH]; intros k C K; [split; constructor|]. cbn [canonical_from] in C. destruct C as (R & B & L & _ & C). apply IH in C as (B2 & F); [|lia]. split.
  - cbn [map concat]. apply bytes_ok_app. split; [|auto]. unfold window. cbn [fst snd]. apply bytes_ok_cons. split; [unfold is_byte; lia|]. apply bytes_ok_cons. split; [unfold is_byte; lia|auto].
  - constructor; auto.
Qed.

Lemma loose_text : forall t ls, SpecName.c_string t -> name_text t ls -> zlen (wire ls) <= 255 -> loose_name ls.
Proof.
  intros t ls C N L. split; [|auto]. apply stext_name_text in N. destruct N as [|t ls _ R]; [constructor|].
  assert (G : forall t cur x, rtext id t cur x -> SpecName.c_string t -> bytes_ok cur -> Forall (fun l : label => l <> [] /\ bytes_ok l) x).
  { clear. intros t cur x. induction 1; intros C B; repeat match goal with X : SpecName.c_string (_ :: _) |- _ => apply c_string_cons in X as [? X] end.
    - constructor; auto.
    - constructor; auto.
    - constructor; [auto|]. apply IHrtext; [auto|constructor].
    - apply IHrtext; auto. apply bytes_ok_app. split; [auto|apply bytes_ok_one]. unfold is_byte, id. lia.
    - apply IHrtext; auto. apply bytes_ok_app. split; [auto|apply bytes_ok_one]. unfold is_byte. lia.
    - apply IHrtext; auto. apply bytes_ok_app. split; [auto|apply bytes_ok_one]. unfold is_byte, digit in *. lia. }
  eapply G; eauto. constructor.
Qed.
Lemma field_out : forall t c r o e, parse_text_field t (c :: r) = Ok (o, e) -> isspace c = false -> SpecName.c_string (c :: r) -> field_result (c :: r) (fmt_of t) o.
Proof.
  intros t c r o e E I C. pose proof (c_string_bytes _ C) as B.
  assert (NAME : ('(t, e) <- Ok (token (c :: r)) ;; '(d, len) <- str_to_name_case t [] ;; l <- take_rd d len ;; Ok (l, end_or_null e)) = Ok (o, e) -> field_result (c :: r) FName o).
  { clear E. intros E. cbn [bind] in E. destruct (token (c :: r)) as [tk rest] eqn:T. apply bind_ok in E as ([d len] & N & E). apply bind_ok in E as (l & TK & E). assert (l = o) by congruence. subst l.
    pose proof (gen_ok_dangling _ _ _ _ N) as D. unfold token in T. pose proof (split_at_eq _ _ _ _ T) as (EQ & _ & _).
    assert (CT : SpecName.c_string tk). { rewrite EQ in C. apply Forall_app in C. tauto. }
    apply str_to_name_gen_iff in N as (ls & ST & L & -> & ->); auto. apply stext_name_text in ST. apply take_rd_inv in TK as (TK & LO). 
    assert (o = wire ls). { unfold adv in TK. rewrite skipn_all2 in TK; [rewrite app_nil_r in TK; auto|]. unfold zlen. lia. } subst o.
    exists ls, tk. split; [eapply loose_text; eauto|]. split; [auto|]. split; [exists [], rest; auto|auto]. }
  assert (NE1 : forall l : bytes, 1 <= zlen l -> l <> []) by (intros [|? ?] Y; [change (zlen []) with 0 in Y; lia|discriminate]).
  destruct t; cbn [parse_text_field fmt_of] in *; try (apply NAME; cbn [bind]; exact E); clear NAME; cbn [field_result field_octets to_end].
  - (* bytes *) apply bind_ok in E as (o' & O & E). assert (o' = o) by congruence. subst. split; [auto|]. split; [eapply hex_pairs_bytes; eauto|discriminate].
  - (* base64 *) apply bind_ok in E as (o' & O & E). apply bind_ok in E as (e' & _ & E). assert (o' = o) by congruence. subst. split; [auto|]. split; [eapply base64_bytes; eauto|discriminate].
  - (* bytes_str *) destruct (_ && _ && _); [|discriminate]. destruct (from_str_string (c :: r)) as [[l x]|] eqn:F; [|discriminate]. apply string_suffix in F as (_ & _ & BL & _). assert (l = o) by congruence. subst.
    split; [auto|]. split; [auto|discriminate].
  - apply int_out in E as (BO & L); auto. split; [exact L|]. split; [auto|]. intros _. apply NE1. lia.
  - apply int_out in E as (BO & L); auto. split; [exact L|]. split; [auto|]. intros _. apply NE1. lia.
  - apply int_out in E as (BO & L); auto. split; [exact L|]. split; [auto|]. intros _. apply NE1. lia.
  - (* ipv4 *) destruct (token (c :: r)) as [tk rest]. destruct (inet_pton4 tk) as [a|] eqn:P; [|discriminate]. assert (a = o) by congruence. subst. apply inet_pton4_out in P as (BO & L). split; [auto|]. split; [auto|]. intros _. apply NE1. lia.
  - (* ipv6 *) destruct (token (c :: r)) as [tk rest]. destruct (inet_pton6 tk) as [a|] eqn:P; [|discriminate]. assert (a = o) by congruence. subst. apply inet_pton6_out in P as (BO & L). split; [auto|]. split; [auto|]. intros _. apply NE1. lia.
  - (* prefix *) unfold prefix_field in E. destruct (token (c :: r)) as [tk rest]. destruct (negb (forallb is_digit tk)); [discriminate|]. destruct (scan_u (c :: r)) as [| |v r']; try discriminate.
    cbv zeta in E. pose proof (Z.mod_pos_bound v 256 ltac:(lia)) as P. set (p := v mod 256) in *. destruct (p >? 128) eqn:G; [discriminate|]. destruct (skip_space rest) as [|x y]; [discriminate|].
    destruct (token (x :: y)) as [tk2 rest2]. destruct (inet_pton6 tk2) as [a|] eqn:PT.
    + apply inet_pton6_out in PT as (BA & LA). apply bind_ok in E as (w & W & E). apply rds_ok in W as (OW & LW).
      assert (BW : bytes_ok w) by (exact (octets_at_bytes _ _ _ BA OW)).
      assert (EO : o = p :: w). { destruct (end_or_null rest2) as [b|]; [|congruence]. destruct (p =? 0); [destruct (skip_space b); congruence|congruence]. } subst o.
      split; [|split; [apply bytes_ok_cons; split; [unfold is_byte; lia|auto]|discriminate]]. exists p, w. split; [lia|]. split; [|auto]. rewrite LW.
      clear - P G. pose proof (Z.div_mod p 8 ltac:(lia)) as DM. pose proof (Z.mod_pos_bound p 8 ltac:(lia)) as MB.
      destruct (p mod 8 =? 0) eqn:M; cbn [negb].
      * replace (128 - p) with ((16 - p / 8) * 8) by lia. rewrite Z.div_mul by lia. replace ((16 - p / 8) * 8 + 7) with (7 + (16 - p / 8) * 8) by lia. rewrite Z.div_add by lia. change (7 / 8) with 0. lia.
      * replace (128 - p) with ((8 - p mod 8) + (15 - p / 8) * 8) by lia. rewrite Z.div_add by lia. rewrite (Z.div_small (8 - p mod 8)) by lia.
        replace (8 - p mod 8 + (15 - p / 8) * 8 + 7) with ((7 - p mod 8) + (16 - p / 8) * 8) by lia. rewrite Z.div_add by lia. rewrite (Z.div_small (7 - p mod 8)) by lia. lia.
    + destruct (negb (p =? 128)) eqn:P8; [discriminate|]. assert (o = [p]) by congruence. subst o. assert (p = 128) by lia. split; [exists p, []; split; [lia|split; [rewrite H; reflexivity|auto]]|]. split; [apply bytes_ok_one; unfold is_byte; lia|discriminate].
  - (* eui48 *) unfold eui_field in E. destruct (negb _); [discriminate|]. apply bind_ok in E as (ok & _ & E). destruct (negb ok); [discriminate|]. destruct (eui_scan 6 (c :: r)) as [l|] eqn:X; [|discriminate]. assert (l = o) by congruence. subst.
    apply eui_scan_out in X as (BO & L). split; [exact L|]. split; [auto|]. intros _. apply NE1. lia.
  - unfold eui_field in E. destruct (negb _); [discriminate|]. apply bind_ok in E as (ok & _ & E). destruct (negb ok); [discriminate|]. destruct (eui_scan 8 (c :: r)) as [l|] eqn:X; [|discriminate]. assert (l = o) by congruence. subst.
    apply eui_scan_out in X as (BO & L). split; [exact L|]. split; [auto|]. intros _. apply NE1. lia.
  - (* string *) apply bind_ok in E as ([o' e'] & O & E). assert (o' = o) by congruence. subst. apply cs_out in O as (l & L & -> & BO); auto. split; [eauto|]. split; [auto|discriminate].
  - (* repstring *) apply bind_ok in E as (o' & O & E). assert (o' = o) by congruence. subst. apply strings_out in O as (BO & ss & F & ->); auto. split; [eauto|]. split; [auto|discriminate].
  - (* rrtype *) destruct (token (c :: r)) as [tk rest]. cbv zeta in E. destruct (_ >? 0); [|discriminate]. assert (X : be16_octets (str_to_rrtype tk) = o) by congruence. subst o. split; [reflexivity|]. split; [apply be16_bytes|discriminate].
  - (* bitmap *) apply bind_ok in E as (ts & T & E). apply bind_ok in E as (o' & O & E). assert (o' = o) by congruence. subst. apply bitmap_toks_range in T. destruct (types_to_bitmap_spec ts T) as (ws & X & CN & _). assert (o = concat (map window ws)) by congruence. subst o.
    apply window_bytes in CN as (BO & F); [|lia]. split; [eauto|]. split; [auto|discriminate].
  - (* salt *) destruct (token (c :: r)) as [tk rest]. destruct (_ && _).
    + apply bind_ok in E as (s' & _ & E). assert (o = [0]) by congruence. subst o. split; [exists []; split; [cbn; lia|auto]|]. split; [apply bytes_ok_one; unfold is_byte; lia|discriminate].
    + destruct (_ || _) eqn:G; [discriminate|]. apply bind_ok in E as ([o' s'] & O & E). assert (X : zlen tk / 2 :: o' = o) by congruence. subst o. apply salt_pairs_out in O as (BO & L).
      pose proof (zlen_nonneg _ tk) as Z0. pose proof (Z.div_pos (zlen tk) 2 Z0 ltac:(lia)). assert (zlen tk / 2 <= 255) by (apply Z.div_le_upper_bound; lia). rewrite Z2Nat.id in L by lia.
      split; [exists o'; split; [lia|unfold char_string; rewrite L; auto]|]. split; [apply bytes_ok_cons; split; [unfold is_byte; lia|auto]|discriminate].
  - (* hash *) destruct (token (c :: r)) as [tk rest]. destruct (_ =? 1).
    + apply bind_ok in E as (s' & _ & E). assert (o = [0]) by congruence. subst o. split; [exists []; split; [cbn; lia|auto]|]. split; [apply bytes_ok_one; unfold is_byte; lia|discriminate].
    + apply bind_ok in E as ([l|] & O & E); [|discriminate]. destruct (negb _) eqn:G; [discriminate|]. assert (X : zlen l :: l = o) by congruence. subst o. apply b32_dloop_out in O; [|constructor]. pose proof (Z.mod_pos_bound (zlen l) 256 ltac:(lia)).
      split; [exists l; split; [lia|auto]|]. split; [apply bytes_ok_cons; split; [unfold is_byte; lia|auto]|discriminate].
  - (* svcparams *) apply bind_ok in E as (o' & O & E). assert (o' = o) by congruence. subst. apply svcparams_out in O as (ps & X & W & N & NN); auto. exists ps. repeat split; auto. eapply NN; eauto. unfold isspace in I. lia.
  - discriminate.
Qed.

Lemma written_kvs : forall ps, Forall plain_written ps -> zlen (concat ps) < 65536 ->
  exists kvs, Forall (fun kv => param_ok (fst kv) (snd kv) /\ zlen (snd kv) < 65532) kvs /\ concat ps = concat (map param kvs).
Proof.
  induction 1 as [|p ps (k & v & _ & P & _ & ->) _ IH]; intros L; [exists []; auto|]. cbn [concat] in L. rewrite !zlen_app in L. change (zlen (u16 _)) with 2 in L. change (zlen (u16 _)) with 2 in L.
  pose proof (zlen_nonneg _ v). pose proof (zlen_nonneg _ (concat ps)). destruct IH as (kvs & F & E); [lia|]. exists ((k, v) :: kvs). split; [constructor; [cbn [fst snd]; split; [auto|lia]|auto]|].
  cbn [map concat]. rewrite E. unfold param at 2. cbn [fst snd]. rewrite (Z.mod_small (zlen v)) by lia. reflexivity.
Qed.
Lemma plain_written_bytes : forall p, written_param p -> bytes_ok p.
Proof.
  intros p W. assert (U : forall v, 0 <= v < 65536 -> bytes_ok (u16 v)) by (intros v V; rewrite <- be16_u16 by auto; apply be16_bytes).
  destruct W as [k v _ (K & _) B|ids _ B].
  - pose proof (Z.mod_pos_bound (zlen v) 65536 ltac:(lia)). apply bytes_ok_app; split; [apply U; lia|]. apply bytes_ok_app; split; [apply U; lia|auto].
  - pose proof (Z.mod_pos_bound (alpn_announced ids) 65536 ltac:(lia)). apply bytes_ok_app; split; [apply U; lia|]. apply bytes_ok_app; split; [apply U; lia|].
    clear - B. induction B as [|i ids BI _ IH]; [constructor|]. cbn [map concat]. apply bytes_ok_app. split; [|auto]. unfold alpn_id. apply bytes_ok_cons. split; [|auto]. pose proof (Z.mod_pos_bound (zlen i) 256 ltac:(lia)). unfold is_byte. lia.
Qed.
Lemma concat_written_bytes : forall ps, Forall written_param ps -> bytes_ok (concat ps).
Proof. induction 1; [constructor|]. cbn [concat]. apply bytes_ok_app. split; [apply plain_written_bytes; auto|auto]. Qed.

Definition names_short (vs : list fval) : Prop := forall ls, In (VName ls) vs -> Forall (fun l => zlen l <= 63) ls.
Definition names_from (s : bytes) (vs : list fval) : Prop := forall ls, In (VName ls) vs -> exists t, part t s /\ name_text t ls.

Lemma part_suffix : forall t e s, part t e -> suffix e s -> part t s.
Proof. intros t e s (a & b & ->) (p & ->). exists (p ++ a), b. rewrite <- !app_assoc. reflexivity. Qed.

Lemma fields_out : forall S ts s l, parse_text_fields ts s = Ok l -> ends_ok ts = true -> SpecName.c_string S -> (forall s', s = Some s' -> suffix s' S) ->
  exists vs, written_values (map fmt_of ts) vs /\ l = canon vs /\ names_from S vs /\ ((In FParams (map fmt_of ts) -> no_alpn S /\ zlen l < 65536) -> names_short vs -> wf_values (map fmt_of ts) vs).
Proof.
  intros S. induction ts as [|t ts IH]; intros s l E EN C SF; cbn [parse_text_fields] in E.
  { injection E as <-. exists []. repeat split; try constructor. intros ls []. }
  destruct s as [s|]; [|injection E as <-; exists []; repeat split; try constructor; intros ls []]. specialize (SF s eq_refl).
  pose proof (suffix_trans _ _ _ (skip_suffix s) SF) as SK. assert (HD : forall c r, skip_space s = c :: r -> isspace c = false).
  { clear. induction s as [|x s IH]; intros c r E; cbn [skip_space] in E; [discriminate|]. destruct (isspace x) eqn:I; [eauto|congruence]. }
  destruct (skip_space s) as [|c r]; [injection E as <-; exists []; repeat split; try constructor; intros ls []|]. specialize (HD c r eq_refl).
  apply bind_ok in E as ([o e] & O & E). apply bind_ok in E as (o' & O' & E). assert (L : l = o ++ o') by congruence. subst l. clear E.
  pose proof (field_rest _ _ _ _ O) as RS. apply field_out in O; auto; [|eapply c_string_suffix; eauto].
  assert (EN' : ends_ok ts = true) by (destruct ts; [reflexivity|cbn [ends_ok] in EN; apply andb_prop in EN; tauto]).
  assert (LAST : to_end (fmt_of t) = true -> ts = []) by (destruct ts; [auto|cbn [ends_ok] in EN; apply andb_prop in EN as (EN & _); intros X; rewrite X in EN; discriminate]).
  apply IH in O' as (vs & W & -> & NF & WF); auto.
  2:{ intros s' ->. cbn in RS. eapply suffix_trans; eauto. }
  pose proof (zlen_nonneg _ o) as ZO. pose proof (zlen_nonneg _ (canon vs)) as ZV.
  assert (OCT : field_octets (fmt_of t) o -> bytes_ok o -> (to_end (fmt_of t) = false -> o <> []) -> exists vs0, written_values (fmt_of t :: map fmt_of ts) vs0 /\ o ++ canon vs = canon vs0 /\ names_from S vs0 /\
    ((In FParams (fmt_of t :: map fmt_of ts) -> no_alpn S /\ zlen (o ++ canon vs) < 65536) -> names_short vs0 -> wf_values (fmt_of t :: map fmt_of ts) vs0)).
  { intros FO B NE. assert (VN : to_end (fmt_of t) = true -> vs = []). { intros X. rewrite (LAST X) in W. inversion W; auto. }
    destruct (list_eq_dec Z.eq_dec o []) as [->|NO].
    - assert (TE : to_end (fmt_of t) = true) by (destruct (to_end (fmt_of t)); [auto|destruct (NE eq_refl eq_refl)]). rewrite (VN TE). exists []. repeat split; try constructor. intros ls [].
    - exists (VOctets o :: vs). split; [apply wr_octets; auto|]. split; [reflexivity|]. split; [intros ls [K|K]; [discriminate|auto]|].
      intros NA NS. apply wv_octets; auto. apply WF; [|intros ls K; apply NS; right; auto]. intros IN. destruct (NA (or_intror IN)) as (NA1 & LL). rewrite zlen_app in LL. split; [auto|lia]. }
  destruct (fmt_of t) eqn:FT; cbn [field_result] in O; cbn [map]; rewrite FT; try (destruct O as (O1 & O2 & O3); apply OCT; auto; fail).
  - destruct O as (ls & tk & LN & -> & P & N). exists (VName ls :: vs). split; [apply wr_name; auto|]. split; [reflexivity|]. split.
    + intros x [K|K]; [|auto]. injection K as <-. exists tk. split; [eapply part_suffix; eauto|auto].
    + intros NA NS. apply wv_name; [|apply WF; [intros IN; destruct (NA (or_intror IN)) as (NA1 & LL); rewrite zlen_app in LL; split; [auto|lia]|intros x K; apply NS; right; auto]].
      destruct LN as (F & L255). split; [|auto]. unfold valid_labels. specialize (NS ls (or_introl eq_refl)). rewrite Forall_forall in *. intros x X. destruct (F x X). specialize (NS x X). 
      assert (1 <= zlen x) by (destruct x; [congruence|rewrite zlen_cons; pose proof (zlen_nonneg _ x); lia]). split; [lia|auto].
  - destruct O as (ps & -> & WP & NA1 & NE). rewrite (LAST eq_refl) in *. assert (vs = []) by (inversion W; auto). subst vs. exists [VOctets (concat ps)]. split; [apply wr_params; auto|]. split; [reflexivity|].
    split; [intros ls [K|[]]; discriminate|]. intros NA NS. destruct (NA (or_introl eq_refl)) as (NA2 & LL). clear NA. rewrite zlen_app in LL. destruct (written_kvs ps) as (kvs & F & EQ); [apply NA1; eapply no_alpn_suffix; eauto|lia|].
    apply wv_octets; [exists kvs; auto|apply concat_written_bytes; auto| |auto|constructor].
    destruct ps as [|p ps]; [congruence|]. inversion WP as [|? ? W1 W2]; subst. destruct W1; discriminate.
Qed.
