(** ProofShow1.v: the text of SvcParams and EDNS options, well-formed or not, is what is printed. *)
From Coq Require Strings.String.
From Verif Require Import Base Lib SpecName SpecMessage SpecEncode SpecFormat SpecTables SpecText SpecMsgText SpecPrint Libc ModelName ModelFormat ModelTables ModelDescr ModelToStr ModelParse
  ProofUnpack ProofCopy ProofNameStr ProofNameOps ProofFormat ProofInet ProofInet6 ProofB64 ProofB32 ProofTables ProofRdata ProofPrint ProofPrint2 ProofField ProofVisible ProofEncode ProofRdataText
  ProofFromStr ProofBitmap ProofSvc ProofRoundTrip ProofSafe ProofOptions.

Lemma each_sepd : forall ts, each 32 ts = sepd ts. Proof. reflexivity. Qed.
Lemma each_cons : forall c t ts, each c (t :: ts) = t ++ c :: each c ts.
Proof. intros. unfold each. cbn [map concat]. rewrite <- app_assoc. reflexivity. Qed.
Lemma list_text_cons : forall t ts, list_text (t :: ts) = t ++ (match ts with [] => [32] | _ => [44] end) ++ list_text ts.
Proof. intros t [|u ts]; [unfold list_text; cbn [join_by]; rewrite app_nil_r; reflexivity|]. unfold list_text. rewrite join_cons by discriminate. rewrite <- app_assoc. reflexivity. Qed.

(** ** Texts are determined *)
Lemma key_text_is : forall k s, key_text k s -> 0 <= k < 65535 /\ s = svckey_to_str k.
Proof.
  intros k s [M|(R & d & D & ->)].
  - destruct M as (m & I & ->). cbn in I. repeat (destruct I as [E|I]; [injection E as <- <-; split; [lia|reflexivity]|]). contradiction.
  - split; [lia|]. pose proof (key_text_spec k ltac:(lia)) as [(m & I & E)|(_ & d' & D' & ->)].
    + exfalso. cbn in I. repeat (destruct I as [I|I]; [injection I as <- <-; lia|]). contradiction.
    + rewrite (decimal_unique _ _ _ D D'). reflexivity.
Qed.
Lemma any_key_is : forall k s, any_key_text k s -> 0 <= k < 65536 /\ s = svckey_to_str k.
Proof. intros k s [K|[-> ->]]; [apply key_text_is in K; intuition lia|split; [lia|reflexivity]]. Qed.
Lemma any_keys_are : forall ks ts, Forall2 any_key_text ks ts -> Forall (fun k => 0 <= k < 65536) ks /\ ts = map svckey_to_str ks.
Proof. intros ks ts F. induction F as [|k t ks ts K F [IH ->]]; [split; constructor|]. apply any_key_is in K as [R ->]. split; [constructor; auto|reflexivity]. Qed.
Lemma ipv4_is : forall a s, bytes_ok a -> ipv4_text a s -> zlen a = 4 /\ s = addr4 a.
Proof.
  intros a s B T. assert (L : zlen a = 4) by (destruct T as (? & ? & ? & ? & ? & ? & ? & ? & -> & _); reflexivity). split; [auto|].
  destruct (addr4_spec a B L) as [_ T']. destruct T as (a0 & a1 & a2 & a3 & s0 & s1 & s2 & s3 & E & D0 & D1 & D2 & D3 & ->).
  destruct T' as (b0 & b1 & b2 & b3 & r0 & r1 & r2 & r3 & E' & F0 & F1 & F2 & F3 & ->). rewrite E in E'. injection E' as <- <- <- <-.
  rewrite (decimal_unique _ _ _ D0 F0), (decimal_unique _ _ _ D1 F1), (decimal_unique _ _ _ D2 F2), (decimal_unique _ _ _ D3 F3). reflexivity.
Qed.
Lemma ipv6_is : forall a s, bytes_ok a -> zlen a = 16 -> ipv6_text a s -> s = addr6 a.
Proof. intros a s B L T. destruct (addr6_spec a B L) as (_ & T' & _). eapply ipv6_unique; eauto. Qed.
Lemma type_is : forall n s, 0 <= n < 65536 -> type_text n s -> s = tname n.
Proof.
  intros n s R T. pose proof (tname_text n R) as T'.
  assert (U : forall m m', mnemonic iana_types n m -> mnemonic iana_types n m' -> m = m').
  { intros m m' (x & I & ->) (y & J & ->). f_equal. 
    assert (ND : NoDup (map fst iana_types)). { assert (X : (fix nd (l : list Z) := match l with [] => true | a :: l => negb (existsb (Z.eqb a) l) && nd l end) (map fst iana_types) = true) by (vm_compute; reflexivity).
      revert X. generalize (map fst iana_types). induction l as [|a l IH]; intros X; constructor; [|apply IH; destruct (negb _); [exact X|discriminate]].
      intros Y. destruct (existsb (Z.eqb a) l) eqn:Q; [discriminate|]. assert (existsb (Z.eqb a) l = true) by (apply existsb_exists; exists a; split; [auto|apply Z.eqb_refl]). congruence. }
    revert ND I J. generalize iana_types. induction l as [|[a b] l IH]; intros ND I J; [contradiction|]. inversion ND as [|? ? N1 N2]; subst. cbn [fst] in N1.
    destruct I as [I|I], J as [J|J]; auto.
    - congruence.
    - exfalso. apply N1. injection I as <- <-. apply in_map_iff. exists (a, y). auto.
    - exfalso. apply N1. injection J as <- <-. apply in_map_iff. exists (a, x). auto. }
  destruct T as [M|(N & d & D & ->)], T' as [M'|(N' & d' & D' & E')].
  - apply U; auto.
  - exfalso. eapply N'; eauto.
  - exfalso. eapply N; eauto.
  - rewrite E', (decimal_unique _ _ _ D D'). reflexivity.
Qed.
Lemma types_are : forall ns ts, Forall (fun n => 0 <= n < 65536) ns -> Forall2 type_text ns ts -> ts = map tname ns.
Proof. intros ns ts R F. induction F as [|n t ns ts T F IH]; [reflexivity|]. inversion R; subst. cbn [map]. f_equal; [apply type_is; auto|auto]. Qed.
Lemma hex_text_is : forall up l s, hex_text up l s -> bytes_ok l /\ s = hexs up l.
Proof. intros up l s H. induction H as [|b h l s H1 H2 [IH ->]]; [split; [constructor|reflexivity]|]. apply hex_octet_unique in H1 as [B ->]. split; [constructor; auto|reflexivity]. Qed.
Lemma hex_octets_are : forall up l hs, Forall2 (hex_octet up) l hs -> hs = map (hex2 up) l.
Proof. intros up l hs F. induction F as [|b h l hs H F IH]; [reflexivity|]. apply hex_octet_unique in H as [_ ->]. cbn [map]. f_equal. auto. Qed.

(** ** Values of SvcParams *)
Lemma blocks4 : forall az ts, bytes_ok (concat az) -> Forall2 ipv4_text az ts -> Forall (fun a => zlen a = 4) az /\ Forall bytes_ok az /\ ts = map addr4 az.
Proof.
  intros az ts B F. induction F as [|a t az ts T F IH]; [split; [constructor|split; [constructor|reflexivity]]|]. cbn [concat] in B. apply bytes_ok_app in B as [B1 B2].
  destruct (IH B2) as (I1 & I2 & ->). destruct (ipv4_is a t B1 T) as [L ->]. split; [constructor; auto|]. split; [constructor; auto|reflexivity].
Qed.
Lemma blocks6 : forall az ts, bytes_ok (concat az) -> Forall (fun a => zlen a = 16) az -> Forall2 ipv6_text az ts -> Forall bytes_ok az /\ ts = map addr6 az.
Proof.
  intros az ts B L F. induction F as [|a t az ts T F IH]; [split; [constructor|reflexivity]|]. cbn [concat] in B. apply bytes_ok_app in B as [B1 B2]. inversion L; subst.
  destruct (IH B2) as (I2 & ->); auto. rewrite (ipv6_is a t B1) by auto. split; [constructor; auto|reflexivity].
Qed.
Lemma mandatory_cut : forall ks f b rest, (length ks < f)%nat ->
  mandatory_loop f (concat (map u16 ks) ++ b :: rest) (zlen (concat (map u16 ks)) + 1) = Ok (each 44 (map svckey_to_str ks), Some res_parse_error).
Proof.
  induction ks as [|k ks IH]; intros f b rest F; (destruct f as [|f]; [cbn in F; lia|]); [reflexivity|].
  cbn [mandatory_loop]. rewrite zlen_u16s, zlen_cons. pose proof (zlen_nonneg _ ks).
  replace (2 * (zlen ks + 1) + 1 <=? 0) with false by lia. replace (2 >? 2 * (zlen ks + 1) + 1) with false by lia.
  cbn [map concat]. rewrite <- app_assoc. rewrite (take_rd_app (u16 k)) by reflexivity. cbn [bind]. unfold u16 at 1 2. cbn [nth].
  rewrite be16_u16. rewrite adv_app by reflexivity. replace (2 * (zlen ks + 1) + 1 - 2) with (zlen (concat (map u16 ks)) + 1) by (rewrite zlen_u16s; lia).
  rewrite IH by (cbn in *; lia). unfold emit, list_sep. rewrite zlen_u16s. replace (2 * zlen ks + 1 >? 0) with true by lia. cbn [bind]. rewrite each_cons. rewrite <- app_assoc. reflexivity.
Qed.
Lemma hint_cut : forall sz (addr : bytes -> bytes) az f l rest, sz = 4 \/ sz = 16 ->
  (forall a rest, In a az -> (if sz =? 4 then inet4_ntop (a ++ rest) 16 else inet6_ntop (a ++ rest) 46) = Ok (Some (addr a))) ->
  Forall (fun a => zlen a = sz) az -> 0 < zlen l < sz -> (length az < f)%nat ->
  hint_loop f sz (concat az ++ l ++ rest) (zlen (concat az) + zlen l) = Ok (each 44 (map addr az), Some res_parse_error).
Proof.
  intros sz addr. induction az as [|a az IH]; intros f l rest SZ A L LZ F; (destruct f as [|f]; [cbn in F; lia|]).
  - cbn [concat app map hint_loop]. change (zlen (@nil Z)) with 0. replace (0 + zlen l <=? 0) with false by lia. replace (sz >? 0 + zlen l) with true by lia. reflexivity.
  - inversion L as [|? ? L1 L2]; subst. cbn [hint_loop concat]. rewrite zlen_app. pose proof (zlen_nonneg _ (concat az)).
    replace (zlen a + zlen (concat az) + zlen l <=? 0) with false by lia. replace (zlen a >? zlen a + zlen (concat az) + zlen l) with false by lia.
    rewrite <- app_assoc. rewrite (A a) by (left; auto). cbn [bind]. rewrite adv_app by auto. replace (zlen a + zlen (concat az) + zlen l - zlen a) with (zlen (concat az) + zlen l) by lia.
    rewrite IH; auto; [|intros; apply A; right; auto|cbn in F; lia]. unfold emit, list_sep. replace (zlen (concat az) + zlen l >? 0) with true by lia. cbn [bind map]. rewrite each_cons. rewrite <- app_assoc. reflexivity.
Qed.
(** No complete character-string. *)
Lemma no_string : forall l, bytes_ok l -> l <> [] -> no_head (field_octets FString) l -> exists c r, l = c :: r /\ is_byte c /\ zlen r < c.
Proof.
  intros [|c r] B N H; [congruence|]. apply bytes_ok_cons in B as [Bc B]. exists c, r. split; [auto|]. split; [auto|]. destruct (Z.lt_ge_cases (zlen r) c) as [L|L]; [auto|exfalso].
  unfold is_byte in Bc. destruct (split_len r c B ltac:(lia)) as (s & r' & -> & LS & _). apply (H (char_string s) r'); [unfold char_string; rewrite LS; reflexivity|]. exists s. split; [lia|reflexivity].
Qed.
Lemma alpn_cut : forall ids f l rest, Forall (fun s => zlen s <= 255) ids -> Forall bytes_ok ids -> bytes_ok l -> l <> [] -> no_head (field_octets FString) l -> (length ids < f)%nat ->
  alpn_text f (concat (map char_string ids) ++ l ++ rest) (zlen (concat (map char_string ids)) + zlen l) =
  Ok (each 44 (map (fun i => concat (map quote_octet (alpn_id i))) ids), Some res_parse_error).
Proof.
  induction ids as [|i ids IH]; intros f l rest V B Bl N H F; (destruct f as [|f]; [cbn in F; lia|]).
  - destruct (no_string l Bl N H) as (c & r & -> & Bc & L). cbn [map concat app alpn_text]. change (zlen (@nil Z)) with 0. rewrite zlen_cons. pose proof (zlen_nonneg _ r).
    replace (0 + (zlen r + 1) <=? 0) with false by lia. cbn [hd_rd bind tl]. replace (c >? 0 + (zlen r + 1) - 1) with true by lia. reflexivity.
  - inversion V as [|? ? V1 V2]; inversion B as [|? ? B1 B2]; subst. cbn [map concat]. rewrite zlen_app, zlen_char_string. set (R := zlen (concat (map char_string ids)) + zlen l).
    assert (0 < R). { unfold R. pose proof (zlen_nonneg _ (concat (map char_string ids))). destruct l; [congruence|]. rewrite zlen_cons. pose proof (zlen_nonneg _ l). lia. }
    pose proof (zlen_nonneg _ i). replace (zlen i + 1 + zlen (concat (map char_string ids)) + zlen l) with (zlen i + 1 + R) by (unfold R; lia). cbn [alpn_text].
    replace (zlen i + 1 + R <=? 0) with false by lia. rewrite <- app_assoc. unfold char_string at 1. cbn [app hd_rd bind]. replace (zlen i >? zlen i + 1 + R - 1) with false by lia.
    change (tl (char_string i ++ ?x)) with (i ++ x). rewrite zlen_to_nat, alpn_chars_spec by auto. cbn [bind]. rewrite adv_app by reflexivity.
    replace (zlen i + 1 + R - 1 - zlen i) with R by lia. unfold R. rewrite IH by (auto; cbn in F; lia). fold R. replace (R >? 0) with true by lia. unfold emit. cbn [bind]. rewrite each_cons, <- app_assoc. reflexivity.
Qed.
Definition vres (ok : bool) : option res := if ok then None else Some res_parse_error.
Lemma value_prints : forall k v t ok rest, 0 <= k < 65535 -> bytes_ok v -> zlen v < 65536 -> value_shown k v t ok -> svcparam_to_str k (v ++ rest) (zlen v) = Ok (t, vres ok).
Proof.
  intros k v t ok rest K B L H. unfold svcparam_to_str, spr_mandatory, spr_alpn, spr_nd_alpn, spr_port, spr_ech, spr_ipv4hint, spr_ipv6hint, spr_invalid. cbv zeta.
  replace (k =? 65535) with false by lia.
  inversion H as [ks ts F|ks ts b F| |ids NI VI|ids l VI NL NH| |v0 NV|p d R D|v0 NV|az ts F|az ts l F Z|l|az ts F16 F|az ts l F16 F Z|k0 l R]; subst; cbn [Z.eqb Pos.eqb vres].
  - apply any_keys_are in F as [_ ->]. destruct ks as [|k ks]; [reflexivity|]. rewrite mandatory_text; [reflexivity|discriminate|]. rewrite app_length. pose proof (length_u16s (k :: ks)). lia.
  - apply any_keys_are in F as [_ ->]. rewrite <- app_assoc, zlen_app. change (zlen [b]) with 1. cbn [app]. apply mandatory_cut. rewrite app_length. pose proof (length_u16s ks). lia.
  - reflexivity.
  - rewrite alpn_text_spec; auto; [|apply char_strings_bytes; auto|rewrite app_length; pose proof (length_strings ids); lia]. unfold emit. cbn [bind]. unfold alpn_value_text, quoted, alpn_id.
    repeat (rewrite <- app_assoc; cbn [app]). reflexivity.
  - apply bytes_ok_app in B as [B1 B2]. rewrite <- app_assoc, zlen_app, alpn_cut; auto; [apply char_strings_bytes; auto|rewrite !app_length; pose proof (length_strings ids); lia].
  - reflexivity.
  - replace (zlen v =? 0) with false; [reflexivity|]. destruct v; [congruence|]. rewrite zlen_cons. pose proof (zlen_nonneg _ v). lia.
  - rewrite zlen_u16. change (2 =? 2) with true. cbn [negb]. rewrite (take_rd_app (u16 p)) by reflexivity. cbn [bind]. unfold u16. cbn [nth]. rewrite be16_u16.
    rewrite u64_text_fmt by (change (10 ^ (6 - 1)) with 100000; lia). cbn [bind]. rewrite (decimal_fmt_u p d) by (auto; lia). reflexivity.
  - replace (zlen v =? 2) with false by lia. reflexivity.
  - destruct (blocks4 az ts B F) as (F4 & FB & ->). destruct az as [|a az]; [reflexivity|]. rewrite hint4_text; auto; [discriminate|]. rewrite app_length. pose proof (length_blocks 4 (a :: az) ltac:(lia) F4). lia.
  - apply bytes_ok_app in B as [B1 B2]. destruct (blocks4 az ts B1 F) as (F4 & FB & ->). rewrite <- app_assoc, zlen_app. apply hint_cut; auto.
    + intros a r I. cbn [Z.eqb Pos.eqb]. rewrite Forall_forall in F4, FB. destruct (addr4_spec a (FB a I) (F4 a I)) as [E _]. apply E. lia.
    + rewrite app_length. pose proof (length_blocks 4 az ltac:(lia) F4). lia.
  - destruct (Z.eq_dec (zlen v) 0) as [Z0|NZ].
    + apply zlen_zero in Z0. subst v. change (zlen (@nil Z)) with 0. rewrite bytes_to_base64_nil. reflexivity.
    + rewrite bytes_to_base64_spec by (auto; pose proof (zlen_nonneg _ v); lia). reflexivity.
  - destruct (blocks6 az ts B F16 F) as (FB & ->). destruct az as [|a az]; [reflexivity|]. rewrite hint6_text; auto; [discriminate|]. rewrite app_length. pose proof (length_blocks 16 (a :: az) ltac:(lia) F16). lia.
  - apply bytes_ok_app in B as [B1 B2]. destruct (blocks6 az ts B1 F16 F) as (FB & ->). rewrite <- app_assoc, zlen_app. apply hint_cut; auto.
    + intros a r I. cbn [Z.eqb Pos.eqb]. rewrite Forall_forall in F16, FB. destruct (addr6_spec a (FB a I) (F16 a I)) as (E & _). apply E.
    + rewrite app_length. pose proof (length_blocks 16 az ltac:(lia) F16). lia.
  - replace (k =? 0) with false by lia. replace (k =? 2) with false by lia. replace (k =? 3) with false by lia. replace (k =? 5) with false by lia.
    replace (k =? 4) with false by lia. replace (k =? 6) with false by lia. replace (k =? 1) with false by lia. rewrite to_str_string_spec by auto. reflexivity.
Qed.

(** ** How a field leaves the loop *)
Inductive leaves : next -> Z -> tflow -> Prop :=
| lv_go : forall r src, (r <> [] -> src = r) -> leaves (Go r) (zlen r) (TNext src (zlen r))
| lv_short : forall m, leaves (Stop err_short) m TErr
| lv_code : forall c m, leaves (Stop (lit " ### PARSE ERROR #" ++ fmt_u (res_code c) ++ lit " ###")) m (TRes c).
Definition exits (n : next) (f : tflow) : Prop := exists m, leaves n m f.
Lemma exits_go : forall r src, (r <> [] -> src = r) -> exits (Go r) (TNext src (zlen r)).
Proof. intros. exists (zlen r). constructor; auto. Qed.
Lemma exits_short : exits (Stop err_short) TErr. Proof. exists 0. constructor. Qed.
Lemma exits_value : exits (Stop err_value) (TRes res_parse_error). Proof. exists 0. apply (lv_code res_parse_error). Qed.
Lemma exits_label : exits (Stop err_label) (TRes res_invalid_length_octet). Proof. exists 0. apply (lv_code res_invalid_length_octet). Qed.
Lemma exits_long : exits (Stop err_long) (TRes res_name_len). Proof. exists 0. apply (lv_code res_name_len). Qed.

Lemma key_head_is : forall k h, key_head k h -> h = svckey_to_str k ++ (if negb (k =? spr_nd_alpn) then [61] else []).
Proof. intros k h (t & T & ->). apply key_text_is in T as [_ ->]. unfold spr_nd_alpn. destruct (k =? 2); reflexivity. Qed.
Lemma bytes_ok_u16 : forall k, 0 <= k < 65536 -> bytes_ok (u16 k).
Proof. intros k H. unfold u16. apply Forall_cons; [unfold is_byte; zdm|]. apply Forall_cons; [unfold is_byte; zdm|constructor]. Qed.
Lemma params_print : forall l s n, params_shown l s n -> forall f rest, bytes_ok l -> zlen l < 65536 -> (length l < f)%nat ->
  exists g, svcparams_text f (l ++ rest) (zlen l) = Ok (s, g) /\ exits n g.
Proof.
  intros l s n H. induction H as [|k v h t l s n K V KH VS PS IH|b|l|k l h K Z KH|k n l h K N Z KH|k v h t l K V KH VS]; intros f rest B L F; (destruct f as [|f]; [lia|]).
  - exists (TNext rest 0). split; [reflexivity|]. apply (exits_go []). congruence.
  - assert (ES : (param (k, v) ++ l) ++ rest = u16 k ++ u16 (zlen v) ++ v ++ l ++ rest). { unfold param. cbn [fst snd]. repeat rewrite <- app_assoc. reflexivity. }
    rewrite ES. rewrite zlen_app, zlen_param in *. cbn [snd] in *. apply bytes_ok_app in B as [B1 B2].
    assert (Bv : bytes_ok v) by (unfold param in B1; rewrite !bytes_ok_app in B1; tauto). pose proof (zlen_nonneg _ v). pose proof (zlen_nonneg _ l).
    cbn [svcparams_text]. replace (4 + zlen v + zlen l >? 0) with true by lia. replace (4 + zlen v + zlen l <? 2) with false by lia.
    rewrite (take_rd_app (u16 k)) by reflexivity. rewrite (adv_app (u16 k)) by reflexivity. cbn [bind].
    rewrite (take_rd_app (u16 (zlen v))) by reflexivity. rewrite (adv_app (u16 (zlen v))) by reflexivity.
    unfold u16. cbn [nth bind]. rewrite !be16_u16. unfold spr_invalid. replace (k =? 65535) with false by lia.
    replace (4 + zlen v + zlen l - 2 <? 2) with false by lia. replace (4 + zlen v + zlen l - 2 - 2 <? zlen v) with false by lia.
    rewrite (value_prints k v t true) by auto. cbn [bind vres after_res]. rewrite adv_app by reflexivity. replace (4 + zlen v + zlen l - 2 - 2 - zlen v) with (zlen l) by lia.
    destruct (IH f rest B2 ltac:(lia)) as (g & -> & X). { rewrite app_length in F. unfold param, u16 in F. cbn [app length] in F. lia. }
    unfold emit. cbn [bind]. exists g. split; [|auto]. rewrite (key_head_is k h KH). repeat (rewrite <- app_assoc; cbn [app]). reflexivity.
  - exists TErr. split; [reflexivity|apply exits_short].
  - exists TErr. split; [|apply exits_short]. rewrite zlen_app. change (zlen (u16 65535)) with 2. pose proof (zlen_nonneg _ l). rewrite <- app_assoc. cbn [svcparams_text]. replace (2 + zlen l >? 0) with true by lia. replace (2 + zlen l <? 2) with false by lia.
    rewrite (take_rd_app (u16 65535)) by reflexivity. reflexivity.
  - exists TErr. split; [|apply exits_short]. rewrite zlen_app. rewrite zlen_u16. pose proof (zlen_nonneg _ l). rewrite <- app_assoc. cbn [svcparams_text]. replace (2 + zlen l >? 0) with true by lia. replace (2 + zlen l <? 2) with false by lia.
    rewrite (take_rd_app (u16 k)) by reflexivity. cbn [bind]. unfold u16. cbn [nth]. rewrite !be16_u16. unfold spr_invalid. replace (k =? 65535) with false by lia. replace (2 + zlen l - 2 <? 2) with true by lia. rewrite (key_head_is k h KH). reflexivity.
  - exists TErr. split; [|apply exits_short]. rewrite !zlen_app. rewrite !zlen_u16. pose proof (zlen_nonneg _ l). rewrite <- !app_assoc. cbn [svcparams_text]. replace (2 + (2 + zlen l) >? 0) with true by lia. replace (2 + (2 + zlen l) <? 2) with false by lia.
    rewrite (take_rd_app (u16 k)) by reflexivity. rewrite (adv_app (u16 k)) by reflexivity. cbn [bind]. rewrite (take_rd_app (u16 n)) by reflexivity.
    unfold u16. cbn [nth bind]. rewrite !be16_u16. unfold spr_invalid. replace (k =? 65535) with false by lia. replace (2 + (2 + zlen l) - 2 <? 2) with false by lia.
    replace (2 + (2 + zlen l) - 2 - 2 <? n) with true by lia. rewrite (key_head_is k h KH). reflexivity.
  - assert (ES : (param (k, v) ++ l) ++ rest = u16 k ++ u16 (zlen v) ++ v ++ l ++ rest). { unfold param. cbn [fst snd]. repeat rewrite <- app_assoc. reflexivity. }
    rewrite ES. rewrite zlen_app, zlen_param in *. cbn [snd] in *. apply bytes_ok_app in B as [B1 B2].
    assert (Bv : bytes_ok v) by (unfold param in B1; rewrite !bytes_ok_app in B1; tauto). pose proof (zlen_nonneg _ v). pose proof (zlen_nonneg _ l).
    cbn [svcparams_text]. replace (4 + zlen v + zlen l >? 0) with true by lia. replace (4 + zlen v + zlen l <? 2) with false by lia.
    rewrite (take_rd_app (u16 k)) by reflexivity. rewrite (adv_app (u16 k)) by reflexivity. cbn [bind].
    rewrite (take_rd_app (u16 (zlen v))) by reflexivity. rewrite (adv_app (u16 (zlen v))) by reflexivity.
    unfold u16. cbn [nth bind]. rewrite !be16_u16. unfold spr_invalid. replace (k =? 65535) with false by lia.
    replace (4 + zlen v + zlen l - 2 <? 2) with false by lia. replace (4 + zlen v + zlen l - 2 - 2 <? zlen v) with false by lia.
    rewrite (value_prints k v t false) by auto. cbn [bind vres after_res]. unfold emit. cbn [bind]. exists (TRes res_parse_error). split; [|apply exits_value].
    rewrite (key_head_is k h KH). rewrite app_nil_r. reflexivity.
Qed.
