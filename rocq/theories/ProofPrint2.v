(** ProofPrint2.v: the text of SvcParams. *)
From Coq Require Strings.String.
From Verif Require Import Base Lib SpecName SpecMessage SpecFormat SpecTables SpecText Libc ModelName ModelFormat ModelTables ModelDescr ModelToStr
  ProofFormat ProofInet ProofInet6 ProofB64 ProofTables ProofRdata ProofPrint ModelParse.

Lemma key_text_spec : forall k, 0 <= k < 65535 -> key_text k (svckey_to_str k).
Proof.
  intros k H. unfold key_text, mnemonic. destruct (Z.lt_ge_cases k 7) as [L|L].
  - left. assert (K : k = 0 \/ k = 1 \/ k = 2 \/ k = 3 \/ k = 4 \/ k = 5 \/ k = 6) by lia.
    repeat (destruct K as [-> |K]; [eexists; split; [|reflexivity]; cbn; tauto|]). subst. eexists; split; [|reflexivity]; cbn; tauto.
  - right. split; [lia|]. exists (fmt_u k). split; [apply fmt_u_decimal; lia|]. unfold svckey_to_str, spr_mandatory, spr_alpn, spr_nd_alpn, spr_port, spr_ech, spr_ipv4hint, spr_ipv6hint, spr_invalid.
    repeat match goal with |- context [if k =? ?c then _ else _] => replace (k =? c) with false by lia end. reflexivity.
Qed.

Lemma zlen_u16s : forall ks, zlen (concat (map u16 ks)) = 2 * zlen ks.
Proof. induction ks as [|k ks IH]; [reflexivity|]. cbn [map concat]. rewrite zlen_app, IH, zlen_cons. change (zlen (u16 k)) with 2. lia. Qed.

Lemma mandatory_text : forall ks f rest, ks <> [] -> (length ks < f)%nat ->
  mandatory_loop f (concat (map u16 ks) ++ rest) (zlen (concat (map u16 ks))) = Ok (join_by 44 (map svckey_to_str ks) ++ [32], None).
Proof.
  induction ks as [|k ks IH]; intros f rest NE F; [congruence|]. destruct f as [|f]; [cbn in F; lia|].
  cbn [mandatory_loop]. rewrite zlen_u16s, zlen_cons. pose proof (zlen_nonneg _ ks).
  replace (2 * (zlen ks + 1) <=? 0) with false by lia. replace (2 >? 2 * (zlen ks + 1)) with false by lia.
  cbn [map concat]. rewrite <- app_assoc. rewrite (take_rd_app (u16 k)) by reflexivity. cbn [bind]. unfold u16 at 1 2. cbn [nth].
  rewrite be16_u16. rewrite adv_app by reflexivity. replace (2 * (zlen ks + 1) - 2) with (2 * zlen ks) by lia.
  destruct ks as [|k2 ks].
  - cbn [map concat app]. destruct f as [|f]; [cbn in F; lia|]. cbn [mandatory_loop]. change (2 * zlen (@nil Z)) with 0. unfold emit, list_sep. cbn. rewrite app_nil_r. reflexivity.
  - rewrite <- zlen_u16s. rewrite IH; [|discriminate|cbn in *; lia]. unfold emit. cbn [bind]. f_equal. f_equal.
    unfold list_sep. rewrite zlen_u16s, zlen_cons. pose proof (zlen_nonneg _ ks). replace (2 * (zlen ks + 1) >? 0) with true by lia.
    change (map svckey_to_str (k2 :: ks)) with (svckey_to_str k2 :: map svckey_to_str ks).
    rewrite (join_cons 44 (svckey_to_str k)) by discriminate. repeat (rewrite <- app_assoc; cbn [app]). reflexivity.
Qed.

(** Cutting octets into blocks. *)
Lemma chunks : forall k (n : nat) (v : bytes), 0 < k -> zlen v = k * Z.of_nat n -> exists az, v = concat az /\ Forall (fun a => zlen a = k) az /\ length az = n.
Proof.
  intros k n. induction n as [|n IH]; intros v K L.
  - exists []. split; [apply zlen_zero; lia|]. split; [constructor|reflexivity].
  - destruct (IH (skipn (Z.to_nat k) v) K) as (az & E & F & G).
    + rewrite zlen_skipn by lia. lia.
    + exists (firstn (Z.to_nat k) v :: az). cbn [concat length]. rewrite <- E, firstn_skipn. split; [reflexivity|]. split; [|lia].
      constructor; auto. apply zlen_firstn. lia.
Qed.
Lemma zlen_chunks : forall k az, Forall (fun a : bytes => zlen a = k) az -> zlen (concat az) = k * zlen az.
Proof.
  induction az as [|a az IH]; intros F; [rewrite zlen_nil; cbn; lia|]. inversion F; subst. cbn [concat]. rewrite zlen_app, zlen_cons, IH by auto. lia.
Qed.

Definition addr4 (a : bytes) : bytes := match a with [w; x; y; z] => text4 w x y z | _ => [] end.
Lemma addr4_spec : forall a, bytes_ok a -> zlen a = 4 ->
  (forall rest size, 16 <= size -> inet4_ntop (a ++ rest) size = Ok (Some (addr4 a))) /\ ipv4_text a (addr4 a).
Proof.
  intros a H L. destruct a as [|w [|x [|y [|z [|]]]]]; try (unfold zlen in L; cbn [length] in L; lia).
  do 4 (let X := fresh "X" in apply bytes_ok_cons in H as [X H]). split.
  - intros rest size S. cbn [app addr4]. apply inet4_ntop_spec; auto.
  - cbn [addr4]. apply text4_spec; auto.
Qed.
Lemma hint4_text : forall az f rest, az <> [] -> Forall (fun a => zlen a = 4) az -> Forall bytes_ok az -> (length az < f)%nat ->
  hint_loop f 4 (concat az ++ rest) (zlen (concat az)) = Ok (join_by 44 (map addr4 az) ++ [32], None).
Proof.
  induction az as [|a az IH]; intros f rest NE L B F; [congruence|]. destruct f as [|f]; [cbn in F; lia|].
  inversion L as [|? ? L1 L2]; inversion B as [|? ? B1 B2]; subst. cbn [hint_loop]. rewrite (zlen_chunks 4), zlen_cons by auto. pose proof (zlen_nonneg _ az).
  replace (4 * (zlen az + 1) <=? 0) with false by lia. replace (4 >? 4 * (zlen az + 1)) with false by lia.
  cbn [concat]. rewrite <- app_assoc. change (4 =? 4) with true. cbv iota. destruct (addr4_spec a B1 L1) as [E _]. rewrite E by lia. cbn [bind].
  rewrite adv_app by auto. replace (4 * (zlen az + 1) - 4) with (4 * zlen az) by lia.
  destruct az as [|a2 az].
  - cbn [concat app]. destruct f as [|f]; [cbn in F; lia|]. cbn [hint_loop]. change (4 * zlen (@nil (list Z))) with 0. unfold emit, list_sep. cbn. rewrite app_nil_r. reflexivity.
  - rewrite <- (zlen_chunks 4) by auto. rewrite IH; auto; [|discriminate|cbn in *; lia]. unfold emit. cbn [bind]. f_equal. f_equal.
    unfold list_sep. rewrite (zlen_chunks 4), zlen_cons by auto. pose proof (zlen_nonneg _ az). replace (4 * (zlen az + 1) >? 0) with true by lia.
    change (map addr4 (a :: a2 :: az)) with (addr4 a :: map addr4 (a2 :: az)). rewrite (join_cons 44 (addr4 a)) by discriminate.
    repeat (rewrite <- app_assoc; cbn [app]). reflexivity.
Qed.

Definition addr6 (a : bytes) : bytes := match inet6_ntop a 46 with Ok (Some s) => s | _ => [] end.
Lemma addr6_spec : forall a, bytes_ok a -> zlen a = 16 ->
  (forall rest, inet6_ntop (a ++ rest) 46 = Ok (Some (addr6 a))) /\ ipv6_text a (addr6 a) /\ inet_pton6 (addr6 a) = Some a.
Proof.
  intros a H L.
  assert (G : forall rest, inet6_ntop (a ++ rest) 46 = inet6_ntop a 46).
  { intros rest. unfold inet6_ntop. assert (TA : take_rd a 16 = Ok a) by (rewrite <- (app_nil_r a) at 1; apply take_rd_app; auto).
    rewrite take_rd_app by auto. rewrite TA. cbn [bind].
    replace (46 <? 46) with false by reflexivity.
    assert (A : adv (a ++ rest) 12 = adv a 12 ++ rest).
    { unfold adv. rewrite skipn_app. replace (Z.to_nat 12 - length a)%nat with 0%nat; [reflexivity|]. unfold zlen in L. lia. }
    assert (I4 : forall size, inet4_ntop (adv (a ++ rest) 12) size = inet4_ntop (adv a 12) size).
    { intros size. rewrite A. unfold inet4_ntop. destruct (size <? 16); [reflexivity|].
      assert (zlen (adv a 12) = 4) by (unfold adv; rewrite zlen_skipn; lia).
      rewrite take_rd_app by auto. assert (TA' : take_rd (adv a 12) 4 = Ok (adv a 12)) by (rewrite <- (app_nil_r (adv a 12)) at 1; apply take_rd_app; auto).
      rewrite TA'. reflexivity. }
    assert (K : forall ws i best w5 dst, inet6_loop ws i best w5 (adv (a ++ rest) 12) 46 dst = inet6_loop ws i best w5 (adv a 12) 46 dst).
    { induction ws as [|w ws IH]; intros; [reflexivity|]. cbn [inet6_loop].
      destruct (_ && _ && _).
      - destruct (if i =? fst best then _ else _); cbn [bind]; auto.
      - destruct (if negb (i =? 0) then _ else _) as [d| | |]; cbn [bind]; auto. destruct (_ && _); [rewrite I4; reflexivity|].
        destruct (print_hex_uint16 w); cbn [bind]; auto. destruct (push 46 d a0); cbn [bind]; auto. }
    rewrite K. reflexivity. }
  destruct (inet6_ntop_spec a [] H L) as (s & A & B & C & D). rewrite app_nil_r in A. unfold addr6. rewrite A. split; [|split]; auto.
  intros rest. rewrite G, A. reflexivity.
Qed.
Lemma hint6_text : forall az f rest, az <> [] -> Forall (fun a => zlen a = 16) az -> Forall bytes_ok az -> (length az < f)%nat ->
  hint_loop f 16 (concat az ++ rest) (zlen (concat az)) = Ok (join_by 44 (map addr6 az) ++ [32], None).
Proof.
  induction az as [|a az IH]; intros f rest NE L B F; [congruence|]. destruct f as [|f]; [cbn in F; lia|].
  inversion L as [|? ? L1 L2]; inversion B as [|? ? B1 B2]; subst. cbn [hint_loop]. rewrite (zlen_chunks 16), zlen_cons by auto. pose proof (zlen_nonneg _ az).
  replace (16 * (zlen az + 1) <=? 0) with false by lia. replace (16 >? 16 * (zlen az + 1)) with false by lia.
  cbn [concat]. rewrite <- app_assoc. change (16 =? 4) with false. cbv iota. destruct (addr6_spec a B1 L1) as [E _]. rewrite E by lia. cbn [bind].
  rewrite adv_app by auto. replace (16 * (zlen az + 1) - 16) with (16 * zlen az) by lia.
  destruct az as [|a2 az].
  - cbn [concat app]. destruct f as [|f]; [cbn in F; lia|]. cbn [hint_loop]. change (16 * zlen (@nil (list Z))) with 0. unfold emit, list_sep. cbn. rewrite app_nil_r. reflexivity.
  - rewrite <- (zlen_chunks 16) by auto. rewrite IH; auto; [|discriminate|cbn in *; lia]. unfold emit. cbn [bind]. f_equal. f_equal.
    unfold list_sep. rewrite (zlen_chunks 16), zlen_cons by auto. pose proof (zlen_nonneg _ az). replace (16 * (zlen az + 1) >? 0) with true by lia.
    change (map addr6 (a :: a2 :: az)) with (addr6 a :: map addr6 (a2 :: az)). rewrite (join_cons 44 (addr6 a)) by discriminate.
    repeat (rewrite <- app_assoc; cbn [app]). reflexivity.
Qed.

(** ** alpn *)
Lemma alpn_octet_spec : forall c, is_byte c -> alpn_octet c = Ok (concat (map quote_octet (list_octet c))).
Proof.
  intros c H. unfold alpn_octet, list_octet. rewrite octal_like_spec by auto.
  destruct (c =? 34) eqn:E1; [apply Z.eqb_eq in E1; subst; reflexivity|].
  destruct (c =? 92) eqn:E2; [apply Z.eqb_eq in E2; subst; reflexivity|].
  destruct (c =? 44) eqn:E3; [apply Z.eqb_eq in E3; subst; reflexivity|].
  cbn [orb map concat]. unfold quote_octet. rewrite E1, E2. cbn [orb]. destruct (_ && _); rewrite app_nil_r; reflexivity.
Qed.
Definition alpn_id (i : bytes) : bytes := concat (map list_octet i).
Lemma alpn_chars_spec : forall i rest, bytes_ok i -> alpn_chars (length i) (i ++ rest) = Ok (concat (map quote_octet (alpn_id i))).
Proof.
  induction i as [|c i IH]; intros rest F; [reflexivity|]. apply bytes_ok_cons in F as [Hc F].
  cbn [length alpn_chars app hd_rd tl bind]. rewrite alpn_octet_spec by auto. cbn [bind]. rewrite IH by auto. cbn [bind].
  unfold alpn_id. cbn [map concat]. rewrite map_app, concat_app. reflexivity.
Qed.
Lemma zlen_char_strings_pos : forall ids, ids <> [] -> 0 < zlen (concat (map char_string ids)).
Proof. intros [|i ids] H; [congruence|]. cbn [map concat]. rewrite zlen_app, zlen_char_string. pose proof (zlen_nonneg _ i). pose proof (zlen_nonneg _ (concat (map char_string ids))). lia. Qed.
Lemma alpn_text_spec : forall ids f rest, ids <> [] -> Forall (fun s => zlen s <= 255) ids -> Forall bytes_ok ids -> (length ids < f)%nat ->
  alpn_text f (concat (map char_string ids) ++ rest) (zlen (concat (map char_string ids))) =
  Ok (concat (map quote_octet (join_by 44 (map alpn_id ids))) ++ [34; 32], None).
Proof.
  induction ids as [|i ids IH]; intros f rest NE L B F; [congruence|]. destruct f as [|f]; [cbn in F; lia|].
  inversion L as [|? ? L1 L2]; inversion B as [|? ? B1 B2]; subst. pose proof (zlen_char_strings_pos (i :: ids) ltac:(discriminate)) as P.
  cbn [alpn_text]. replace (zlen (concat (map char_string (i :: ids))) <=? 0) with false by lia.
  cbn [map concat] in *. unfold char_string at 1 2. cbn [app hd_rd tl bind]. rewrite zlen_app, zlen_char_string. pose proof (zlen_nonneg _ (concat (map char_string ids))). pose proof (zlen_nonneg _ i).
  replace (zlen i >? zlen i + 1 + zlen (concat (map char_string ids)) - 1) with false by lia.
  rewrite zlen_to_nat. rewrite <- app_assoc. change (tl (char_string i ++ ?x)) with (i ++ x). rewrite alpn_chars_spec by auto. cbn [bind]. rewrite adv_app by reflexivity.
  replace (zlen i + 1 + zlen (concat (map char_string ids)) - 1 - zlen i) with (zlen (concat (map char_string ids))) by lia.
  destruct ids as [|j ids].
  - cbn [map concat app]. destruct f as [|f]; [cbn in F; lia|]. change (zlen (@nil Z)) with 0. cbn [alpn_text join_by]. unfold emit. cbn.
    rewrite <- app_assoc. reflexivity.
  - rewrite IH; auto; [|discriminate|cbn in *; lia]. unfold emit. cbn [bind]. f_equal. f_equal.
    pose proof (zlen_char_strings_pos (j :: ids) ltac:(discriminate)). replace (zlen (concat (map char_string (j :: ids))) >? 0) with true by lia.
    change (map alpn_id (j :: ids)) with (alpn_id j :: map alpn_id ids). rewrite (join_cons 44 (alpn_id i)) by discriminate.
    rewrite map_app, concat_app. cbn [map concat]. repeat (rewrite <- app_assoc; cbn [app]). reflexivity.
Qed.

Lemma Forall_concat_bytes : forall az, bytes_ok (concat az) -> Forall bytes_ok az.
Proof. induction az as [|a az IH]; intros H; constructor; cbn [concat] in H; apply bytes_ok_app in H; tauto. Qed.
Lemma char_strings_bytes : forall ids, bytes_ok (concat (map char_string ids)) -> Forall bytes_ok ids.
Proof.
  induction ids as [|i ids IH]; intros H; constructor; cbn [map concat] in H; apply bytes_ok_app in H as [A B]; [|auto].
  unfold char_string in A. apply bytes_ok_cons in A. tauto.
Qed.
Lemma length_u16s : forall ks, (length ks <= length (concat (map u16 ks)))%nat.
Proof. induction ks as [|k ks IH]; [cbn; lia|]. cbn [map concat]. rewrite app_length. cbn [u16 length]. lia. Qed.
Lemma length_strings : forall ids, (length ids <= length (concat (map char_string ids)))%nat.
Proof. induction ids as [|k ks IH]; [cbn; lia|]. cbn [map concat]. rewrite app_length. cbn [char_string length]. lia. Qed.
Lemma length_blocks : forall k az, 1 <= k -> Forall (fun a : bytes => zlen a = k) az -> (length az <= length (concat az))%nat.
Proof. intros k az K F. apply zlen_chunks in F. unfold zlen in F. nia. Qed.

(** The texts of the values. *)
Definition vtext (k : Z) (v t : bytes) : Prop := value_text k v t /\ forall rest, svcparam_to_str k (v ++ rest) (zlen v) = Ok (t ++ [32], None).

Lemma svcparam_text : forall k v, bytes_ok v -> param_ok k v -> zlen v < 65536 -> plain_param (k, v) -> k <> 2 ->
  exists t, value_text k v t /\ forall rest, svcparam_to_str k (v ++ rest) (zlen v) = Ok (t ++ [32], None).
Proof.
  intros k v B (K & P0 & P1 & P2 & P3 & P4 & P6) L (Q0 & Q4 & Q6) N2. cbn [fst snd] in *. unfold svcparam_to_str, spr_mandatory, spr_alpn, spr_nd_alpn, spr_port, spr_ech, spr_ipv4hint, spr_ipv6hint, spr_invalid.
  replace (k =? 65535) with false by lia. destruct (Z.eq_dec k 0) as [-> |N0].
  { destruct (Q0 eq_refl) as (ks & NE & F & ->). exists (join_by 44 (map svckey_to_str ks)). split.
    - constructor; auto. clear - F. induction F; constructor; auto. apply key_text_spec; auto.
    - intros rest. apply mandatory_text; auto. rewrite app_length. pose proof (length_u16s ks). lia. }
  destruct (Z.eq_dec k 1) as [-> |N1].
  { destruct (P1 eq_refl) as (ids & NE & F & ->). exists (alpn_value_text ids). split; [constructor; auto|].
    intros rest. cbn [Z.eqb Pos.eqb]. rewrite alpn_text_spec; auto; [|apply char_strings_bytes; auto|rewrite app_length; pose proof (length_strings ids); lia].
    unfold emit. cbn [bind]. f_equal. f_equal. unfold alpn_value_text, quoted. change (fun i => concat (map list_octet i)) with alpn_id.
    repeat (rewrite <- app_assoc; cbn [app]). reflexivity. }
  destruct (Z.eq_dec k 3) as [-> |N3].
  { specialize (P3 eq_refl). destruct v as [|a [|b [|]]]; try (unfold zlen in P3; cbn [length] in P3; lia). do 2 (let X := fresh "X" in apply bytes_ok_cons in B as [X B]).
    unfold is_byte in *. exists (fmt_u (be16 a b)). split.
    - rewrite <- (u16_be16 a b) by auto. constructor; [unfold be16; lia|]. apply fmt_u_decimal. unfold be16. lia.
    - intros rest. cbn [Z.eqb Pos.eqb zlen length Z.of_nat Pos.of_succ_nat Pos.succ negb]. rewrite take_rd_app by reflexivity. cbn [bind nth].
      rewrite u64_text_fmt; [reflexivity|lia|unfold be16; lia]. }
  destruct (Z.eq_dec k 4) as [-> |N4].
  { destruct (P4 eq_refl) as (n & En). specialize (Q4 eq_refl). pose proof (zlen_nonneg _ v).
    destruct (chunks 4 (Z.to_nat n) v ltac:(lia) ltac:(lia)) as (az & -> & F & _). apply Forall_concat_bytes in B.
    assert (NE : az <> []) by (intros ->; apply Q4; reflexivity).
    exists (join_by 44 (map addr4 az)). split.
    - constructor; auto. clear - F B. induction F; inversion B; subst; constructor; auto. apply addr4_spec; auto.
    - intros rest. cbn [Z.eqb Pos.eqb]. apply hint4_text; auto. rewrite app_length. pose proof (length_blocks 4 az ltac:(lia) F). lia. }
  destruct (Z.eq_dec k 5) as [-> |N5].
  { exists (base64 v). split; [constructor|]. intros rest. cbn [Z.eqb Pos.eqb]. destruct v as [|a v].
    - cbn [app]. change (zlen (@nil Z)) with 0. rewrite bytes_to_base64_nil. reflexivity.
    - rewrite bytes_to_base64_spec; auto. rewrite zlen_cons in *. pose proof (zlen_nonneg _ v). lia. }
  destruct (Z.eq_dec k 6) as [-> |N6].
  { destruct (P6 eq_refl) as (n & En). specialize (Q6 eq_refl). pose proof (zlen_nonneg _ v).
    destruct (chunks 16 (Z.to_nat n) v ltac:(lia) ltac:(lia)) as (az & -> & F & _). apply Forall_concat_bytes in B.
    assert (NE : az <> []) by (intros ->; apply Q6; reflexivity).
    exists (join_by 44 (map addr6 az)). split.
    - constructor; auto. clear - F B. induction F; inversion B; subst; constructor; auto. apply addr6_spec; auto.
    - intros rest. cbn [Z.eqb Pos.eqb]. apply hint6_text; auto. rewrite app_length. pose proof (length_blocks 16 az ltac:(lia) F). lia. }
  exists (quoted v). split; [constructor; lia|]. intros rest.
  replace (k =? 0) with false by lia. replace (k =? 2) with false by lia. replace (k =? 3) with false by lia. replace (k =? 5) with false by lia.
  replace (k =? 4) with false by lia. replace (k =? 6) with false by lia. replace (k =? 1) with false by lia.
  rewrite to_str_string_spec by auto. reflexivity.
Qed.

Lemma zlen_u16 : forall v, zlen (u16 v) = 2. Proof. reflexivity. Qed.
Lemma svcparams_text_spec : forall ps, Forall (fun kv => param_ok (fst kv) (snd kv) /\ zlen (snd kv) < 65532) ps -> Forall plain_param ps ->
  bytes_ok (concat (map param ps)) ->
  exists ts, Forall2 param_text ps ts /\
  forall f rest, (length ps < f)%nat -> svcparams_text f (concat (map param ps) ++ rest) (zlen (concat (map param ps))) = Ok (sepd ts, TNext rest 0).
Proof.
  induction ps as [|[k v] ps IH]; intros V P B.
  - exists []. split; [constructor|]. intros [|f] rest F; [cbn in F; lia|]. reflexivity.
  - inversion V as [|? ? [V1 V1'] V2]; inversion P as [|? ? P1 P2]; subst. cbn [map concat] in B |- *. apply bytes_ok_app in B as [B1 B2].
    assert (Bv : bytes_ok v) by (unfold param in B1; rewrite !bytes_ok_app in B1; tauto).
    destruct (IH V2 P2 B2) as (ts & T & E). cbn [fst snd] in *.
    assert (KR : 0 <= k < 65535) by (destruct V1; auto).
    assert (G : exists s t, param_text (k, v) s /\ s = svckey_to_str k ++ (if negb (k =? 2) then [61] else []) ++ t /\
              forall rest, svcparam_to_str k (v ++ rest) (zlen v) = Ok (t ++ [32], None)).
    { destruct (Z.eq_dec k 2) as [-> |N2].
      - destruct V1 as (_ & _ & _ & X & _). rewrite (X eq_refl) in *. exists (svckey_to_str 2), []. split; [constructor; apply key_text_spec; lia|].
        split; [reflexivity|]. intros rest. reflexivity.
      - destruct (svcparam_text k v Bv V1 ltac:(lia) P1 N2) as (t & T1 & T2). exists (svckey_to_str k ++ [61] ++ t), t.
        split; [constructor; [apply key_text_spec; lia|auto]|]. replace (k =? 2) with false by lia. auto. }
    destruct G as (s & t & Ps & Es & G). exists (s :: ts). split; [constructor; auto|]. intros [|f] rest F; [cbn in F; lia|].
    assert (ES : (param (k, v) ++ concat (map param ps)) ++ rest = u16 k ++ u16 (zlen v) ++ v ++ concat (map param ps) ++ rest).
    { unfold param at 1. cbn [fst snd]. repeat rewrite <- app_assoc. reflexivity. }
    rewrite ES. rewrite zlen_app, zlen_param. cbn [snd]. pose proof (zlen_nonneg _ v). pose proof (zlen_nonneg _ (concat (map param ps))).
    set (R := zlen (concat (map param ps))) in *. cbn [svcparams_text].
    replace (4 + zlen v + R >? 0) with true by lia. replace (4 + zlen v + R <? 2) with false by lia.
    rewrite (take_rd_app (u16 k)) by reflexivity. rewrite (adv_app (u16 k)) by reflexivity. cbn [bind].
    rewrite (take_rd_app (u16 (zlen v))) by reflexivity. rewrite (adv_app (u16 (zlen v))) by reflexivity.
    unfold u16. cbn [nth bind]. rewrite !be16_u16. unfold spr_invalid, spr_nd_alpn. replace (k =? 65535) with false by lia.
    replace (4 + zlen v + R - 2 <? 2) with false by lia. replace (4 + zlen v + R - 2 - 2 <? zlen v) with false by lia.
    rewrite G. cbn [bind]. unfold after_res. rewrite adv_app by reflexivity.
    replace (4 + zlen v + R - 2 - 2 - zlen v) with R by lia. rewrite E by (cbn in F; lia). unfold emit. cbn [bind].
    change (sepd (s :: ts)) with ((s ++ [32]) ++ sepd ts). rewrite Es. repeat (rewrite <- app_assoc; cbn [app]). reflexivity.
Qed.
