(** ProofSvc.v: reading service parameters. *)
From Coq Require Strings.String.
From Verif Require Import Base Lib SpecName SpecMessage SpecEncode SpecFormat SpecTables SpecText Libc ModelName ModelFormat ModelTables ModelDescr ModelFromStr ModelParse
  ProofUnpack ProofCopy ProofNameStr ProofStrName ProofNameMore ProofFormat ProofInet ProofInet6 ProofB64 ProofB32 ProofTables ProofRdata ProofPrint ProofPrint2 ProofField ProofVisible ProofEncode ProofFromStr.

(** ** strtok on lists *)
Definition no_char (c : Z) (s : bytes) : Prop := Forall (fun x => x <> c) s.
Lemma strtok_one : forall d t, t <> [] -> no_char d t -> strtok d t = Some (t, []).
Proof.
  intros d t N F. unfold strtok. assert (E : skip_delim d t = t). { destruct t as [|c t]; [reflexivity|]. inversion F; subst. cbn [skip_delim]. replace (c =? d) with false by lia. reflexivity. }
  rewrite E. destruct t as [|c t]; [congruence|]. rewrite <- (app_nil_r (c :: t)). rewrite split_at_app; [rewrite app_nil_r; reflexivity| |left; auto].
  eapply Forall_impl; [|exact F]. cbn beta. intros; lia.
Qed.
Lemma strtok_more : forall d t r, t <> [] -> no_char d t -> strtok d (t ++ d :: r) = Some (t, r).
Proof.
  intros d t r N F. unfold strtok. assert (E : skip_delim d (t ++ d :: r) = t ++ d :: r). { destruct t as [|c t]; [congruence|]. inversion F; subst. cbn [app skip_delim]. replace (c =? d) with false by lia. reflexivity. }
  rewrite E. destruct t as [|c t]; [congruence|]. cbn [app]. change (c :: t ++ d :: r) with ((c :: t) ++ d :: r). rewrite split_at_app; [reflexivity| |right; exists d, r; split; [reflexivity|lia]].
  eapply Forall_impl; [|exact F]. cbn beta. intros; lia.
Qed.
Lemma visible_cstr : forall s, visible s -> cstr s = s.
Proof.
  intros s V. unfold cstr. rewrite <- (app_nil_r s) at 1. rewrite split_at_app; [reflexivity| |left; auto]. eapply Forall_impl; [|exact V]. cbn beta. intros; lia.
Qed.
Lemma strtok_list : forall ts, ts <> [] -> Forall (fun t => t <> [] /\ no_char 44 t) ts -> strtok 44 (join_by 44 ts) = Some (hd [] ts, join_by 44 (tl ts)).
Proof.
  intros [|t ts] N F; [congruence|]. inversion F as [|? ? [N1 C1] F']; subst. destruct ts as [|u ts]; [apply strtok_one; auto|]. rewrite join_cons by discriminate. apply strtok_more; auto.
Qed.
Lemma be16_octets_u16 : forall v, 0 <= v < 65536 -> be16_octets v = u16 v.
Proof. intros v H. unfold be16_octets, u16. f_equal. apply Z.mod_small. split; [apply Z.div_pos; lia|apply Z.div_lt_upper_bound; lia]. Qed.

(** ** The characters of the texts *)
Definition only (f : Z -> bool) (s : bytes) : Prop := forallb f s = true.
Lemma only_app : forall f a b, only f (a ++ b) <-> only f a /\ only f b.
Proof. intros. unfold only. rewrite forallb_app, andb_true_iff. reflexivity. Qed.
Lemma only_digits : forall f s, Forall digit s -> (forall c, 48 <= c <= 57 -> f c = true) -> only f s.
Proof. intros f s F H. apply forallb_forall. intros c C. rewrite Forall_forall in F. apply H. apply (F c C). Qed.
Lemma key_chars : forall k s, key_text k s -> only (fun c => negb ((c =? 61) || (c =? 32) || (c =? 44) || (c =? 92) || (c =? 34) || (c =? 0))) s.
Proof.
  intros k s [(m & I & ->)|(_ & d & (D & _) & ->)].
  - assert (K : forallb (fun e : Z * String.string => forallb (fun c => negb ((c =? 61) || (c =? 32) || (c =? 44) || (c =? 92) || (c =? 34) || (c =? 0))) (lit (snd e))) iana_svckeys = true) by (vm_compute; reflexivity).
    rewrite forallb_forall in K. apply (K (k, m) I).
  - apply only_app. split; [vm_compute; reflexivity|]. apply only_digits; auto. intros. lia.
Qed.
Lemma ipv4_chars : forall a s, ipv4_text a s -> only (fun c => ((48 <=? c) && (c <=? 57)) || (c =? 46)) s.
Proof.
  intros a s (a0 & a1 & a2 & a3 & s0 & s1 & s2 & s3 & -> & (D0 & _) & (D1 & _) & (D2 & _) & (D3 & _) & ->).
  assert (K : forall d, Forall digit d -> only (fun c => ((48 <=? c) && (c <=? 57)) || (c =? 46)) d) by (intros d D; apply only_digits; auto; intros; lia).
  apply only_app. split; [auto|]. change (46 :: s1 ++ 46 :: s2 ++ 46 :: s3) with ([46] ++ s1 ++ [46] ++ s2 ++ [46] ++ s3). repeat (apply only_app; split); auto; reflexivity.
Qed.
Definition v6_char (c : Z) : bool := ((48 <=? c) && (c <=? 58)) || ((97 <=? c) && (c <=? 102)) || (c =? 46).
Lemma group_chars : forall w s, group_text w s -> only v6_char s.
Proof. intros w s (F & _). apply forallb_forall. intros c C. rewrite Forall_forall in F. specialize (F c C). unfold hex_case in F. unfold v6_char. lia. Qed.
Lemma groups_chars : forall ws s, groups_text ws s -> only v6_char s.
Proof. induction 1 as [w s H|w s ws t H G IH]; [eapply group_chars; eauto|]. apply only_app. split; [eapply group_chars; eauto|]. change (58 :: t) with ([58] ++ t). apply only_app. split; [reflexivity|exact IH]. Qed.
Lemma groups_opt_chars : forall ws s, groups_opt ws s -> only v6_char s.
Proof. intros ws s [[_ ->]|G]; [reflexivity|eapply groups_chars; eauto]. Qed.
Lemma ipv6_chars : forall a s, ipv6_text a s -> only v6_char s.
Proof.
  assert (K4 : forall a s, ipv4_text a s -> only v6_char s).
  { intros a s T. apply ipv4_chars in T. unfold only in *. rewrite forallb_forall in *. intros c C. specialize (T c C). unfold v6_char. lia. }
  intros a s [ws s' _ _ _ G|pre post n s' t _ _ _ _ _ G1 G2|x y v4 s' _ _ G|v4 s' _ G].
  - eapply groups_chars; eauto.
  - apply only_app. split; [eapply groups_opt_chars; eauto|]. apply only_app. split; [reflexivity|eapply groups_opt_chars; eauto].
  - apply only_app. split; [reflexivity|eauto].
  - apply only_app. split; [reflexivity|eauto].
Qed.
Lemma only_no : forall f c s, only f s -> f c = false -> no_char c s.
Proof. intros f c s O N. apply Forall_forall. intros x X ->. unfold only in O. rewrite forallb_forall in O. rewrite (O c X) in N. discriminate. Qed.
Lemma only_weaken : forall f g s, only f s -> (forall c, f c = true -> g c = true) -> only g s.
Proof. intros f g s O H. unfold only in *. rewrite forallb_forall in *. auto. Qed.
Lemma join_only : forall f c ts, f c = true -> Forall (only f) ts -> only f (join_by c ts).
Proof.
  intros f c ts Fc F. induction F as [|t ts O F IH]; [reflexivity|]. destruct ts as [|u ts]; [exact O|]. rewrite join_cons by discriminate. apply only_app. split; [exact O|].
  unfold only in *. cbn [forallb]. rewrite Fc. exact IH.
Qed.
Lemma b64_only : forall n l, (length l <= n)%nat -> bytes_ok l -> only (fun c => negb ((c =? 92) || (c =? 34) || (c =? 32) || (c =? 123))) (base64 l).
Proof.
  assert (K : forall v, 0 <= v < 64 -> negb ((b64_char v =? 92) || (b64_char v =? 34) || (b64_char v =? 32) || (b64_char v =? 123)) = true).
  { intros v H. apply (forall_small 64 (fun v => negb ((b64_char v =? 92) || (b64_char v =? 34) || (b64_char v =? 32) || (b64_char v =? 123)))); [vm_compute; reflexivity|lia]. }
  induction n as [|n IH]; intros l L B.
  - destruct l; [reflexivity|cbn in L; lia].
  - destruct l as [|a [|b [|c r]]]; [reflexivity| | |]; apply bytes_ok_cons in B as [Ba B]; unfold is_byte in Ba; unfold only in *; cbn [base64 forallb].
    + rewrite !K by zdm. reflexivity.
    + apply bytes_ok_cons in B as [Bb B]; unfold is_byte in Bb. rewrite !K by zdm. reflexivity.
    + apply bytes_ok_cons in B as [Bb B]. apply bytes_ok_cons in B as [Bc B]. unfold is_byte in *. rewrite !K by zdm. cbn [andb]. apply IH; [cbn [length] in L; lia|auto].
Qed.
Definition plain_char (c : Z) : bool := negb ((c =? 92) || (c =? 34) || (c =? 32)).
Lemma plain_read : forall t rest, visible t -> t <> [] -> only plain_char t -> sep rest -> from_str_string (t ++ rest) = Some (t, rest).
Proof.
  intros t rest V N O S. apply from_str_plain; auto.
  - intros I. assert (K : no_char 92 t) by (eapply only_no; eauto). unfold no_char in K. rewrite Forall_forall in K. apply (K 92 I). reflexivity.
  - destruct t as [|c t]; [congruence|]. cbn [hd]. unfold only in O. cbn [forallb] in O. unfold plain_char in O. lia.
Qed.

(** ** Values *)
Lemma mandatory_read : forall ks ts, Forall2 key_text ks ts -> forall f, (length (join_by 44 ts) < f)%nat -> mandatory_toks f (join_by 44 ts) = Ok (concat (map u16 ks)).
Proof.
  induction 1 as [|k t ks ts K F IH]; intros f L; (destruct f as [|f]; [cbn in L; lia|]); [reflexivity|].
  assert (FT : Forall (fun t => t <> [] /\ no_char 44 t) (t :: ts)).
  { eapply Forall2_right with (l := k :: ks); [constructor; eauto|]. intros a b KB. split; [eapply key_text_visible; eauto|eapply only_no; [eapply key_chars; eauto|reflexivity]]. }
  cbn [mandatory_toks]. rewrite strtok_list by (auto; discriminate). cbn [hd tl]. destruct (key_text_parse k t K) as [-> R]. unfold spr_invalid. replace (k =? 65535) with false by lia.
  rewrite IH; [cbn [bind map concat]; rewrite be16_octets_u16 by lia; reflexivity|]. inversion FT as [|? ? [NT _] _]; subst.
  destruct ts as [|u ts]; [cbn [join_by length] in *; destruct t; [congruence|cbn in L; lia]|]. rewrite join_cons in L by discriminate. rewrite app_length in L. cbn [length] in L. lia.
Qed.
Lemma hint_read : forall (v4 : bool) az ts, Forall2 (if v4 then ipv4_text else ipv6_text) az ts -> Forall bytes_ok az -> forall f, (length (join_by 44 ts) < f)%nat ->
  hint_toks f v4 (join_by 44 ts) = Ok (concat az).
Proof.
  intros v4. induction 1 as [|a t az ts K F IH]; intros B f L; (destruct f as [|f]; [cbn in L; lia|]); [reflexivity|]. inversion B; subst.
  assert (G : forall a t, (if v4 then ipv4_text else ipv6_text) a t -> t <> [] /\ no_char 44 t).
  { clear. intros a t H. destruct v4.
    - split; [eapply ipv4_visible; eauto|eapply only_no; [eapply ipv4_chars; eauto|reflexivity]].
    - split; [eapply ipv6_visible; eauto|eapply only_no; [eapply ipv6_chars; eauto|reflexivity]]. }
  assert (FT : Forall (fun t => t <> [] /\ no_char 44 t) (t :: ts)).
  { eapply Forall2_right with (l := a :: az); [constructor; eauto|]. intros; eauto. }
  cbn [hint_toks]. rewrite strtok_list by (auto; discriminate). cbn [hd tl].
  assert (P : (if v4 then inet_pton4 t else inet_pton6 t) = Some a) by (destruct v4; [apply inet_pton4_text|apply inet_pton6_text]; auto).
  rewrite P. rewrite IH; [reflexivity|auto|]. inversion FT as [|? ? [NT _] _]; subst.
  destruct ts as [|u ts]; [cbn [join_by length] in *; destruct t; [congruence|cbn in L; lia]|]. rewrite join_cons in L by discriminate. rewrite app_length in L. cbn [length] in L. lia.
Qed.
Lemma alpn_id_read : forall i r out cur oclen vl, 0 <= oclen -> oclen + zlen i <= 255 -> alpn_parse (concat (map list_octet i) ++ r) out cur oclen vl = alpn_parse r out (cur ++ i) (oclen + zlen i) vl.
Proof.
  induction i as [|c i IH]; intros r out cur oclen vl H L.
  - cbn [map concat app]. change (zlen (@nil Z)) with 0. rewrite Z.add_0_r, app_nil_r. reflexivity.
  - rewrite zlen_cons in *. pose proof (zlen_nonneg _ i). cbn [map concat]. rewrite <- app_assoc. unfold list_octet at 1. destruct ((c =? 44) || (c =? 92)) eqn:E.
    + cbn [app alpn_parse]. change (92 =? 92) with true. cbv iota. replace (negb (c =? 92) && negb (c =? 44)) with false by lia. rewrite Z.mod_small by lia. rewrite IH by lia.
      rewrite <- app_assoc. cbn [app]. f_equal. lia.
    + cbn [app alpn_parse]. replace (c =? 92) with false by lia. replace (c =? 44) with false by lia. rewrite Z.mod_small by lia. rewrite IH by lia. rewrite <- app_assoc. cbn [app]. f_equal. lia.
Qed.
Lemma alpn_read : forall ids out vl, ids <> [] -> Forall (fun s => zlen s <= 255) ids -> last ids [] <> [] -> 0 <= vl -> vl + zlen (concat (map char_string ids)) < 65536 ->
  alpn_parse (join_by 44 (map (fun i => concat (map list_octet i)) ids)) out [] 0 vl = Ok (out ++ concat (map char_string ids), vl + zlen (concat (map char_string ids))).
Proof.
  induction ids as [|i ids IH]; intros out vl N F LN V B; [congruence|]. inversion F; subst. cbn [map concat] in *. rewrite zlen_app, zlen_char_string in *. pose proof (zlen_nonneg _ i). pose proof (zlen_nonneg _ (concat (map char_string ids))).
  destruct ids as [|j ids].
  - cbn [map join_by concat] in *. cbn [last] in LN. rewrite <- (app_nil_r (concat (map list_octet i))). rewrite alpn_id_read by lia. cbn [app alpn_parse].
    assert (1 <= zlen i) by (destruct i; [congruence|rewrite zlen_cons; pose proof (zlen_nonneg _ i); lia]). replace (0 + zlen i =? 0) with false by lia. cbn [negb].
    change (zlen (@nil Z)) with 0 in *. rewrite Z.mod_small by lia. rewrite app_nil_r. f_equal. f_equal. lia.
  - rewrite join_cons by discriminate. rewrite alpn_id_read by lia. cbn [app alpn_parse]. change (44 =? 92) with false. change (44 =? 44) with true. cbv iota.
    rewrite Z.mod_small by lia. rewrite IH; [|discriminate|auto|exact LN|lia|lia]. unfold char_string at 3. rewrite <- !app_assoc. cbn [app]. f_equal. f_equal. lia.
Qed.

Lemma base64_len_eq : forall n l, (length l <= n)%nat -> zlen (base64 l) = 4 * ((zlen l + 2) / 3).
Proof.
  induction n as [|n IH]; intros l L; [destruct l; [reflexivity|cbn in L; lia]|].
  destruct l as [|a [|b [|c r]]]; [reflexivity|reflexivity|reflexivity|]. cbn [base64]. rewrite !zlen_cons. rewrite IH by (cbn [length] in L; lia).
  replace (zlen r + 1 + 1 + 1 + 2) with (zlen r + 2 + 1 * 3) by lia. rewrite Z.div_add by lia. lia.
Qed.
Lemma bytes_concat : forall az, bytes_ok (concat az) -> Forall bytes_ok az.
Proof. induction az as [|a az IH]; intros B; [constructor|]. cbn [concat] in B. apply bytes_ok_app in B as [B1 B2]. constructor; auto. Qed.

(** The text of the value of a parameter: the octets given to str_to_svcparam. *)
Lemma value_read : forall k v t rest, value_text k v t -> readable_param (k, v) -> bytes_ok v -> zlen v < 65536 -> sep rest ->
  exists l, from_str_string (t ++ rest) = Some (l, rest) /\ str_to_svcparam k (Some l) = Ok (param (k, v)).
Proof.
  intros k v t rest VT (PP & RA & RE) B L S. cbn [fst snd] in *. unfold param. cbn [fst snd]. destruct VT as [ks ts N F|ids N F|p d R D|az ts N F|l|az ts N F F16|k l R].
  - (* mandatory *)
    assert (FT : Forall (fun t => visible t /\ t <> []) ts) by (eapply Forall2_right; [exact F|intros; eapply key_text_visible; eauto]).
    pose proof (Forall2_nonnil _ _ _ _ _ F N) as NT. destruct (join_visible 44 ts ltac:(lia) NT FT) as [V NJ]. exists (join_by 44 ts). split.
    + apply plain_read; auto. apply join_only; [reflexivity|]. eapply Forall2_right; [exact F|]. intros a b K. eapply only_weaken; [eapply key_chars; eauto|]. unfold plain_char. intros; lia.
    + unfold str_to_svcparam. change (0 =? spr_invalid) with false. change (0 =? spr_nd_alpn) with false. change (0 =? spr_mandatory) with true. cbv iota.
      rewrite visible_cstr by auto. assert (FC : Forall (fun t => t <> [] /\ no_char 44 t) ts).
      { eapply Forall2_right; [exact F|]. intros a b K. split; [eapply key_text_visible; eauto|eapply only_no; [eapply key_chars; eauto|reflexivity]]. }
      rewrite strtok_list by auto. rewrite (mandatory_read ks ts F) by lia. cbn [bind]. pose proof (zlen_nonneg _ (concat (map u16 ks))). rewrite Z.mod_small by lia. rewrite !be16_octets_u16 by lia. reflexivity.
  - (* alpn *)
    specialize (RA eq_refl ids eq_refl). exists (join_by 44 (map (fun i => concat (map list_octet i)) ids)). unfold alpn_value_text.
    assert (BI : Forall bytes_ok ids).
    { clear - B. induction ids as [|i ids IH]; [constructor|]. cbn [map concat] in B. apply bytes_ok_app in B as [B1 B2]. constructor; auto. unfold char_string in B1. apply bytes_ok_cons in B1 as [_ B1]. exact B1. }
    assert (BJ : bytes_ok (join_by 44 (map (fun i => concat (map list_octet i)) ids))).
    { clear - BI. induction BI as [|i ids Bi _ IH]; [constructor|]. assert (BL : bytes_ok (concat (map list_octet i))).
      { clear IH. induction Bi as [|c i Hc _ IH]; [constructor|]. cbn [map concat]. apply bytes_ok_app. split; [|exact IH]. unfold list_octet. unfold is_byte in Hc. destruct ((c =? 44) || (c =? 92)); repeat (apply Forall_cons || apply Forall_nil); unfold is_byte; lia. }
      cbn [map]. destruct ids as [|j ids]; [exact BL|]. cbn [map] in *. rewrite join_cons by discriminate. apply bytes_ok_app. split; [exact BL|]. apply bytes_ok_cons. split; [unfold is_byte; lia|exact IH]. }
    split; [apply from_str_quoted; exact BJ|]. unfold str_to_svcparam. change (1 =? spr_invalid) with false. change (1 =? spr_nd_alpn) with false. change (1 =? spr_mandatory) with false. change (1 =? spr_port) with false. change (1 =? spr_ech) with false. change (1 =? spr_ipv4hint) with false. change (1 =? spr_ipv6hint) with false. change (1 =? spr_alpn) with true. cbv iota.
    rewrite alpn_read by (auto; lia). cbn [bind app]. rewrite Z.add_0_l. pose proof (zlen_nonneg _ (concat (map char_string ids))). rewrite !be16_octets_u16 by lia. reflexivity.
  - (* port *)
    pose proof (decimal_visible _ _ D) as [V N]. assert (NS : no_char 32 d) by (eapply Forall_impl; [|exact V]; cbn beta; intros; lia).
    exists d. split; [apply plain_read; auto; destruct D as [D _]; apply only_digits; auto; intros; unfold plain_char; lia|].
    unfold str_to_svcparam. change (3 =? spr_invalid) with false. change (3 =? spr_nd_alpn) with false. change (3 =? spr_mandatory) with false. change (3 =? spr_port) with true. cbv iota.
    rewrite visible_cstr by auto. rewrite strtok_one by auto. rewrite <- (app_nil_r d). rewrite (strtoul_decimal p d []) by (auto; cbn; auto; lia). cbn [negb orb].
    replace (p >? 65535) with false by lia. cbn [bind]. rewrite !be16_octets_u16 by lia. reflexivity.
  - (* ipv4hint *)
    assert (FT : Forall (fun t => visible t /\ t <> []) ts) by (eapply Forall2_right; [exact F|intros; eapply ipv4_visible; eauto]).
    pose proof (Forall2_nonnil _ _ _ _ _ F N) as NT. destruct (join_visible 44 ts ltac:(lia) NT FT) as [V NJ]. exists (join_by 44 ts). split.
    + apply plain_read; auto. apply join_only; [reflexivity|]. eapply Forall2_right; [exact F|]. intros a b K. eapply only_weaken; [eapply ipv4_chars; eauto|]. unfold plain_char. intros; lia.
    + unfold str_to_svcparam. change (4 =? spr_invalid) with false. change (4 =? spr_nd_alpn) with false. change (4 =? spr_mandatory) with false. change (4 =? spr_port) with false. change (4 =? spr_ech) with false. change (4 =? spr_ipv4hint) with true. cbv iota.
      rewrite visible_cstr by auto. assert (FC : Forall (fun t => t <> [] /\ no_char 44 t) ts).
      { eapply Forall2_right; [exact F|]. intros a b K. split; [eapply ipv4_visible; eauto|eapply only_no; [eapply ipv4_chars; eauto|reflexivity]]. }
      rewrite strtok_list by auto. rewrite (hint_read true az ts F) by (auto; try lia; apply bytes_concat; auto). cbn [bind]. pose proof (zlen_nonneg _ (concat az)). rewrite Z.mod_small by lia. rewrite !be16_octets_u16 by lia. reflexivity.
  - (* ech *)
    specialize (RE eq_refl). assert (N : base64 l <> []) by (apply base64_nonempty; intros ->; change (zlen (@nil Z)) with 0 in RE; lia). pose proof (base64_visible (length l) l (le_n _) B) as V.
    pose proof (base64_len_eq (length l) l (le_n _)) as EL. assert (NS : no_char 32 (base64 l)) by (eapply Forall_impl; [|exact V]; cbn beta; intros; lia).
    exists (base64 l). split; [apply plain_read; auto; eapply only_weaken; [apply (b64_only (length l) l); auto|]; unfold plain_char; cbn beta; intros; lia|].
    unfold str_to_svcparam. change (5 =? spr_invalid) with false. change (5 =? spr_nd_alpn) with false. change (5 =? spr_mandatory) with false. change (5 =? spr_port) with false. change (5 =? spr_ech) with true. cbv iota.
    rewrite visible_cstr by auto. rewrite strtok_one by auto. replace (zlen (base64 l) >? 255) with false by (rewrite EL; zdm). rewrite base64_roundtrip by auto. cbn [bind]. rewrite Z.mod_small by lia.
    rewrite !be16_octets_u16 by lia. reflexivity.
  - (* ipv6hint *)
    assert (FT : Forall (fun t => visible t /\ t <> []) ts) by (eapply Forall2_right; [exact F|intros; eapply ipv6_visible; eauto]).
    pose proof (Forall2_nonnil _ _ _ _ _ F N) as NT. destruct (join_visible 44 ts ltac:(lia) NT FT) as [V NJ]. exists (join_by 44 ts). split.
    + apply plain_read; auto. apply join_only; [reflexivity|]. eapply Forall2_right; [exact F|]. intros a b K. eapply only_weaken; [eapply ipv6_chars; eauto|]. unfold plain_char, v6_char. intros; lia.
    + unfold str_to_svcparam. change (6 =? spr_invalid) with false. change (6 =? spr_nd_alpn) with false. change (6 =? spr_mandatory) with false. change (6 =? spr_port) with false. change (6 =? spr_ech) with false. change (6 =? spr_ipv4hint) with false. change (6 =? spr_ipv6hint) with true. cbv iota.
      rewrite visible_cstr by auto. assert (FC : Forall (fun t => t <> [] /\ no_char 44 t) ts).
      { eapply Forall2_right; [exact F|]. intros a b K. split; [eapply ipv6_visible; eauto|eapply only_no; [eapply ipv6_chars; eauto|reflexivity]]. }
      rewrite strtok_list by auto. rewrite (hint_read false az ts F) by (auto; try lia; apply bytes_concat; auto). cbn [bind]. pose proof (zlen_nonneg _ (concat az)). rewrite Z.mod_small by lia. rewrite !be16_octets_u16 by lia. reflexivity.
  - (* others *)
    exists l. split; [apply from_str_quoted; auto|]. pose proof (zlen_nonneg _ l). unfold str_to_svcparam. unfold spr_invalid, spr_nd_alpn, spr_mandatory, spr_port, spr_ech, spr_ipv4hint, spr_ipv6hint, spr_alpn.
    replace (k =? 65535) with false by lia. replace (k =? 2) with false by lia. replace (k =? 0) with false by lia. replace (k =? 3) with false by lia. replace (k =? 5) with false by lia. replace (k =? 4) with false by lia. replace (k =? 6) with false by lia. replace (k =? 1) with false by lia.
    cbn [bind]. rewrite Z.mod_small by lia. rewrite !be16_octets_u16 by lia. reflexivity.
Qed.

(** All parameters. *)
Lemma params_read : forall ps ts, Forall2 param_text ps ts -> Forall readable_param ps -> Forall (fun kv => bytes_ok (snd kv) /\ zlen (snd kv) < 65536) ps ->
  forall f s, (s = join_by 32 ts \/ s = 32 :: join_by 32 ts) -> (length s < f)%nat -> svcparams_parse f s = Ok (concat (map param ps)).
Proof.
  induction 1 as [|[k v] t ps ts PT F IH]; intros R B f s.
  - intros [-> | ->] L; (destruct f as [|f]; [cbn in L; lia|]); [reflexivity|]. destruct f as [|f]; [cbn in L; lia|]. reflexivity.
  - inversion R as [|? ? R1 R2]; subst. inversion B as [|? ? [B1 L1] B2]; subst. cbn [snd] in *.
    assert (MAIN : forall f, (length (join_by 32 (t :: ts)) < f)%nat -> svcparams_parse f (join_by 32 (t :: ts)) = Ok (concat (map param ((k, v) :: ps)))).
    { clear f s. intros f L. destruct f as [|f]; [cbn in L; lia|].
      set (rest := match ts with [] => [] | _ => 32 :: join_by 32 ts end).
      assert (EJ : join_by 32 (t :: ts) = t ++ rest) by (unfold rest; destruct ts; [cbn [join_by]; rewrite app_nil_r; reflexivity|apply join_cons; discriminate]).
      assert (SR : sep rest) by (unfold rest; destruct ts; [left; auto|right; eauto]).
      assert (NT : t <> []) by (eapply param_text_solid; [|exact PT]; exact B1).
      assert (ER : forall f', (length rest < f')%nat -> svcparams_parse f' rest = Ok (concat (map param ps))).
      { intros f' L'. apply IH; auto. unfold rest. destruct ts; [left; reflexivity|right; reflexivity]. }
      rewrite EJ in *. rewrite app_length in L. assert (1 <= length t)%nat by (destruct t; [congruence|cbn; lia]).
      cbn [map concat]. inversion PT as [s K|? ? s tv K VT]; subst.
      - (* flag *)
        pose proof (key_text_visible _ _ K) as [V N]. pose proof (key_chars _ _ K) as O. destruct (key_text_parse _ _ K) as [KP _].
        destruct t as [|c t']; [congruence|]. cbn [app svcparams_parse]. apply visible_cons in V as [V0 V1]. replace (c =? 32) with false by lia. change (c :: t' ++ rest) with ((c :: t') ++ rest).
        rewrite split_at_app.
        + rewrite KP. change (2 =? spr_invalid) with false. change (2 =? spr_nd_alpn) with true. cbn [negb]. cbv iota. change (str_to_svcparam 2 None) with (Ok (be16_octets 2 ++ [0; 0])). cbn [bind].
          rewrite ER by lia. cbn [bind]. destruct SR as [E|[r E]]; rewrite E; reflexivity.
        + unfold only in O. rewrite forallb_forall in O. apply Forall_forall. intros x X. specialize (O x X). lia.
        + destruct SR as [E|[r E]]; [left; auto|right; exists 32, r; auto].
      - pose proof (key_text_visible _ _ K) as [V N]. pose proof (key_chars _ _ K) as O. destruct (key_text_parse _ _ K) as [KP KR].
        destruct s as [|c s']; [congruence|]. rewrite <- app_assoc. cbn [app svcparams_parse]. apply visible_cons in V as [V0 V1]. replace (c =? 32) with false by lia.
        change (c :: s' ++ 61 :: tv ++ rest) with ((c :: s') ++ 61 :: tv ++ rest). rewrite split_at_app.
        + rewrite KP. replace (k =? spr_invalid) with false by (unfold spr_invalid; lia). change (61 =? 61) with true. cbv iota. destruct (value_read k v tv rest VT R1 B1 L1 SR) as (l & -> & ->). cbn [bind].
          rewrite ER by (rewrite !app_length in L; cbn [length] in *; lia). reflexivity.
        + unfold only in O. rewrite forallb_forall in O. apply Forall_forall. intros x X. specialize (O x X). lia.
        + right. exists 61, (tv ++ rest). auto. }
    intros [-> | ->] L; [apply MAIN; exact L|]. destruct f as [|f]; [cbn in L; lia|]. cbn [svcparams_parse]. change (32 =? 32) with true. cbv iota. apply MAIN. cbn [length] in L. lia.
Qed.
