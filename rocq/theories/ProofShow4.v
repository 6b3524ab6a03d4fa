(** ProofShow4.v: every rdata has a text (or stops inside a name); the printed text is exactly that of SpecPrint.v. *)
From Coq Require Strings.String.
From Verif Require Import Base Lib SpecName SpecMessage SpecEncode SpecFormat SpecTables SpecText SpecMsgText SpecPrint Libc ModelName ModelFormat ModelTables ModelDescr ModelToStr ModelParse
  ProofUnpack ProofCopy ProofNameStr ProofNameOps ProofFormat ProofInet ProofInet6 ProofB64 ProofB32 ProofTables ProofRdata ProofPrint ProofPrint2 ProofField ProofVisible ProofEncode ProofRdataText
  ProofFromStr ProofBitmap ProofSvc ProofRoundTrip ProofSafe ProofOptions ProofShow1 ProofShow2 ProofShow3.

(** ** Every list of octets is a sequence of complete items and something that is not one *)
Lemma string_cases : forall n (l : bytes), (length l <= n)%nat -> bytes_ok l -> exists ss tail, l = concat (map char_string ss) ++ tail /\ Forall (fun s => zlen s <= 255) ss /\ (tail = [] \/ no_head (field_octets FString) tail).
Proof.
  induction n as [|n IH]; intros l L B.
  - exists [], l. split; [reflexivity|]. split; [constructor|]. left. destruct l; [auto|cbn in L; lia].
  - destruct l as [|c r]; [exists [], []; split; [reflexivity|]; split; [constructor|auto]|]. apply bytes_ok_cons in B as [Bc B]. unfold is_byte in Bc. destruct (Z.lt_ge_cases (zlen r) c) as [X|X].
    + exists [], (c :: r). split; [reflexivity|]. split; [constructor|]. right. intros o r' E (s & LS & ->). unfold char_string in E. cbn [app] in E. injection E as -> ->. rewrite zlen_app in X. pose proof (zlen_nonneg _ r'). lia.
    + destruct (split_len r c B ltac:(lia)) as (s & r' & -> & LS & B1 & B2). destruct (IH r') as (ss & tail & -> & F & T); [cbn [length] in L; rewrite app_length in L; lia|auto|].
      exists (s :: ss), tail. split; [|split; [constructor; [lia|auto]|auto]]. cbn [map concat]. unfold char_string at 2. cbn [app]. rewrite <- app_assoc, LS. reflexivity.
Qed.
Lemma block_cases : forall k (v : bytes), 0 < k -> exists az tail, v = concat az ++ tail /\ Forall (fun a => zlen a = k) az /\ zlen tail < k.
Proof.
  intros k v K. pose proof (zlen_nonneg _ v). assert (X : 0 <= zlen v / k) by (apply Z.div_pos; lia). assert (Y : k * (zlen v / k) <= zlen v) by (apply Z.mul_div_le; lia).
  destruct (chunks k (Z.to_nat (zlen v / k)) (firstn (Z.to_nat (k * (zlen v / k))) v) K) as (az & E & F & _). { rewrite zlen_firstn by nia. rewrite Z2Nat.id by lia. reflexivity. }
  exists az, (skipn (Z.to_nat (k * (zlen v / k))) v). split; [rewrite <- E, firstn_skipn; reflexivity|]. split; [auto|]. rewrite zlen_skipn by nia. pose proof (Z.mod_pos_bound (zlen v) k K). pose proof (Z.div_mod (zlen v) k ltac:(lia)). nia.
Qed.
Lemma window_cases : forall n (l : bytes), (length l <= n)%nat -> bytes_ok l -> exists ws tail, l = concat (map window ws) ++ tail /\ Forall (fun w => zlen (snd w) <= 255) ws /\
  (zlen tail <= 1 \/ exists w k r, tail = w :: k :: r /\ zlen r < k <= 255).
Proof.
  induction n as [|n IH]; intros l L B.
  - exists [], l. split; [reflexivity|]. split; [constructor|]. left. destruct l; [cbn; lia|cbn in L; lia].
  - destruct l as [|w [|k r]].
    + exists [], []. split; [reflexivity|]. split; [constructor|]. left. cbn. lia.
    + exists [], [w]. split; [reflexivity|]. split; [constructor|]. left. cbn. lia.
    + apply bytes_ok_cons in B as [Bw B]. apply bytes_ok_cons in B as [Bc B]. unfold is_byte in Bc. destruct (Z.lt_ge_cases (zlen r) k) as [X|X].
      * exists [], (w :: k :: r). split; [reflexivity|]. split; [constructor|]. right. exists w, k, r. split; [auto|lia].
      * destruct (split_len r k B ltac:(lia)) as (s & r' & -> & LS & B1 & B2). destruct (IH r') as (ws & tail & -> & F & T); [cbn [length] in L; rewrite app_length in L; lia|auto|].
        exists ((w, s) :: ws), tail. split; [|split; [constructor; [cbn [snd]; lia|auto]|auto]]. cbn [map concat]. unfold window at 2. cbn [fst snd app]. rewrite <- app_assoc, LS. reflexivity.
Qed.

(** ** SvcParams *)
Lemma keys_total : forall az, Forall (fun a => zlen a = 2) az -> bytes_ok (concat az) -> exists ks ts, concat az = concat (map u16 ks) /\ Forall2 any_key_text ks ts.
Proof.
  induction az as [|a az IH]; intros F B; [exists [], []; split; [reflexivity|constructor]|]. inversion F; subst. cbn [concat] in B |- *. apply bytes_ok_app in B as [B1 B2].
  destruct IH as (ks & ts & E & G); auto. destruct (be16_two a) as (x & y & -> & _ & _ & EU & R); auto. exists (be16 x y :: ks), (svckey_to_str (be16 x y) :: ts). cbn [map concat]. rewrite EU at 1. rewrite E. split; [reflexivity|]. constructor; [|auto].
  destruct (Z.eq_dec (be16 x y) 65535) as [-> |N]; [right; split; reflexivity|left; apply key_text_spec; lia].
Qed.
Lemma v4_total : forall az, Forall (fun a => zlen a = 4) az -> bytes_ok (concat az) -> Forall2 ipv4_text az (map addr4 az).
Proof. induction az as [|a az IH]; intros F B; [constructor|]. inversion F; subst. cbn [concat] in B. apply bytes_ok_app in B as [B1 B2]. constructor; [apply addr4_spec; auto|auto]. Qed.
Lemma v6_total : forall az, Forall (fun a => zlen a = 16) az -> bytes_ok (concat az) -> Forall2 ipv6_text az (map addr6 az).
Proof. induction az as [|a az IH]; intros F B; [constructor|]. inversion F; subst. cbn [concat] in B. apply bytes_ok_app in B as [B1 B2]. constructor; [apply addr6_spec; auto|auto]. Qed.
Lemma value_total : forall k v, 0 <= k < 65535 -> bytes_ok v -> exists t ok, value_shown k v t ok.
Proof.
  intros k v K B. destruct (Z.eq_dec k 0) as [-> |N0].
  { destruct (block_cases 2 v ltac:(lia)) as (az & tail & -> & F & T). apply bytes_ok_app in B as [B1 B2]. destruct (keys_total az F B1) as (ks & ts & -> & G). destruct tail as [|b [|]].
    - rewrite app_nil_r. eexists _, true. constructor; eauto.
    - eexists _, false. constructor; eauto.
    - exfalso. rewrite !zlen_cons in T. pose proof (zlen_nonneg _ l). lia. }
  destruct (Z.eq_dec k 1) as [-> |N1].
  { destruct (string_cases (length v) v ltac:(lia) B) as (ss & tail & -> & F & T). destruct tail as [|b tail].
    - rewrite app_nil_r. destruct ss as [|s ss]; [eexists _, true; apply vs_alpn_none|]. eexists _, true. apply vs_alpn; [discriminate|auto].
    - eexists _, false. apply vs_alpn_cut; auto; [discriminate|]. destruct T as [T|T]; [discriminate|auto]. }
  destruct (Z.eq_dec k 2) as [-> |N2]. { destruct v; [eexists _, true; apply vs_flag|eexists _, false; apply vs_flag_value; discriminate]. }
  destruct (Z.eq_dec k 3) as [-> |N3].
  { destruct (Z.eq_dec (zlen v) 2) as [L|L]; [|eexists _, false; apply vs_port_bad; auto]. destruct (be16_two v L B) as (x & y & _ & _ & _ & -> & R). eexists _, true. apply vs_port; [auto|]. apply fmt_u_decimal. lia. }
  destruct (Z.eq_dec k 4) as [-> |N4].
  { destruct (block_cases 4 v ltac:(lia)) as (az & tail & -> & F & T). apply bytes_ok_app in B as [B1 B2]. pose proof (v4_total az F B1) as G. destruct tail as [|b tail].
    - rewrite app_nil_r. eexists _, true. constructor; eauto.
    - eexists _, false. apply vs_ipv4hint_cut; eauto. split; [|auto]. rewrite zlen_cons. pose proof (zlen_nonneg _ tail). lia. }
  destruct (Z.eq_dec k 5) as [-> |N5]; [eexists _, true; apply vs_ech|].
  destruct (Z.eq_dec k 6) as [-> |N6].
  { destruct (block_cases 16 v ltac:(lia)) as (az & tail & -> & F & T). apply bytes_ok_app in B as [B1 B2]. pose proof (v6_total az F B1) as G. destruct tail as [|b tail].
    - rewrite app_nil_r. eexists _, true. constructor; eauto.
    - eexists _, false. apply vs_ipv6hint_cut; eauto. split; [|auto]. rewrite zlen_cons. pose proof (zlen_nonneg _ tail). lia. }
  eexists _, true. apply vs_other. lia.
Qed.
Lemma head_total : forall k, 0 <= k < 65535 -> exists h, key_head k h.
Proof. intros k K. eexists. exists (svckey_to_str k). split; [apply key_text_spec; auto|reflexivity]. Qed.
(** Key (code), length and value at the head of the octets. *)
Inductive tlv : bytes -> Prop :=
| tl_nil : tlv []
| tl_one : forall b, tlv [b]
| tl_key : forall k l, 0 <= k < 65536 -> zlen l < 2 -> tlv (u16 k ++ l)
| tl_cut : forall k n l, 0 <= k < 65536 -> 0 <= n < 65536 -> zlen l < n -> tlv (u16 k ++ u16 n ++ l)
| tl_item : forall k v l, 0 <= k < 65536 -> zlen v < 65536 -> tlv (param (k, v) ++ l).
Lemma tlv_total : forall l, bytes_ok l -> tlv l.
Proof.
  intros l B. destruct l as [|a [|b l]]; [constructor|constructor|]. apply bytes_ok_cons in B as [Ba B]. apply bytes_ok_cons in B as [Bb B].
  assert (U : forall a b, is_byte a -> is_byte b -> u16 (be16 a b) = [a; b]). { intros x y X Y. unfold u16, be16, is_byte in *. f_equal; [zdm|]. f_equal. zdm. }
  pose proof (ProofSafe.be16_range a b Ba Bb) as R. change (a :: b :: l) with ([a; b] ++ l). rewrite <- U by auto. destruct l as [|c [|d l]]; [apply tl_key; [auto|cbn; lia]|apply tl_key; [auto|cbn; lia]|].
  apply bytes_ok_cons in B as [Bc B]. apply bytes_ok_cons in B as [Bd B]. pose proof (ProofSafe.be16_range c d Bc Bd) as R2. change (c :: d :: l) with ([c; d] ++ l). rewrite <- (U c d) by auto.
  destruct (Z.lt_ge_cases (zlen l) (be16 c d)) as [X|X]; [apply tl_cut; auto|]. destruct (split_len l (be16 c d) B ltac:(lia)) as (v & r & -> & L & _). rewrite <- L.
  replace (u16 (be16 a b) ++ u16 (zlen v) ++ v ++ r) with (param (be16 a b, v) ++ r) by (unfold param; cbn [fst snd]; rewrite <- !app_assoc; reflexivity). apply tl_item; [auto|lia].
Qed.
Lemma params_total : forall n l, (length l <= n)%nat -> bytes_ok l -> exists s x, params_shown l s x.
Proof.
  induction n as [|n IH]; intros l L B.
  - destruct l; [|cbn in L; lia]. eexists _, _. apply pp_end.
  - destruct (tlv_total l B) as [|b|k l K Z|k m l K M Z|k v l K V].
    + eexists _, _. apply pp_end.
    + eexists _, _. apply pp_no_key.
    + destruct (Z.eq_dec k 65535) as [-> |N]; [eexists _, _; apply pp_reserved|]. destruct (head_total k ltac:(lia)) as (h & H). eexists _, _. apply pp_no_length; eauto. lia.
    + destruct (Z.eq_dec k 65535) as [-> |N]; [eexists _, _; apply pp_reserved|]. destruct (head_total k ltac:(lia)) as (h & H). eexists _, _. apply pp_no_value; eauto. lia.
    + destruct (Z.eq_dec k 65535) as [-> |N]; [unfold param; cbn [fst snd]; rewrite <- !app_assoc; eexists _, _; apply pp_reserved|]. destruct (head_total k ltac:(lia)) as (h & H).
      apply bytes_ok_app in B as [B1 B2]. pose proof (param_value _ _ B1) as Bv. destruct (value_total k v ltac:(lia) Bv) as (t & [] & VS).
      * destruct (IH l) as (s & x & P); auto. { rewrite app_length in L. unfold param, u16 in L. cbn [app length] in L. lia. } eexists _, _. eapply pp_param; eauto. lia.
      * eexists _, _. eapply pp_bad; eauto. lia.
Qed.

(** ** EDNS options *)
Lemma ohead_total : forall c, 0 <= c < 65536 -> exists h, option_head c h.
Proof. intros c C. destruct (Z.eq_dec c 8); [eexists; left; eauto|]. destruct (Z.eq_dec c 15); [eexists; right; left; eauto|]. eexists. right. right. split; [auto|]. split; [auto|]. exists (fmt_u c). split; [apply fmt_u_decimal; lia|reflexivity]. Qed.
Lemma options_total : forall n l, (length l <= n)%nat -> bytes_ok l -> exists s x, options_shown l s x.
Proof.
  induction n as [|n IH]; intros l L B.
  - destruct l; [|cbn in L; lia]. eexists _, _. apply oo_end.
  - destruct (tlv_total l B) as [|b|k l K Z|k m l K M Z|k v l K V].
    + eexists _, _. apply oo_end.
    + eexists _, _. apply oo_no_code.
    + destruct (ohead_total k K) as (h & H). eexists _, _. apply oo_no_length; eauto.
    + destruct (ohead_total k K) as (h & H). eexists _, _. apply oo_no_data; eauto.
    + apply bytes_ok_app in B as [B1 B2]. pose proof (param_value _ _ B1) as Bv. destruct (option_print k v [] Bv V K) as [(t & _ & O)|(t & _ & NO)].
      * destruct l as [|a l]; [rewrite app_nil_r; eexists _, _; eapply oo_last; eauto|].
        destruct (IH (a :: l)) as (s & x & P); auto. { rewrite app_length in L. unfold param, u16 in L. cbn [app length] in *. lia. } eexists _, _. eapply oo_option; eauto. discriminate.
      * destruct (ohead_total k K) as (h & H). eexists _, _. eapply oo_bad; eauto.
Qed.

(** ** Fields *)
Lemma types_total : forall ns, Forall (fun n => 0 <= n < 65536) ns -> Forall2 type_text ns (map tname ns).
Proof. intros ns H. induction H; constructor; auto. apply tname_text; auto. Qed.
Lemma value_total_field : forall t o, t <> rdf_edns_opt_rdata -> to_end (fmt_of t) = false -> field_octets (fmt_of t) o -> o <> [] -> bytes_ok o -> forall r, exists s, shows (fmt_of t) (pres_of t) (o ++ r) s (Go r).
Proof.
  intros t o NE TE FO NO B r. destruct (field_print t (VOctets o) NE) as (ts & FT & _). { cbn [value_ok]. split; [auto|]. split; [auto|]. split; [auto|]. intros ->. discriminate. }
  destruct (unblanked t) eqn:UB.
  - destruct (unblanked_one t (VOctets o) ts UB FT) as (x & ->). exists x. assert (P : pres_of t = PEui) by (destruct t; try discriminate TE; try discriminate UB; reflexivity). rewrite P in *. apply sh_eui; auto.
  - exists (each 32 ts). apply sh_value; auto. intros P. destruct t; discriminate.
Qed.
Lemma field_total : forall t l, t <> rdf_edns_opt_rdata -> l <> [] -> bytes_ok l -> zlen l < 65536 ->
  (exists s n, shows (fmt_of t) (pres_of t) l s n) \/ (pres_of t = PName /\ exists ls, valid_labels ls /\ ls <> [] /\ zlen (prewire ls) < 255 /\ l = prewire ls).
Proof.
  intros t l NE N B L. assert (NZ : 0 < zlen l). { destruct l; [congruence|]. rewrite zlen_cons. pose proof (zlen_nonneg _ l). lia. }
  destruct (is_name t) eqn:IN.
  { assert (EF : fmt_of t = FName) by (destruct t; try discriminate; reflexivity). assert (EP : pres_of t = PName) by (destruct t; try discriminate; reflexivity). rewrite EF, EP.
    destruct (len_uname_case l (zlen l) B ltac:(change (2 ^ 32) with 4294967296; lia) ltac:(lia)) as (r & C & _).
    inversion C as [ls rest V E1 E2|ls rest V E1 E2|ls c rest V E1 E2 E3]; subst.
    - left. destruct (Z.lt_ge_cases 255 (zlen (wire ls))) as [X|X]; [eexists _, _; apply sh_long_name; auto|]. eexists _, _. apply sh_name. split; [auto|lia].
    - assert (rest = []) as -> by (rewrite zlen_app in E2; apply zlen_zero; lia). rewrite app_nil_r in *. destruct (Z.lt_ge_cases (zlen (prewire ls)) 255) as [X|X].
      + right. split; [auto|]. exists ls. split; [auto|]. split; [|auto]. intros ->. apply N. reflexivity.
      + left. eexists _, _. apply sh_long_cut; auto. rewrite wire_prewire, zlen_app. change (zlen [0]) with 1. lia.
    - left. eexists _, _. apply sh_bad_label; auto. rewrite zlen_app, zlen_cons in E3. destruct E3; [auto|right; lia]. }
  left. destruct (to_end (fmt_of t)) eqn:TE.
  - destruct t; try discriminate TE; try congruence; cbn [fmt_of pres_of].
    + eexists _, _. apply sh_hex. apply hexs_text; auto.
    + eexists _, _. apply sh_base64.
    + eexists _, _. apply sh_quoted.
    + destruct (string_cases (length l) l ltac:(lia) B) as (ss & tail & -> & F & T). destruct tail as [|b tail]; [rewrite app_nil_r; eexists _, _; apply sh_strings; auto|]. eexists _, _. apply sh_strings_cut; auto; [discriminate|]. destruct T; [discriminate|auto].
    + destruct (window_cases (length l) l ltac:(lia) B) as (ws & tail & -> & F & T). apply bytes_ok_app in B as [B1 B2]. pose proof (types_total _ (numbers_range ws (windows_head ws B1 F))) as G. destruct T as [T|(w & k & r & -> & T)].
      * destruct ws as [|w ws]; [|eexists _, _; apply sh_types; eauto; discriminate]. cbn [map concat app] in *. destruct tail as [|b [|c tail]]; [congruence|eexists _, _; apply sh_no_window|]. rewrite !zlen_cons in T. pose proof (zlen_nonneg _ tail). lia.
      * eexists _, _. apply sh_types_cut; eauto.
    + destruct (params_total (length l) l ltac:(lia) B) as (s & x & P). eexists _, _. apply sh_params. eauto.
  - assert (NF : fmt_of t <> FName) by (destruct t; try discriminate; intro; discriminate).
    assert (D : (exists o r, l = o ++ r /\ field_octets (fmt_of t) o) \/ no_head (field_octets (fmt_of t)) l).
    { assert (FX : forall k, 0 <= k -> fmt_of t = FFixed k -> (exists o r, l = o ++ r /\ field_octets (fmt_of t) o) \/ no_head (field_octets (fmt_of t)) l).
      { intros k K ->. destruct (Z.lt_ge_cases (zlen l) k) as [X|X].
        - right. intros o r -> FO. cbn in FO. rewrite zlen_app in X. pose proof (zlen_nonneg _ r). lia.
        - left. destruct (split_len l k B ltac:(lia)) as (o & r & E & LO & _). exists o, r. split; [auto|exact LO]. }
      assert (FS : fmt_of t = FString -> (exists o r, l = o ++ r /\ field_octets (fmt_of t) o) \/ no_head (field_octets (fmt_of t)) l).
      { intros ->. destruct l as [|c r]; [congruence|]. apply bytes_ok_cons in B as [Bc B]. unfold is_byte in Bc. destruct (Z.lt_ge_cases (zlen r) c) as [X|X].
        - right. intros o r' E (s & LS & ->). unfold char_string in E. cbn [app] in E. injection E as -> ->. rewrite zlen_app in X. pose proof (zlen_nonneg _ r'). lia.
        - left. destruct (split_len r c B ltac:(lia)) as (s & r' & -> & LS & _). exists (char_string s), r'. split; [unfold char_string; rewrite LS; reflexivity|]. exists s. split; [lia|reflexivity]. }
      destruct t; try discriminate TE; try discriminate IN; try congruence; try (apply FS; reflexivity); try (eapply FX; [|reflexivity]; lia).
      cbn [fmt_of]. destruct l as [|p r]; [congruence|]. apply bytes_ok_cons in B as [Bp B]. unfold is_byte in Bp. destruct (Z.lt_ge_cases 128 p) as [X|X].
      - right. intros o r' E (p' & a & P & _ & ->). cbn [app] in E. injection E as -> _. lia.
      - destruct (Z.lt_ge_cases (zlen r) ((128 - p + 7) / 8)) as [Y|Y].
        + right. intros o r' E (p' & a & P & LA & ->). cbn [app] in E. injection E as -> ->. rewrite zlen_app in Y. pose proof (zlen_nonneg _ r'). lia.
        + left. destruct (split_len r ((128 - p + 7) / 8) B) as (a & r' & -> & LA & _). { split; [zdm|lia]. } exists (p :: a), r'. split; [reflexivity|]. exists p, a. split; [lia|]. split; [lia|reflexivity]. }
    destruct D as [(o & r & -> & FO)|NH].
    + apply bytes_ok_app in B as [B1 B2].
      assert (NO : o <> []). { intros ->. destruct t; try discriminate TE; cbn in FO; try lia; try contradiction; try (destruct FO as (? & ? & FO); discriminate FO). destruct FO as (? & ? & ? & ? & FO). discriminate. }
      destruct (value_total_field t o NE TE FO NO B1 r) as (s & H). eauto.
    + eexists _, _. apply sh_missing; auto.
Qed.

(** ** All fields *)
Lemma shows_suffix : forall f p l s r, shows f p l s (Go r) -> exists o, l = o ++ r.
Proof.
  intros f p l s r H. inversion H; subst; eauto; try (exists l; rewrite app_nil_r; reflexivity); try (eexists; rewrite app_nil_r; reflexivity).
  match goal with P : params_shown _ _ _ |- _ => remember (Go r) as n eqn:EN; induction P end; try discriminate.
  - injection EN as <-. exists []. reflexivity.
  - destruct (IHparams_shown EN ltac:(constructor; auto)) as (o & ->). exists (param (k, v) ++ o). rewrite <- app_assoc. reflexivity.
Qed.
Lemma fields_shown_print : forall ts l x e, ~ In rdf_edns_opt_rdata ts -> fields_shown (combine (map fmt_of ts) (map pres_of ts)) l x e -> bytes_ok l -> zlen l < 65536 ->
  forall src, (l <> [] -> src = l) -> exists g, fields_text ts src (zlen l) = Ok (x, g) /\ match e with None => exists a b, g = TNext a b | Some er => exits (Stop er) g end.
Proof.
  induction ts as [|t ts IH]; intros l x e NI H B L src SE.
  - inversion H; subst; eexists; (split; [reflexivity|]); eauto.
  - cbn [map combine] in H. cbn [fields_text]. inversion H as [|fs|f p fs l0 s r x0 e0 N S P|f p fs l0 s er N S]; subst.
    + change (zlen (@nil Z) =? 0) with true. eexists. split; [reflexivity|]. eauto.
    + rewrite (SE N) in *. destruct (shows_print t l s (Go r) ltac:(intros ->; apply NI; left; auto) S N B L) as (g & E & m & X). inversion X; subst.
      assert (NZ : zlen l <> 0) by (destruct l; [congruence|]; rewrite zlen_cons; pose proof (zlen_nonneg _ l); lia). replace (zlen l =? 0) with false by lia. rewrite E. cbn [bind].
      destruct (shows_suffix _ _ _ _ _ S) as (o & EL). rewrite EL in B, L. apply bytes_ok_app in B as [_ B]. rewrite zlen_app in L. pose proof (zlen_nonneg _ o).
      destruct (IH r x0 e ltac:(intros K; apply NI; right; auto) P B ltac:(lia) src0) as (g & -> & G); auto. unfold emit. cbn [bind]. eauto.
    + rewrite (SE N) in *. destruct (shows_print t l x (Stop er) ltac:(intros ->; apply NI; left; auto) S N B L) as (g & E & m & X).
      assert (NZ : zlen l <> 0) by (destruct l; [congruence|]; rewrite zlen_cons; pose proof (zlen_nonneg _ l); lia). replace (zlen l =? 0) with false by lia. rewrite E. cbn [bind].
      inversion X; subst; eexists; (split; [reflexivity|]); exists m; auto; constructor.
Qed.
Lemma fields_total : forall ts l, ~ In rdf_edns_opt_rdata ts -> bytes_ok l -> zlen l < 65536 ->
  (exists x e, fields_shown (combine (map fmt_of ts) (map pres_of ts)) l x e) \/ (forall src, (l <> [] -> src = l) -> fields_text ts src (zlen l) = UB OobRead).
Proof.
  induction ts as [|t ts IH]; intros l NI B L; [left; eexists _, _; apply fl_done|]. destruct l as [|a l'] eqn:EL; [left; eexists _, _; apply fl_end|]. rewrite <- EL in *. assert (N : l <> []) by congruence.
  assert (NT : t <> rdf_edns_opt_rdata) by (intros ->; apply NI; left; auto).
  assert (NZ : zlen l <> 0) by (rewrite EL, zlen_cons; pose proof (zlen_nonneg _ l'); lia). clear a l' EL.
  destruct (field_total t l NT N B L) as [(s & n & S)|(P & ls & V & NL & Z & ->)].
  - destruct n as [r|er]; [|left; eexists _, _; cbn [map combine]; eapply fl_stop; eauto].
    destruct (shows_print t l s (Go r) NT S N B L) as (g & E & m & X). inversion X; subst. destruct (shows_suffix _ _ _ _ _ S) as (o & EL). pose proof B as B'. pose proof L as L'. rewrite EL in B', L'. apply bytes_ok_app in B' as [_ B']. rewrite zlen_app in L'. pose proof (zlen_nonneg _ o).
    destruct (IH r ltac:(intros K; apply NI; right; auto) B' ltac:(lia)) as [(x & e & F)|U].
    + left. eexists _, _. cbn [map combine]. eapply fl_field; eauto.
    + right. intros src' SE. rewrite (SE N). cbn [fields_text]. replace (zlen l =? 0) with false by lia. rewrite E. cbn [bind]. rewrite U by auto. reflexivity.
  - right. intros src SE. rewrite (SE N). cbn [fields_text]. replace (zlen (prewire ls) =? 0) with false by lia. rewrite name_text by auto.
    pose proof (len_uname_cut ls [] V NL Z ltac:(constructor)) as E. rewrite app_nil_r in E. rewrite E. rewrite domain_cut by (auto; lia). reflexivity.
Qed.

(** ** Rdata *)
Lemma unblank_strip : forall x s, unblank x s -> strip_blank x = s.
Proof. intros x s [->|[-> K]]; [apply strip_blank_add|apply strip_blank_keep; auto]. Qed.
Lemma strip_unblank : forall x, unblank x (strip_blank x).
Proof.
  intros x. destruct x as [|a x] using rev_ind; [right; split; [reflexivity|cbn; lia]|]. clear IHx. destruct (Z.eq_dec a 32) as [-> |N].
  - left. rewrite strip_blank_add. reflexivity.
  - right. rewrite strip_blank_keep; [split; [auto|]|]; rewrite last_last; auto.
Qed.
Lemma options_last : forall l s n, options_shown l s n -> bytes_ok l -> match n with Go _ => last s 0 <> 32 | _ => True end.
Proof.
  intros l s n H. induction H; intros B; auto; try (cbn; lia).
  - apply (option_solid o s); auto. destruct o. apply param_value in B. auto.
  - apply bytes_ok_app in B as [B1 B2]. specialize (IHoptions_shown B2). destruct n; auto. destruct t as [|c t] using rev_ind; [rewrite app_nil_r, last_last; lia|]. rewrite !app_assoc, last_last in *. auto.
Qed.

Lemma formats_or_not : forall t c, t <> 41 -> find (fun e => fst e =? t) rr_formats <> None -> has_fields t c = false ->
  exists d, lookup_descr t = Some d /\ (d_class d =? class_un) || (d_class d =? c) = false.
Proof.
  intros t c N F H. assert (I : In t (map fst rr_formats)). { destruct (in_dec Z.eq_dec t (map fst rr_formats)) as [I|I]; auto. exfalso. apply F. apply find_none_key. auto. }
  cbn in I. repeat (destruct I as [<-|I]; [unfold has_fields in H; cbn in H; first [discriminate H|congruence|eexists; split; [unfold lookup_descr; cbn; reflexivity|cbn; destruct c as [|[]|]; first [discriminate|reflexivity]]]|]). contradiction.
Qed.
Lemma opt_descr : forall c, exists d, lookup_descr 41 = Some d /\ (d_class d =? class_un) || (d_class d =? c) = true /\ d_types d = [rdf_edns_opt_rdata].
Proof. intros c. eexists. split; [unfold lookup_descr; cbn; reflexivity|]. split; reflexivity. Qed.
Lemma generic_fun : forall l s s', generic_text l s -> generic_text l s' -> s = s'.
Proof. intros l s s' (d & h & D & G & ->) (d' & h' & D' & G' & ->). rewrite (decimal_unique _ _ _ D D'), (generic_hex_is _ _ G), (generic_hex_is _ _ G'). reflexivity. Qed.

Lemma shown_prints : forall l t c s, bytes_ok l -> zlen l < 65536 -> rdata_shown t c l s -> rdata_to_str l (zlen l) t c = Ok s.
Proof.
  intros l t c s B L H. unfold rdata_shown in H. unfold rdata_to_str. destruct (Z.eqb_spec t 41) as [-> |N].
  - destruct H as (x & n & O & M). destruct (opt_descr c) as (d & E1 & E2 & E3). unfold rdata_to_ubuf. rewrite E1, E2, E3. cbn [negb fields_text]. pose proof (options_last _ _ _ O B) as LB.
    destruct (Z.eqb_spec (zlen l) 0) as [Z0|NZ].
    { apply zlen_zero in Z0. subst l. inversion O as [|o y V T E|o y l y' n' V T K O' E| | | |c' v h l C V KH NO E]; subst; try (unfold param, u16 in E; cbn [app] in E; discriminate E). cbn in M. subst s. reflexivity. }
    cbn [field_text]. destruct (options_shown_print l x n O (S (length l)) [] B L ltac:(lia)) as (g & E & m & X). rewrite app_nil_r in E. rewrite E. cbn [bind].
    inversion X; subst; cbv beta iota in M; subst s; cbn [emit bind app]; [|reflexivity|reflexivity]. rewrite app_nil_r. rewrite strip_blank_keep by exact LB. reflexivity.
  - destruct (find (fun e => fst e =? t) rr_formats) eqn:FD.
    + destruct (has_fields t c) eqn:HF.
      * destruct H as (x & e & F & M). destruct (table_fields t c HF N) as (d & E1 & E2 & E3 & E4 & E5 & E6). rewrite format_of_fields, <- E3, E4 in F. unfold rdata_to_ubuf. rewrite E1, E2. cbn [negb].
        destruct (fields_shown_print (d_types d) l x e E6 F B L l ltac:(auto)) as (g & -> & G). cbn [bind]. destruct e as [er|].
        -- destruct G as (m & G). subst s. inversion G; subst; reflexivity.
        -- destruct G as (a & b & ->). cbn [app]. f_equal. apply unblank_strip. auto.
      * subst s. destruct (formats_or_not t c N ltac:(congruence) HF) as (d & E1 & E2). unfold rdata_to_ubuf. rewrite E1, E2. reflexivity.
    + destruct (generic_print [] t c l [] FD B L) as (s' & E & G). rewrite app_nil_r in E. rewrite E. cbn [app]. f_equal. eapply generic_fun; eauto.
Qed.
Lemma shown_total : forall l t c, bytes_ok l -> zlen l < 65536 -> (exists s, rdata_shown t c l s) \/ rdata_to_str l (zlen l) t c = UB OobRead.
Proof.
  intros l t c B L. unfold rdata_shown. destruct (Z.eqb_spec t 41) as [-> |N].
  - left. destruct (options_total (length l) l ltac:(lia) B) as (s & [r|er] & O); eexists _, _, _; (split; [exact O|cbv beta iota]); reflexivity.
  - destruct (find (fun e => fst e =? t) rr_formats) eqn:FD.
    + destruct (has_fields t c) eqn:HF; [|left; eauto]. destruct (table_fields t c HF N) as (d & E1 & E2 & E3 & E4 & E5 & E6). rewrite format_of_fields, <- E3, E4.
      destruct (fields_total (d_types d) l E6 B L) as [(x & [er|] & F)|U].
      * left. eexists _, _, _. split; [exact F|reflexivity].
      * left. eexists _, _, _. split; [exact F|]. apply strip_unblank.
      * right. unfold rdata_to_str, rdata_to_ubuf. rewrite E1, E2. cbn [negb]. rewrite U by auto. reflexivity.
    + left. destruct (generic_print [] t c l [] FD B L) as (s' & E & G). eauto.
Qed.
