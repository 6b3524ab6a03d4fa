(** ProofShow3.v: the text of fields and of all rdata, well-formed or not, is what is printed. *)
From Coq Require Strings.String.
From Verif Require Import Base Lib SpecName SpecMessage SpecEncode SpecFormat SpecTables SpecText SpecMsgText SpecPrint Libc ModelName ModelFormat ModelTables ModelDescr ModelToStr ModelParse
  ProofUnpack ProofCopy ProofNameStr ProofNameOps ProofFormat ProofInet ProofInet6 ProofB64 ProofB32 ProofTables ProofRdata ProofPrint ProofPrint2 ProofField ProofVisible ProofEncode ProofRdataText
  ProofFromStr ProofBitmap ProofSvc ProofRoundTrip ProofSafe ProofOptions ProofShow1 ProofShow2.

(** ** The tokens of a field are determined *)
Definition single (p : pres) : bool := match p with PStrings | PTypes | PParams => false | _ => true end.
Lemma field_tokens_fun : forall p v ts ts', single p = true -> bytes_ok (canon1 v) -> field_tokens p v ts -> field_tokens p v ts' -> ts = ts'.
Proof.
  intros p v ts ts' S B H H'. destruct H as [ls|l s D|l s X|l|l| |n a s t R D T| |l s N X| |l N|a s T|a s T|l hs X|l|ss|l s T|ws ts F|ps ts F]; try discriminate S; cbn [canon1] in B.
  - inversion H'; subst; auto.
  - inversion H' as [|l' s' D'| | | | | | | | | | | | | | | | |]; subst. rewrite (decimal_unique _ _ _ D D'). auto.
  - inversion H' as [| |l' s' X'| | | | | | | | | | | | | | | |]; subst. apply hex_text_is in X as [_ ->]. apply hex_text_is in X' as [_ ->]. auto.
  - inversion H'; subst; auto.
  - inversion H'; subst; auto.
  - inversion H'; subst; [reflexivity|lia].
  - inversion H' as [| | | | | |n' a' s' t' R' D' T'| | | | | | | | | | | |]; subst; [lia|]. rewrite (decimal_unique _ _ _ D D'). apply bytes_ok_cons in B as [_ B]. f_equal. f_equal. apply (ipv6_unique (repeat 0 (Z.to_nat (16 - zlen a)) ++ a)); auto.
    apply bytes_ok_app. split; [|auto]. apply Forall_forall. intros x Y. apply repeat_spec in Y. subst. unfold is_byte. lia.
  - inversion H'; subst; auto; congruence.
  - apply hex_text_is in X as [_ ->]. inversion H'; subst; [congruence|]. match goal with K : hex_text false l _ |- _ => apply hex_text_is in K as [_ ->] end. auto.
  - inversion H'; subst; auto; congruence.
  - inversion H'; subst; [congruence|]. reflexivity.
  - inversion H' as [| | | | | | | | | | |a' s' T'| | | | | | |]; subst. apply ipv4_is in T as [_ ->]; auto. apply ipv4_is in T' as [_ ->]; auto.
  - inversion H' as [| | | | | | | | | | | |a' s' T'| | | | | |]; subst. f_equal. eapply ipv6_unique; eauto.
  - inversion H' as [| | | | | | | | | | | | |l' hs' X'| | | | |]; subst. apply hex_octets_are in X. apply hex_octets_are in X'. subst. auto.
  - inversion H'; subst; auto.
  - inversion H' as [| | | | | | | | | | | | | | | |l' s' T'| |]; subst.
    destruct T as [M|(N & d & D & ->)], T' as [M'|(N' & d' & D' & ->)].
    + f_equal. destruct M as (x & I & ->), M' as (y & J & ->).
      assert (RG : 0 <= be_value l < 65536). { revert I. generalize (be_value l). intros n I. assert (X : forallb (fun e => (0 <=? fst e) && (fst e <? 65536)) iana_types = true) by (vm_compute; reflexivity). rewrite forallb_forall in X. apply X in I. cbn [fst] in I. lia. }
      rewrite (type_is (be_value l) (lit x)), (type_is (be_value l) (lit y)); auto; left; eexists; eauto.
    + exfalso. eapply N'; eauto.
    + exfalso. eapply N; eauto.
    + rewrite (decimal_unique _ _ _ D D'). auto.
Qed.

(** ** Octets that are missing *)
Lemma no_fixed : forall n l, bytes_ok l -> 0 <= n -> no_head (field_octets (FFixed n)) l -> zlen l < n.
Proof.
  intros n l B N H. destruct (Z.lt_ge_cases (zlen l) n) as [X|X]; [auto|exfalso]. destruct (split_len l n B ltac:(lia)) as (o & r & -> & L & _). apply (H o r); auto.
Qed.
Lemma no_prefix : forall l, bytes_ok l -> l <> [] -> no_head (field_octets FPrefix6) l -> exists p r, l = p :: r /\ is_byte p /\ bytes_ok r /\ (128 < p \/ (p <= 128 /\ zlen r < (128 - p + 7) / 8)).
Proof.
  intros [|p r] B N H; [congruence|]. apply bytes_ok_cons in B as [Bp B]. exists p, r. split; [auto|]. split; [auto|]. split; [auto|]. unfold is_byte in Bp.
  destruct (Z.lt_ge_cases 128 p) as [X|X]; [auto|right]. split; [auto|]. destruct (Z.lt_ge_cases (zlen r) ((128 - p + 7) / 8)) as [Y|Y]; [auto|exfalso].
  destruct (split_len r ((128 - p + 7) / 8) B) as (a & r' & -> & L & _). { split; [zdm|lia]. } apply (H (p :: a) r'); auto. exists p, a. split; [lia|]. split; [lia|reflexivity].
Qed.

Lemma name_text : forall t src n, pres_of t = PName -> field_text t src n = match len_uname src n with
      | Ok len => '(s, _) <- domain_to_str src len ;; Ok (s ++ [32], TNext (adv src len) (n - len))
      | Err r => Ok ([], TRes r) | UB f => UB f | NoFuel => NoFuel end.
Proof. intros t src n E. destruct t; try discriminate; reflexivity. Qed.
Lemma prewire_app : forall a b, prewire (a ++ b) = prewire a ++ prewire b.
Proof. intros a b. unfold prewire. rewrite map_app, concat_app. reflexivity. Qed.

(** Reading a name has only one outcome: root octet, cut, or bad length octet. *)
Lemma labels_cancel : forall a b x y, valid_labels a -> valid_labels b -> prewire a ++ x = prewire b ++ y ->
  (exists c, valid_labels c /\ a = b ++ c /\ y = prewire c ++ x) \/ (exists c, valid_labels c /\ b = a ++ c /\ x = prewire c ++ y).
Proof.
  induction a as [|l a IH]; intros b x y A B E.
  - right. exists b. split; [auto|]. split; [reflexivity|]. cbn in E. auto.
  - destruct b as [|m b]; [left; exists (l :: a); split; [auto|]; split; [reflexivity|]; cbn in E; auto|].
    apply valid_labels_cons in A as [A1 A2]. apply valid_labels_cons in B as [B1 B2].
    change (prewire (l :: a)) with (zlen l :: l ++ prewire a) in E. change (prewire (m :: b)) with (zlen m :: m ++ prewire b) in E. cbn [app] in E. rewrite <- !app_assoc in E.
    injection E as E0 E. apply app_zlen_inj in E as [-> E]; [|auto]. destruct (IH b x y A2 B2 E) as [(c & C & -> & ->)|(c & C & -> & ->)]; [left|right]; exists c; auto.
Qed.
Lemma label_head : forall c x, valid_labels c -> c <> [] -> exists d r, prewire c ++ x = d :: r /\ 1 <= d <= 63 /\ d <= zlen r.
Proof.
  intros [|l c] x V N; [congruence|]. apply valid_labels_cons in V as [[V1 V2] _]. exists (zlen l), (l ++ prewire c ++ x). split; [change (prewire (l :: c)) with (zlen l :: l ++ prewire c); cbn [app]; rewrite <- app_assoc; reflexivity|].
  split; [lia|]. rewrite zlen_app. pose proof (zlen_nonneg _ (prewire c ++ x)). lia.
Qed.
Lemma wire_prewire : forall ls, wire ls = prewire ls ++ [0]. Proof. reflexivity. Qed.
(** What is behind the labels. *)
Definition ending (x : bytes) : Prop := x = [] \/ (exists r, x = 0 :: r) \/ exists c r, x = c :: r /\ (64 <= c \/ (1 <= c /\ zlen r < c)).
Lemma ending_same : forall a b x y, valid_labels a -> valid_labels b -> ending x -> ending y -> prewire a ++ x = prewire b ++ y -> a = b /\ x = y.
Proof.
  assert (K : forall c x y, valid_labels c -> ending y -> y = prewire c ++ x -> c = []).
  { intros c x y V E Q. destruct c as [|l c]; [auto|exfalso]. destruct (label_head (l :: c) x V ltac:(discriminate)) as (d & r & E1 & D & Z). rewrite E1 in Q. subst y. destruct E as [E|[(r' & E)|(c' & r' & E & W)]]; [discriminate|injection E; lia|]. injection E as <- <-. lia. }
  intros a b x y A B X Y E. destruct (labels_cancel a b x y A B E) as [(c & C & -> & Q)|(c & C & -> & Q)].
  - pose proof (K c x y C Y Q). subst c. rewrite app_nil_r. cbn in Q. auto.
  - pose proof (K c y x C X Q). subst c. rewrite app_nil_r. cbn in Q. auto.
Qed.

Lemma no_label_text : forall t ls x, pres_of t = PName -> valid_labels ls -> ending x -> bytes_ok (prewire ls ++ x) -> prewire ls ++ x <> [] -> zlen (prewire ls ++ x) < 65536 -> 
  len_uname (prewire ls ++ x) (zlen (prewire ls ++ x)) = limit255 (match x with [] => Ok (zlen (prewire ls) + 1) | 0 :: _ => Ok (zlen (wire ls)) | _ => Err res_invalid_length_octet end).
Proof.
  intros t ls x T V E B N L. assert (0 < zlen (prewire ls ++ x)). { destruct (prewire ls ++ x) as [|b q]; [congruence|]. rewrite zlen_cons. pose proof (zlen_nonneg _ q). lia. }
  destruct (len_uname_case (prewire ls ++ x) (zlen (prewire ls ++ x)) B ltac:(change (2 ^ 32) with 4294967296; lia) ltac:(lia)) as (r & C & ->). f_equal.
  inversion C as [ms rest V2 E1 E2|ms rest V2 E1 E2|ms c rest V2 E1 E2 E3]; subst.
  - rewrite wire_prewire, <- app_assoc in E1. destruct (ending_same ls ms x ([0] ++ rest)) as [-> ->]; auto; right; left; eexists; reflexivity.
  - assert (rest = []). { rewrite E1 in E2. rewrite zlen_app in E2. apply zlen_zero. lia. } subst rest. destruct (ending_same ls ms x []) as [-> ->]; auto; [left; auto|]. rewrite app_nil_r. reflexivity.
  - assert (Y : ending (c :: rest)). { right. right. exists c, rest. split; [auto|]. rewrite E1 in E3. rewrite zlen_app, zlen_cons in E3. destruct E3; [auto|right; lia]. }
    destruct (ending_same ls ms x (c :: rest)) as [-> ->]; auto. destruct c; auto. lia.
Qed.

Lemma shows_print : forall t l s n, t <> rdf_edns_opt_rdata -> shows (fmt_of t) (pres_of t) l s n -> l <> [] -> bytes_ok l -> zlen l < 65536 ->
  exists g, field_text t l (zlen l) = Ok (s, g) /\ exits n g.
Proof.
  intros t l s n NE H N B L. assert (NZ : 0 < zlen l). { destruct l; [congruence|]. rewrite zlen_cons. pose proof (zlen_nonneg _ l). lia. }
  remember (fmt_of t) as f eqn:EF. remember (pres_of t) as p eqn:EP. 
  destruct H as [ls r V|ls r V Z|ls V Z|ls c r V C|f p o r ts TE PE FO FT|f o r x FO TE FT|f p l TE FN NH|l s X|l|l|ss V|ss l V NL NH|b|ws ts r NW Z V F|ws ts w k l V F Z|l s n P].
  - rewrite name_text by auto. pose proof (len_uname_wire ls r (zlen (wire ls ++ r)) V) as E. apply bytes_ok_app in B as [B1 B2]. pose proof (zlen_nonneg _ r). rewrite E; [|auto|zlia|change (2 ^ 32) with 4294967296; lia]. rewrite domain_to_str_wire by (auto; lia). cbn [bind].
    rewrite adv_app by auto. eexists. split; [reflexivity|]. rewrite zlen_app. replace (zlen (wire ls) + zlen r - zlen (wire ls)) with (zlen r) by lia. apply exits_go. auto.
  - rewrite name_text by auto. rewrite wire_prewire in *. rewrite <- app_assoc in *. rewrite (no_label_text t) by (auto; right; left; eexists; reflexivity). cbn [app limit255]. rewrite wire_prewire. replace (zlen (prewire ls ++ [0]) >? 255) with true by lia. eexists. split; [reflexivity|apply exits_long].
  - rewrite name_text by auto. rewrite wire_prewire, zlen_app in Z. change (zlen [0]) with 1 in Z. rewrite <- (app_nil_r (prewire ls)). rewrite (no_label_text t) by (rewrite ?app_nil_r; auto; left; auto). cbn [limit255]. replace (zlen (prewire ls) + 1 >? 255) with true by lia. eexists. split; [reflexivity|apply exits_long].
  - rewrite name_text by auto. rewrite (no_label_text t); auto; [|right; right; eauto]. replace (match c :: r with [] => Ok (zlen (prewire ls) + 1) | 0 :: _ => Ok (zlen (wire ls)) | _ => Err res_invalid_length_octet end) with (@Err Z res_invalid_length_octet) by (destruct c; auto; lia).
    cbn [limit255]. eexists. split; [reflexivity|apply exits_label].
  - assert (SP : single p = true) by (subst; destruct t; try discriminate TE; reflexivity). apply bytes_ok_app in B as [B1 B2].
    assert (NO : o <> []). { intros ->. subst f. destruct t; try discriminate TE; cbn in FO; try lia; try contradiction; try (destruct FO as (? & ? & FO); discriminate FO). destruct FO as (? & ? & ? & ? & FO). discriminate. }
    destruct (field_print t (VOctets o) NE) as (ts' & FT' & PR).
    { cbn [value_ok]. rewrite <- EF. split; [auto|]. split; [auto|]. split; [auto|]. intros ->. subst f. discriminate. }
    rewrite <- EP in FT'. rewrite (field_tokens_fun p (VOctets o) ts ts') by auto. clear FT FT'. cbn [canon1] in *.
    destruct (PR r (zlen (o ++ r)) B2) as (src' & E & R); cbn [canon1]; [rewrite !zlen_app; pose proof (zlen_nonneg _ r); lia|lia|congruence|]. cbn [canon1] in *. rewrite E. 
    assert (UB : unblanked t = false) by (subst; destruct t; try discriminate TE; first [reflexivity|contradiction PE; reflexivity]). unfold field_out. rewrite UB. eexists. split; [reflexivity|]. rewrite zlen_app in R |- *. replace (zlen o + zlen r - zlen o) with (zlen r) by lia.
    apply exits_go. intros X. apply R. destruct r; [congruence|]. rewrite zlen_cons. pose proof (zlen_nonneg _ r). lia.
  - apply bytes_ok_app in B as [B1 B2].
    assert (NO : o <> []). { intros ->. subst f. destruct t; try discriminate EP; cbn in FO; lia. }
    destruct (field_print t (VOctets o) NE) as (ts' & FT' & PR).
    { cbn [value_ok]. rewrite <- EF. split; [auto|]. split; [auto|]. split; [auto|]. intros ->. discriminate. }
    rewrite <- EP in FT'. pose proof (field_tokens_fun PEui (VOctets o) [x] ts' eq_refl B1 FT FT') as <-. cbn [canon1] in *.
    destruct (PR r (zlen (o ++ r)) B2) as (src' & E & R); cbn [canon1]; [rewrite !zlen_app; pose proof (zlen_nonneg _ r); lia|lia|rewrite <- EF; congruence|]. cbn [canon1] in *. rewrite E. 
    assert (UB : unblanked t = true) by (destruct t; try discriminate EP; reflexivity). unfold field_out. rewrite UB. cbn [concat]. rewrite app_nil_r. eexists. split; [reflexivity|]. rewrite zlen_app in R |- *. replace (zlen o + zlen r - zlen o) with (zlen r) by lia.
    apply exits_go. intros X. apply R. destruct r; [congruence|]. rewrite zlen_cons. pose proof (zlen_nonneg _ r). lia.
  - exists TErr. split; [|apply exits_short]. subst f.
    assert (FX : forall k, 0 <= k -> fmt_of t = FFixed k -> zlen l < k). { intros k K E. rewrite E in NH. apply no_fixed; auto. }
    assert (ST : fmt_of t = FString -> exists c r, l = c :: r /\ is_byte c /\ zlen r < c). { intros E. rewrite E in NH. apply no_string; auto. }
    destruct t; try discriminate TE; try congruence; try (contradiction FN; reflexivity); cbn [field_text];
      try (match goal with |- context [int_text ?z] => specialize (FX z ltac:(lia) eq_refl); unfold int_text; replace (zlen l <? z) with true by lia; reflexivity end);
      try (match goal with |- (if zlen l <? ?z then _ else _) = _ => specialize (FX z ltac:(lia) eq_refl); replace (zlen l <? z) with true by lia; reflexivity end).
    + destruct (no_prefix l B N NH) as (q & r & -> & Bq & Br & C). rewrite zlen_cons in *. unfold is_byte in Bq. pose proof (zlen_nonneg _ r). replace (zlen r + 1 <? 1) with false by lia. cbn [hd_rd bind]. change (adv (q :: r) 1) with r.
      destruct (q >? 128) eqn:E; [reflexivity|]. rewrite prefix_octets by lia. destruct C as [C|[_ C]]; [lia|]. replace (zlen r + 1 <? 1 + (128 - q + 7) / 8) with true by lia. reflexivity.
    + destruct (ST eq_refl) as (c & r & -> & Bc & C). rewrite zlen_cons in *. pose proof (zlen_nonneg _ r). replace (zlen r + 1 <? 1) with false by lia. cbn [hd_rd bind]. change (adv (c :: r) 1) with r. replace (zlen r + 1 - 1 <? c) with true by lia. reflexivity.
    + destruct (ST eq_refl) as (c & r & -> & Bc & C). rewrite zlen_cons in *. pose proof (zlen_nonneg _ r). replace (zlen r + 1 <? 1) with false by lia. cbn [hd_rd bind]. change (adv (c :: r) 1) with r. replace (zlen r + 1 <? 1 + c) with true by lia. reflexivity.
    + destruct (ST eq_refl) as (c & r & -> & Bc & C). rewrite zlen_cons in *. pose proof (zlen_nonneg _ r). replace (zlen r + 1 <? 1) with false by lia. cbn [hd_rd bind]. change (adv (c :: r) 1) with r. replace (zlen r + 1 <? 1 + c) with true by lia. reflexivity.
  - destruct t; try discriminate EP; try congruence. cbn [field_text]. rewrite Z.mod_small by (change (2 ^ 64) with 18446744073709551616; lia). pose proof (bytes_text_spec l [] B) as E; rewrite app_nil_r in E; rewrite E. cbn [bind]. apply hex_text_is in X as [_ ->]. eexists. split; [reflexivity|]. apply (exits_go []). congruence.
  - destruct t; try discriminate EP; try congruence. cbn [field_text]. pose proof (bytes_to_base64_spec l [] B ltac:(lia)) as E; rewrite app_nil_r in E; rewrite E. cbn [bind]. eexists. split; [reflexivity|]. apply (exits_go []). congruence.
  - destruct t; try discriminate EP; try congruence. cbn [field_text]. rewrite Z.mod_small by (change (2 ^ 64) with 18446744073709551616; lia). pose proof (to_str_string_spec l [] B) as E; rewrite app_nil_r in E; rewrite E. cbn [bind]. eexists. split; [reflexivity|]. apply (exits_go []). congruence.
  - destruct t; try discriminate EP; try congruence. cbn [field_text]. pose proof (strings_text_spec ss (S (length (concat (map char_string ss)))) V B ltac:(pose proof (length_strings ss); lia) []) as E. rewrite app_nil_r in E. rewrite E. eexists. split; [reflexivity|]. apply (exits_go []). congruence.
  - destruct t; try discriminate EP; try congruence. cbn [field_text]. pose proof (strings_cut ss (S (length (concat (map char_string ss) ++ l))) l [] V B NL NH ltac:(rewrite app_length; pose proof (length_strings ss); lia)) as E. rewrite app_nil_r in E. rewrite E. eexists. split; [reflexivity|]. apply exits_short.
  - destruct t; try discriminate EP; try congruence. eexists. split; [reflexivity|]. apply exits_short.
  - destruct t; try discriminate EP; try congruence. cbn [field_text]. pose proof (zlen_nonneg _ r). apply bytes_ok_app in B as [B1 B2]. pose proof (windows_head ws B1 V) as V'.
    assert (W2 : 2 <= zlen (concat (map window ws))). { destruct ws as [|[w0 l0] ws]; [congruence|]. cbn [map concat]. rewrite zlen_app, zlen_window. pose proof (zlen_nonneg _ (concat (map window ws))). cbn [snd] in *. pose proof (zlen_nonneg _ l0). lia. }
    rewrite zlen_app in *. replace (zlen (concat (map window ws)) + zlen r <? 2) with false by lia.
    assert (LW : (length ws <= length (concat (map window ws)))%nat). { clear. induction ws as [|w ws IH]; [cbn; lia|]. cbn [map concat]. rewrite app_length. cbn [window length]. lia. }
    rewrite windows_any by (rewrite ?app_length; lia). replace (zlen (concat (map window ws)) + zlen r - zlen (concat (map window ws))) with (zlen r) by lia. cbn [windows_text]. replace (zlen r >=? 2) with false by lia.
    unfold emit. cbn [bind]. rewrite app_nil_r. rewrite (types_are _ _ (numbers_range ws V') F). eexists. split; [reflexivity|]. apply exits_go. auto.
  - destruct t; try discriminate EP; try congruence. cbn [field_text]. pose proof (zlen_nonneg _ l). apply bytes_ok_app in B as [B1 B2]. pose proof (windows_head ws B1 V) as V'. pose proof (zlen_nonneg _ (concat (map window ws))).
    rewrite zlen_app, !zlen_cons in *. replace (zlen (concat (map window ws)) + (zlen l + 1 + 1) <? 2) with false by lia.
    assert (LW : (length ws <= length (concat (map window ws)))%nat). { clear. induction ws as [|w ws IH]; [cbn; lia|]. cbn [map concat]. rewrite app_length. cbn [window length]. lia. }
    rewrite windows_any by (rewrite ?app_length; lia). replace (zlen (concat (map window ws)) + (zlen l + 1 + 1) - zlen (concat (map window ws))) with (zlen l + 2) by lia. cbn [windows_text]. replace (zlen l + 2 >=? 2) with true by lia.
    change (w :: k :: l) with ([w; k] ++ l). rewrite (take_rd_app [w; k]) by reflexivity. cbn [bind nth]. replace (zlen l + 2 - 2 <? k) with true by lia. unfold emit. cbn [bind]. rewrite app_nil_r.
    rewrite (types_are _ _ (numbers_range ws V') F). eexists. split; [reflexivity|]. apply exits_short.
  - destruct t; try discriminate EP; try congruence. cbn [field_text]. destruct (params_print l s n P (S (length l)) [] B L ltac:(lia)) as (g & E & X). rewrite app_nil_r in E. eauto.
Qed.
