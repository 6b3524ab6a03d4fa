(** ProofPrint.v: the elementary texts of ModelToStr against SpecText. *)
From Coq Require Strings.String.
From Verif Require Import Base Lib SpecName SpecMessage SpecFormat SpecTables SpecText Libc ModelName ModelFormat ModelTables ModelDescr ModelToStr
  ProofUnpack ProofCopy ProofNameStr ProofFormat ProofInet ProofInet6 ProofB64 ProofB32 ProofTables ProofRdata.

(** ** Tokens, each followed by a blank. *)
Definition sepd (ts : list bytes) : bytes := concat (map (fun t => t ++ [32]) ts).
Lemma sepd_app : forall a b, sepd (a ++ b) = sepd a ++ sepd b.
Proof. intros. unfold sepd. rewrite map_app, concat_app. reflexivity. Qed.
Lemma sepd_join : forall ts, ts <> [] -> sepd ts = join_by 32 ts ++ [32].
Proof.
  induction ts as [|t ts IH]; intros H; [congruence|]. destruct ts as [|u ts].
  - cbn [sepd map concat join_by]. rewrite app_nil_r. reflexivity.
  - change (sepd (t :: u :: ts)) with ((t ++ [32]) ++ sepd (u :: ts)). rewrite IH by discriminate.
    change (join_by 32 (t :: u :: ts)) with (t ++ 32 :: join_by 32 (u :: ts)). rewrite <- !app_assoc. reflexivity.
Qed.
Lemma join_cons : forall c t ts, ts <> [] -> join_by c (t :: ts) = t ++ c :: join_by c ts.
Proof. intros c t [|u ts] H; [congruence|reflexivity]. Qed.
Lemma sepd_one : forall t, sepd [t] = t ++ [32].
Proof. intros. cbn. apply app_nil_r. Qed.

(** ** Character-strings *)
Lemma escape_octet_spec : forall c, is_byte c -> escape_octet c = Ok (quote_octet c).
Proof.
  intros c H. unfold escape_octet, quote_octet. rewrite octal_like_spec by auto.
  destruct (c =? 34) eqn:E1; [apply Z.eqb_eq in E1; subst; reflexivity|].
  destruct (c =? 92) eqn:E2; [apply Z.eqb_eq in E2; subst; reflexivity|].
  cbn [orb]. destruct (_ && _); reflexivity.
Qed.
Lemma string_unquoted_spec : forall l rest, bytes_ok l -> string_unquoted (l ++ rest) (zlen l) = Ok (concat (map quote_octet l)).
Proof.
  induction l as [|c l IH]; intros rest F.
  - cbn [app]. rewrite zlen_nil. destruct rest; reflexivity.
  - apply bytes_ok_cons in F as [Hc F]. cbn [app string_unquoted map concat]. rewrite zlen_cons. pose proof (zlen_nonneg _ l).
    replace (zlen l + 1 =? 0) with false by lia. rewrite escape_octet_spec by auto. cbn [bind].
    replace (zlen l + 1 - 1) with (zlen l) by lia. rewrite IH by auto. reflexivity.
Qed.
Lemma to_str_string_spec : forall l rest, bytes_ok l -> to_str_string (l ++ rest) (zlen l) = Ok (quoted l ++ [32]).
Proof.
  intros. unfold to_str_string. rewrite string_unquoted_spec by auto. unfold quoted. cbn [bind].
  rewrite <- !app_assoc. reflexivity.
Qed.

(** ** Hexadecimal *)
Lemma hex1_spec : forall up size b r, is_byte b -> 3 <= size -> hex1 up size (b :: r) = Ok (hex2 up b).
Proof. intros. unfold hex1. rewrite bytes_to_hex_one by auto. reflexivity. Qed.
Definition hexs (up : bool) (l : bytes) : bytes := concat (map (hex2 up) l).
Lemma hexs_text : forall up l, bytes_ok l -> hex_text up l (hexs up l).
Proof.
  induction l as [|b l IH]; intros F; [constructor|]. apply bytes_ok_cons in F as [Hb F].
  unfold hexs. cbn [map concat]. constructor; [apply hex2_spec; auto|apply IH; auto].
Qed.
Lemma bytes_text_spec : forall l rest, bytes_ok l -> bytes_text (l ++ rest) (zlen l) = Ok (hexs true l).
Proof.
  induction l as [|c l IH]; intros rest F.
  - cbn [app]. rewrite zlen_nil. destruct rest; reflexivity.
  - apply bytes_ok_cons in F as [Hc F]. cbn [app bytes_text]. rewrite zlen_cons. pose proof (zlen_nonneg _ l).
    replace (zlen l + 1 =? 0) with false by lia. rewrite hex1_spec by (auto; lia). cbn [bind].
    replace (zlen l + 1 - 1) with (zlen l) by lia. rewrite IH by auto. reflexivity.
Qed.
Lemma salt_hex_spec : forall l rest, bytes_ok l -> salt_hex (length l) (l ++ rest) = Ok (hexs false l).
Proof.
  induction l as [|c l IH]; intros rest F; [reflexivity|]. apply bytes_ok_cons in F as [Hc F].
  cbn [app salt_hex length tl]. rewrite hex1_spec by (auto; lia). cbn [bind]. rewrite IH by auto. reflexivity.
Qed.
Lemma hex_blanks_spec : forall l rest size, bytes_ok l -> 3 <= size ->
  hex_blanks (length l) size (l ++ rest) = Ok (concat (map (fun b => hex2 false b ++ [32]) l)).
Proof.
  induction l as [|c l IH]; intros rest size F S; [reflexivity|]. apply bytes_ok_cons in F as [Hc F].
  cbn [app hex_blanks length tl map concat]. rewrite hex1_spec by auto. cbn [bind]. rewrite IH by auto. cbn [bind].
  rewrite <- app_assoc. reflexivity.
Qed.
Lemma generic_hex_spec : forall l, bytes_ok l -> generic_hex l (concat (map (fun b => hex2 false b ++ [32]) l)).
Proof.
  induction l as [|b l IH]; intros F; [constructor|]. apply bytes_ok_cons in F as [Hb F]. cbn [map concat].
  rewrite <- app_assoc. cbn [app]. constructor; [apply hex2_spec; auto|apply IH; auto].
Qed.
Lemma eui_text_spec : forall l rest first, bytes_ok l -> l <> [] ->
  eui_text (length l) first (l ++ rest) = Ok ((if first then [] else [45]) ++ join_by 45 (map (hex2 false) l)).
Proof.
  induction l as [|c l IH]; intros rest first F NE; [congruence|]. apply bytes_ok_cons in F as [Hc F].
  cbn [app eui_text length tl]. rewrite hex1_spec by (auto; lia). cbn [bind]. destruct l as [|d l].
  - cbn [length eui_text bind map join_by]. rewrite app_nil_r. reflexivity.
  - rewrite IH by (auto; discriminate). cbn [bind]. change (map (hex2 false) (c :: d :: l)) with (hex2 false c :: map (hex2 false) (d :: l)).
    rewrite join_cons by discriminate. reflexivity.
Qed.

(** ** Types *)
Lemma rrtype_text_spec : forall v, 0 <= v < 65536 -> exists s, rrtype_text v = s ++ [32] /\ type_text v s.
Proof.
  intros v H. unfold rrtype_text, type_text. destruct (rrtype_to_str v) as [s|] eqn:E.
  - exists s. split; [reflexivity|]. left. apply (table_registry _ _ _ types_ok). exact E.
  - exists (lit "TYPE" ++ fmt_u v). split; [rewrite <- app_assoc; reflexivity|]. right. split.
    + intros m M. apply (table_registry _ _ _ types_ok) in M. unfold rrtype_to_str in E. congruence.
    + exists (fmt_u v). split; [apply fmt_u_decimal; lia|reflexivity].
Qed.
Definition tname (v : Z) : bytes := match rrtype_to_str v with Some s => s | None => lit "TYPE" ++ fmt_u v end.
Lemma rrtype_text_tname : forall v, rrtype_text v = tname v ++ [32].
Proof. intros v. unfold rrtype_text, tname. destruct (rrtype_to_str v); [reflexivity|rewrite <- app_assoc; reflexivity]. Qed.
Lemma tname_text : forall v, 0 <= v < 65536 -> type_text v (tname v).
Proof.
  intros v H. destruct (rrtype_text_spec v H) as (s & E & T). rewrite rrtype_text_tname in E. apply app_inj_tail in E as [-> _]. exact T.
Qed.

(** ** Type bit maps *)
Lemma land_bit : forall a k, 0 <= k -> negb (Z.land a (Z.shiftl 1 k) =? 0) = Z.testbit a k.
Proof.
  intros a k H. rewrite Z.shiftl_1_l. destruct (Z.testbit a k) eqn:E.
  - destruct (Z.eqb_spec (Z.land a (2 ^ k)) 0) as [Q|Q]; [|reflexivity]. exfalso.
    assert (X : Z.testbit (Z.land a (2 ^ k)) k = true) by (rewrite Z.land_spec, E, Z.pow2_bits_true by lia; reflexivity).
    rewrite Q, Z.bits_0 in X. discriminate.
  - destruct (Z.eqb_spec (Z.land a (2 ^ k)) 0) as [Q|Q]; [reflexivity|]. exfalso. apply Q. apply Z.bits_inj. intros j.
    rewrite Z.land_spec, Z.bits_0. destruct (Z.eq_dec j k) as [-> |N]; [rewrite E; reflexivity|].
    rewrite Z.pow2_bits_false by auto. apply andb_false_r.
Qed.
Lemma bits_text_spec : forall w a lo, is_byte w -> 0 <= lo -> lo + 8 <= 256 ->
  bits_text 8 w a lo = sepd (map tname (octet_types (256 * w + lo) a)).
Proof.
  intros w a lo W L H.
  assert (G : forall x, 0 <= x < 256 -> Z.lor (Z.shiftl w 8) x = 256 * w + x).
  { intros x X. rewrite lor_shift8; [lia|exact X]. }
  unfold octet_types. cbn [bits_text filter]. rewrite !land_bit by lia.
  change (Z.of_nat 7) with 7. change (Z.of_nat 6) with 6. change (Z.of_nat 5) with 5. change (Z.of_nat 4) with 4.
  change (Z.of_nat 3) with 3. change (Z.of_nat 2) with 2. change (Z.of_nat 1) with 1. change (Z.of_nat 0) with 0.
  rewrite !G by lia. rewrite !rrtype_text_tname.
  change (7 - 0) with 7. change (7 - 1) with 6. change (7 - 2) with 5. change (7 - 3) with 4. change (7 - 4) with 3.
  change (7 - 5) with 2. change (7 - 6) with 1. change (7 - 7) with 0.
  replace (256 * w + (lo + 1)) with (256 * w + lo + 1) by lia.
  replace (256 * w + (lo + 1 + 1)) with (256 * w + lo + 2) by lia.
  replace (256 * w + (lo + 1 + 1 + 1)) with (256 * w + lo + 3) by lia.
  replace (256 * w + (lo + 1 + 1 + 1 + 1)) with (256 * w + lo + 4) by lia.
  replace (256 * w + (lo + 1 + 1 + 1 + 1 + 1)) with (256 * w + lo + 5) by lia.
  replace (256 * w + (lo + 1 + 1 + 1 + 1 + 1 + 1)) with (256 * w + lo + 6) by lia.
  replace (256 * w + (lo + 1 + 1 + 1 + 1 + 1 + 1 + 1)) with (256 * w + lo + 7) by lia.
  assert (S : forall b v l, sepd (map tname (map (fun j => 256 * w + lo + j) (if b : bool then v :: l else l))) =
     (if b then tname (256 * w + lo + v) ++ [32] else []) ++ sepd (map tname (map (fun j => 256 * w + lo + j) l))) by (intros [] v l; reflexivity).
  rewrite !S. cbn [map]. change (sepd []) with (@nil Z). rewrite Z.add_0_r. reflexivity.
Qed.
Lemma bitmap_text_spec : forall l w lo, is_byte w -> 0 <= lo -> lo + 8 * zlen l <= 256 ->
  bitmap_text l w lo = sepd (map tname (map_types (256 * w + lo) l)).
Proof.
  induction l as [|a l IH]; intros w lo W L H; [reflexivity|]. rewrite zlen_cons in H. pose proof (zlen_nonneg _ l).
  cbn [bitmap_text map_types]. rewrite map_app, sepd_app, bits_text_spec by (auto; lia). rewrite IH by (auto; lia).
  replace (256 * w + (lo + 8)) with (256 * w + lo + 8) by lia. reflexivity.
Qed.
Lemma windows_text_spec : forall ws f, Forall (fun w => 1 <= zlen (snd w) <= 32) ws -> bytes_ok (concat (map window ws)) -> (length ws < f)%nat ->
  forall rest, windows_text f (concat (map window ws) ++ rest) (zlen (concat (map window ws))) = Ok (sepd (map tname (bitmap_types ws)), TNext rest 0).
Proof.
  induction ws as [|[w l] ws IH]; intros f V B F rest; (destruct f as [|f]; [cbn in F; lia|]).
  - reflexivity.
  - inversion V as [|? ? V1 V2]; subst. cbn [snd] in V1. cbn [map concat] in B |- *. apply bytes_ok_app in B as [B1 B2].
    unfold window in *. cbn [fst snd] in *. apply bytes_ok_cons in B1 as [Bw B1]. apply bytes_ok_cons in B1 as [_ Bl].
    cbn [windows_text]. rewrite zlen_app, !zlen_cons. pose proof (zlen_nonneg _ (concat (map (fun w => fst w :: zlen (snd w) :: snd w) ws))) as P.
    replace (zlen l + 1 + 1 + zlen (concat (map (fun w0 => fst w0 :: zlen (snd w0) :: snd w0) ws)) >=? 2) with true by lia.
    repeat (rewrite <- app_assoc; cbn [app]). change (w :: zlen l :: l ++ ?x) with ([w; zlen l] ++ l ++ x).
    rewrite (take_rd_app [w; zlen l]) by reflexivity. cbn [bind nth]. rewrite (adv_app [w; zlen l]) by reflexivity.
    set (R := zlen (concat (map (fun w0 => fst w0 :: zlen (snd w0) :: snd w0) ws))) in *.
    replace (zlen l + 1 + 1 + R - 2 <? zlen l) with false by lia. rewrite take_rd_app by reflexivity. cbn [bind].
    rewrite adv_app by reflexivity. replace (zlen l + 1 + 1 + R - 2 - zlen l) with R by lia.
    unfold R. rewrite IH; auto; [|cbn in F; lia].
    unfold emit. cbn [bind]. unfold bitmap_types. cbn [map concat]. rewrite map_app, sepd_app.
    rewrite bitmap_text_spec by (auto; lia). unfold window_types. cbn [fst snd]. rewrite Z.add_0_r. reflexivity.
Qed.
