(** ProofReadSvc.v: SvcParams, exactly. *)
From Verif Require Import Base Lib SpecName SpecStrName SpecMessage SpecFormat SpecText SpecRead Libc ModelName ModelFormat ModelTables ModelDescr ModelFromStr.
From Verif Require Import ProofUnpack ProofFormat ProofRdata ProofField ProofFromStr ProofSvc ProofFromSafe ProofSafe ProofWritten ProofRoundTrip2 ProofRead1 ProofRead2 ProofRead3.

(** ** Tokens *)
Lemma strtok_tokens : forall d s ts, tokens d s ts ->
  match ts with [] => strtok d s = None | t :: ts' => exists r, strtok d s = Some (t, r) /\ tokens d r ts' end.
Proof.
  intros d. induction 1 as [|s ts H IH|t e ts N F E H IH].
  - reflexivity.
  - assert (Q : strtok d (d :: s) = strtok d s) by (unfold strtok; cbn [skip_delim]; rewrite Z.eqb_refl; reflexivity).
    destruct ts as [|t ts]; rewrite Q; exact IH.
  - destruct E as [->|(r & ->)].
    + exists []. rewrite app_nil_r. split; [apply strtok_one; auto|]. inversion H as [| |t' e' ts' N' F' E' H' Q]; subst; [constructor|]. exfalso. destruct t'; [congruence|discriminate].
    + exists r. split; [apply strtok_more; auto|]. inversion H as [|s' ts' H' Q|t' e' ts' N' F' E' H' Q]; subst; [auto|]. exfalso. destruct t' as [|x t']; [congruence|]. injection Q as -> Q. inversion F'; congruence.
Qed.
Lemma tokens_exist : forall d n s, (length s <= n)%nat -> exists ts, tokens d s ts.
Proof.
  intros d. induction n as [|n IH]; intros s L; [destruct s; [exists []; constructor|cbn in L; lia]|].
  destruct s as [|c s]; [exists []; constructor|]. destruct (Z.eq_dec c d) as [->|N].
  - destruct (IH s) as [ts T]; [cbn in L; lia|]. exists ts. constructor; auto.
  - destruct (split_at (fun x => x =? d) (c :: s)) as [t e] eqn:SP. pose proof SP as SP'. apply split_at_eq in SP' as (EQ & H & F).
    assert (NT : t <> []). { intros ->. cbn [app] in EQ. destruct H as [->|(x & y & -> & X)]; [discriminate|]. injection EQ as -> ->. lia. }
    destruct (IH e) as [ts T]. { apply (f_equal (@length Z)) in EQ. rewrite app_length in EQ. destruct t; [congruence|]. cbn [length] in *. lia. }
    exists (t :: ts). rewrite EQ. constructor; auto.
    + eapply Forall_impl; [|exact F]. cbn beta. intros; lia.
    + destruct H as [->|(x & y & -> & X)]; [left; auto|right]. exists y. f_equal. lia.
Qed.
Lemma tokens_none : forall d s ts, tokens d s ts -> (strtok d s = None <-> ts = []).
Proof. intros d s ts T. apply strtok_tokens in T. destruct ts as [|t ts]; [split; auto|]. destruct T as (r & -> & _). split; discriminate. Qed.
Lemma tokens_first : forall d s t, (exists r, strtok d s = Some (t, r)) <-> exists ts, tokens d s (t :: ts).
Proof.
  intros d s t. split.
  - intros (r & E). destruct (tokens_exist d _ s (le_n _)) as [ts T]. pose proof (strtok_tokens _ _ _ T) as Q. destruct ts as [|t' ts]; [congruence|]. destruct Q as (r' & E' & T'). assert (t' = t) by congruence. subst. eauto.
  - intros (ts & T). apply strtok_tokens in T as (r & E & _). eauto.
Qed.

(** ** C strings *)
Lemma cstr_iff : forall v u, cstr v = u <-> up_to_nul v u.
Proof.
  intros v u. unfold cstr, up_to_nul. split.
  - intros H. destruct (split_at (fun c => c =? 0) v) as [a b] eqn:SP. cbn [fst] in H. subst a. apply split_at_eq in SP as (EQ & H & F). split; [eapply Forall_impl; [|exact F]; cbn beta; intros; lia|].
    destruct H as [->|(x & y & -> & X)]; [left; rewrite EQ, app_nil_r; auto|right]. exists y. rewrite EQ. do 2 f_equal. lia.
  - intros (F & H). assert (F' : Forall (fun c => (c =? 0) = false) u) by (eapply Forall_impl; [|exact F]; cbn beta; intros; lia). destruct H as [->|(r & ->)].
    + rewrite <- (app_nil_r u) at 1. rewrite split_at_app; auto.
    + rewrite split_at_app; auto. right. exists 0, r. split; auto.
Qed.

(** ** strtoul *)
Lemma white_skip : forall w s, Forall white w -> skip_space (w ++ s) = skip_space s.
Proof. induction 1 as [|c w W F IH]; [reflexivity|]. cbn [app skip_space]. apply white_iff in W. rewrite W. exact IH. Qed.
Lemma scan_all : forall d, Forall digit d -> d <> [] -> scan_digits d 0 false = (dec_value d, true, []).
Proof. intros d F N. rewrite <- (app_nil_r d) at 1. rewrite scan_digits_app; [rewrite Z.mul_0_l; reflexivity|auto|auto|exact I]. Qed.
Lemma scan_digits_end : forall s a b v b', scan_digits s a b = (v, b', []) -> Forall digit s.
Proof.
  induction s as [|c s IH]; intros a b v b' H; [constructor|]. cbn [scan_digits] in H. destruct (is_digit c) eqn:D; [|discriminate]. constructor; [apply digit_iff; auto|eapply IH; eauto].
Qed.
Lemma strtoul_iff : forall t v, t <> [] -> (strtoul t = (v, []) <-> c_unsigned t v).
Proof.
  intros t v N. unfold strtoul, c_unsigned. change (2 ^ 64 - 1) with 18446744073709551615. split.
  - intros H. destruct (scan_sign (skip_space t)) as [neg q] eqn:SG. destruct (scan_digits q 0 false) as [[x seen] r] eqn:SD. destruct seen; [|congruence].
    assert (r = []) by congruence. subst r. assert (F := scan_digits_end _ _ _ _ _ SD). assert (NQ : q <> []) by (intros ->; cbn in SD; congruence).
    rewrite scan_all in SD by auto. assert (x = dec_value q) by congruence. subst x.
    assert (SS : exists w, t = w ++ skip_space t /\ Forall white w).
    { clear. induction t as [|c t (w & E & F)]; [exists []; auto|]. cbn [skip_space]. destruct (isspace c) eqn:W; [exists (c :: w); cbn [app]; rewrite <- E; split; auto; constructor; auto; apply white_iff; auto|exists []; auto]. }
    destruct SS as (w & EQ & FW). unfold scan_sign in SG. destruct (skip_space t) as [|c s] eqn:SK; [congruence|].
    assert (NU : numeral q (dec_value q)) by (split; auto).
    destruct (c =? 45) eqn:M.
    { assert (neg = true /\ q = s) as [-> ->] by (split; congruence). exists w, [45], s, (dec_value s). rewrite EQ. split; [replace c with 45 by lia; reflexivity|]. split; auto. split; auto. right. split; auto.
      destruct (dec_value s >? 18446744073709551615) eqn:G; [replace (dec_value s <=? 18446744073709551615) with false by lia|replace (dec_value s <=? 18446744073709551615) with true by lia]; congruence. }
    assert (V : v = Z.min (dec_value q) 18446744073709551615).
    { assert (neg = false) by (destruct (c =? 43); congruence). subst neg. destruct (dec_value q >? 18446744073709551615) eqn:G; [assert (v = 18446744073709551615) by congruence|assert (v = dec_value q) by congruence]; lia. }
    destruct (c =? 43) eqn:P.
    + assert (q = s) by congruence. subst q. exists w, [43], s, (dec_value s). rewrite EQ. split; [replace c with 43 by lia; reflexivity|]. split; auto.
    + assert (q = c :: s) by congruence. subst q. exists w, [], (c :: s), (dec_value (c :: s)). split; [exact EQ|]. split; auto.
  - intros (w & sg & d & n & -> & FW & (ND & FD & ->) & H). rewrite white_skip by auto. destruct d as [|c d]; [congruence|]. pose proof (Forall_inv FD) as D. unfold digit in D.
    destruct H as [([->| ->] & ->)|(-> & ->)]; cbn [app skip_space].
    + replace (isspace c) with false by (unfold isspace; lia). unfold scan_sign. replace (c =? 45) with false by lia. replace (c =? 43) with false by lia. rewrite scan_all by auto.
      f_equal. destruct (_ >? _) eqn:G; lia.
    + change (isspace 43) with false. unfold scan_sign. change (43 =? 45) with false. change (43 =? 43) with true. cbv iota. rewrite scan_all by auto. f_equal. destruct (_ >? _) eqn:G; lia.
    + change (isspace 45) with false. unfold scan_sign. change (45 =? 45) with true. cbv iota. rewrite scan_all by auto. f_equal. destruct (_ >? _) eqn:G; [replace (dec_value (c :: d) <=? 18446744073709551615) with false by lia|replace (dec_value (c :: d) <=? 18446744073709551615) with true by lia]; reflexivity.
Qed.

(** ** Lists of keys and addresses *)
Lemma strtok_len : forall d s t r, strtok d s = Some (t, r) -> (length r < length s)%nat.
Proof. intros. apply strtok_parts in H. tauto. Qed.
Lemma mandatory_iff : forall f s o ts, (length s < f)%nat -> tokens 44 s ts ->
  (mandatory_toks f s = Ok o <-> Forall (fun t => str_to_svckey t <> 65535) ts /\ o = concat (map (fun t => u16 (str_to_svckey t)) ts)).
Proof.
  induction f as [|f IH]; intros s o ts L T; [lia|]. pose proof (strtok_tokens _ _ _ T) as Q. cbn [mandatory_toks]. destruct ts as [|t ts].
  - rewrite Q. cbn [map concat]. split; [intros H; injection H as <-; auto|intros [_ ->]; auto].
  - destruct Q as (r & Q & T'). rewrite Q. pose proof (strtok_len _ _ _ _ Q) as L'. cbv zeta. change spr_invalid with 65535. destruct (str_to_svckey t =? 65535) eqn:K.
    + split; [discriminate|]. intros [F _]. inversion F; lia.
    + assert (KR : 0 <= str_to_svckey t < 65536). { destruct (svckey_range t) as [KR _]; [change spr_invalid with 65535; lia|lia]. } rewrite be16_octets_u16 by auto. cbn [map concat]. split.
      * intros H. apply bind_ok in H as (o' & H & E). apply IH with (ts := ts) in H as [F ->]; [|lia|auto]. assert (o = u16 (str_to_svckey t) ++ concat (map (fun t => u16 (str_to_svckey t)) ts)) by congruence. split; auto. constructor; auto. lia.
      * intros [F ->]. inversion F; subst. rewrite (proj2 (IH r _ ts ltac:(lia) T')) by auto. reflexivity.
Qed.
Lemma hint_iff : forall f v4 s o ts, (length s < f)%nat -> tokens 44 s ts ->
  (hint_toks f v4 s = Ok o <-> exists az, Forall2 (fun t a => (if v4 then inet_pton4 t else inet_pton6 t) = Some a) ts az /\ o = concat az).
Proof.
  induction f as [|f IH]; intros v4 s o ts L T; [lia|]. pose proof (strtok_tokens _ _ _ T) as Q. cbn [hint_toks]. destruct ts as [|t ts].
  - rewrite Q. split; [intros H; injection H as <-; exists []; auto|intros (az & F & ->); inversion F; auto].
  - destruct Q as (r & Q & T'). rewrite Q. pose proof (strtok_len _ _ _ _ Q) as L'. destruct (if v4 then inet_pton4 t else inet_pton6 t) as [a|] eqn:A.
    + split.
      * intros H. apply bind_ok in H as (o' & H & E). apply IH with (ts := ts) in H as (az & F & ->); [|lia|auto]. exists (a :: az). split; [constructor; auto|]. cbn [concat]. congruence.
      * intros (az & F & ->). inversion F as [|? a' ? az' E F']; subst. rewrite A in E. injection E as <-. rewrite (proj2 (IH v4 r (concat az') ts ltac:(lia) T')) by eauto. reflexivity.
    + split; [discriminate|]. intros (az & F & _). inversion F; congruence.
Qed.

(** ** Protocol ids *)
Lemma alpn_ids_cons : forall t c s l ls, alpn_octet t c -> alpn_ids s (l :: ls) -> alpn_ids (t ++ s) ((c :: l) :: ls).
Proof.
  intros t c s l ls H A. inversion A as [? ? I|t0 ? s0 ? I A']; subst.
  - apply as_last. constructor; auto.
  - rewrite app_assoc. apply as_more; auto. constructor; auto.
Qed.
Lemma alpn_ids_nonempty : forall s ls, alpn_ids s ls -> exists l r, ls = l :: r.
Proof. intros s ls [t l I|t l s' ls' I A]; eauto. Qed.
Lemma alpn_sound : forall n v out cur vl o m, (length v <= n)%nat -> 0 <= vl < 65536 -> alpn_parse v out cur (zlen cur mod 256) vl = Ok (o, m) ->
  exists l ls, alpn_ids v (l :: ls) /\ o = out ++ alpn_octets ((cur ++ l) :: ls) /\ m = (vl + alpn_length ((cur ++ l) :: ls)) mod 65536.
Proof.
  assert (M1 : forall cur (d : Z), (zlen cur mod 256 + 1) mod 256 = zlen (cur ++ [d]) mod 256) by (intros; rewrite zlen_app; change (zlen [d]) with 1; rewrite Z.add_mod_idemp_l by lia; reflexivity).
  assert (ST : forall n, (forall v out cur vl o m, (length v <= n)%nat -> 0 <= vl < 65536 -> alpn_parse v out cur (zlen cur mod 256) vl = Ok (o, m) ->
      exists l ls, alpn_ids v (l :: ls) /\ o = out ++ alpn_octets ((cur ++ l) :: ls) /\ m = (vl + alpn_length ((cur ++ l) :: ls)) mod 65536) ->
    forall v out cur vl o m d h, (length v <= n)%nat -> 0 <= vl < 65536 -> alpn_octet h d -> alpn_parse v out (cur ++ [d]) ((zlen cur mod 256 + 1) mod 256) vl = Ok (o, m) ->
      exists l ls, alpn_ids (h ++ v) (l :: ls) /\ o = out ++ alpn_octets ((cur ++ l) :: ls) /\ m = (vl + alpn_length ((cur ++ l) :: ls)) mod 65536).
  { intros n IH v out cur vl o m d h L V AO H. rewrite (M1 cur d) in H. apply IH in H as (l & ls & A & -> & ->); auto. exists (d :: l), ls. split; [apply alpn_ids_cons; auto|]. rewrite <- app_assoc. split; reflexivity. }
  induction n as [|n IH]; intros v out cur vl o m L V H.
  - destruct v; [|cbn in L; lia]. exists [], []. split; [apply as_last; constructor|]. rewrite app_nil_r. cbn [alpn_parse alpn_length] in *. unfold alpn_octets. cbn [map concat]. rewrite app_nil_r.
    destruct (zlen cur mod 256 =? 0) eqn:Z0; cbn [negb] in H.
    + assert (o = out ++ [0] ++ cur) by congruence. assert (m = vl) by congruence. subst. apply Z.eqb_eq in Z0. rewrite Z0, Z.add_0_r, Z.mod_small by lia. split; reflexivity.
    + assert (o = out ++ [zlen cur mod 256] ++ cur) by congruence. assert (m = (vl + zlen cur mod 256 + 1) mod 65536) by congruence. subst. split; [reflexivity|]. f_equal. lia.
  - destruct v as [|c v]; [apply (IH []); [cbn; lia|auto|exact H]|]. cbn [alpn_parse] in H. cbn [length] in L. destruct (c =? 92) eqn:B.
    + destruct v as [|d v]; [discriminate|]. cbn [length] in L. destruct (negb (d =? 92) && negb (d =? 44)) eqn:G; [discriminate|]. replace c with 92 by lia.
      change (92 :: d :: v) with ([92; d] ++ v). eapply ST; [exact IH|lia|auto| |exact H]. apply ao_escaped. lia.
    + destruct (c =? 44) eqn:K.
      * assert (V' : 0 <= (vl + zlen cur mod 256 + 1) mod 65536 < 65536) by (apply Z.mod_pos_bound; lia). change 0 with (zlen (@nil Z) mod 256) in H. apply IH in H as (l & ls & A & -> & ->); [|lia|exact V'].
        exists [], (l :: ls). replace c with 44 by lia. split; [apply (as_more [] []); [constructor|auto]|]. rewrite app_nil_r. cbn [app]. split.
        { unfold alpn_octets. cbn [map concat]. rewrite <- !app_assoc. reflexivity. }
        { rewrite Z.add_mod_idemp_l by lia. change (alpn_length (cur :: l :: ls)) with (zlen cur mod 256 + 1 + alpn_length (l :: ls)). f_equal. lia. }
      * change (c :: v) with ([c] ++ v). eapply ST; [exact IH|lia|auto| |exact H]. apply ao_plain; lia.
Qed.
Lemma alpn_complete_id : forall t l, alpn_id t l -> forall v out cur vl, alpn_parse (t ++ v) out cur (zlen cur mod 256) vl = alpn_parse v out (cur ++ l) (zlen (cur ++ l) mod 256) vl.
Proof.
  induction 1 as [|t c s l O I IH]; intros v out cur vl; [rewrite app_nil_r; reflexivity|].
  assert (M1 : (zlen cur mod 256 + 1) mod 256 = zlen (cur ++ [c]) mod 256) by (rewrite zlen_app; change (zlen [c]) with 1; rewrite Z.add_mod_idemp_l by lia; reflexivity).
  replace (cur ++ c :: l) with ((cur ++ [c]) ++ l) by (rewrite <- app_assoc; reflexivity). rewrite <- IH.
  inversion O as [c0 N N'|c0 H]; subst; cbn [app alpn_parse].
  - replace (c =? 92) with false by lia. replace (c =? 44) with false by lia. rewrite M1. reflexivity.
  - change (92 =? 92) with true. cbv iota. replace (negb (c =? 92) && negb (c =? 44)) with false by lia. rewrite M1. reflexivity.
Qed.
Lemma alpn_complete : forall v ls, alpn_ids v ls -> forall out vl, 0 <= vl < 65536 -> alpn_parse v out [] 0 vl = Ok (out ++ alpn_octets ls, (vl + alpn_length ls) mod 65536).
Proof.
  induction 1 as [t l I|t l s ls I A IH]; intros out vl V; change 0 with (zlen (@nil Z) mod 256) at 1.
  - rewrite <- (app_nil_r t), (alpn_complete_id t l I). cbn [alpn_parse app alpn_length]. unfold alpn_octets. cbn [map concat]. rewrite app_nil_r. destruct (zlen l mod 256 =? 0) eqn:Z0; cbn [negb].
    + apply Z.eqb_eq in Z0. rewrite Z0, Z.add_0_r, Z.mod_small by lia. reflexivity.
    + do 2 f_equal. f_equal. lia.
  - rewrite (alpn_complete_id t l I). cbn [alpn_parse app]. change (44 =? 92) with false. change (44 =? 44) with true. cbv iota.
    rewrite IH by (apply Z.mod_pos_bound; lia). destruct (alpn_ids_nonempty _ _ A) as (l2 & ls2 & ->). do 2 f_equal.
    + unfold alpn_octets. cbn [map concat]. rewrite <- !app_assoc. reflexivity.
    + rewrite Z.add_mod_idemp_l by lia. change (alpn_length (l :: l2 :: ls2)) with (zlen l mod 256 + 1 + alpn_length (l2 :: ls2)). f_equal. lia.
Qed.
Lemma alpn_iff : forall v o m, alpn_parse v [] [] 0 0 = Ok (o, m) <-> exists ls, alpn_ids v ls /\ o = alpn_octets ls /\ m = alpn_length ls mod 65536.
Proof.
  intros v o m. split.
  - intros H. change 0 with (zlen (@nil Z) mod 256) in H at 1. apply (alpn_sound (length v)) in H as (l & ls & A & -> & ->); [|lia|lia]. exists (l :: ls). auto.
  - intros (ls & A & -> & ->). rewrite (alpn_complete v ls A) by lia. reflexivity.
Qed.

(** ** One parameter *)
Lemma string_bytes : forall s l e, string_read s l e -> bytes_ok l.
Proof.
  assert (G : forall q t l, cs_octets q t l -> bytes_ok l).
  { induction 1 as [|t c s l C H IH]; [constructor|]. constructor; auto. unfold is_byte. destruct C as [c H1|c H1|a b c A B C H1]; unfold digit in *; lia. }
  intros s l e [t l' e' C|t l' e' C _ _]; eauto.
Qed.
Lemma up_bytes : forall v u, up_to_nul v u -> bytes_ok v -> bytes_ok u /\ (length u <= length v)%nat.
Proof. intros v u (F & [->|(r & ->)]) B; auto. apply bytes_ok_app in B as [B _]. rewrite app_length. split; auto. lia. Qed.
Lemma tokens_bytes : forall d s ts, tokens d s ts -> bytes_ok s -> Forall bytes_ok ts.
Proof.
  induction 1 as [|s ts H IH|t e ts N F E H IH]; intros B; [constructor| |].
  - apply bytes_ok_cons in B as [_ B]. auto.
  - apply bytes_ok_app in B as [B1 B2]. constructor; auto.
Qed.
Lemma zlen_u16s : forall A (f : A -> bytes) n ts, (forall t, In t ts -> zlen (f t) = n) -> zlen (concat (map f ts)) = n * zlen ts.
Proof.
  induction ts as [|t ts IH]; intros H; [cbn; lia|]. cbn [map concat]. rewrite zlen_app, IH, zlen_cons by (intros; apply H; right; auto). rewrite H by (left; auto). lia.
Qed.
Lemma zlen_addrs : forall n (P : bytes -> bytes -> Prop) ts az, (forall t a, P t a -> zlen a = n) -> Forall2 P ts az -> zlen (concat az) = n * zlen ts.
Proof. intros n P ts az H. induction 1 as [|t a ts az Q F IH]; [cbn; lia|]. cbn [concat]. rewrite zlen_app, IH, zlen_cons, (H _ _ Q). lia. Qed.

Lemma svcparam_iff : forall k v o, 0 <= k < 65535 -> bytes_ok v ->
  (str_to_svcparam k (Some v) = Ok o <-> exists w n, value_reads k v w n /\ o = u16 k ++ u16 n ++ w).
Proof.
  intros k v o K B. unfold str_to_svcparam. unfold spr_invalid, spr_nd_alpn, spr_mandatory, spr_port, spr_ech, spr_ipv4hint, spr_ipv6hint, spr_alpn. replace (k =? 65535) with false by lia. cbv zeta.
  rewrite (be16_octets_u16 k) by lia.
  assert (FIN : forall (r : outcome (bytes * Z)) (P : bytes -> Z -> Prop), (forall w n, r = Ok (w, n) <-> P w n) -> (forall w n, P w n -> 0 <= n < 65536) ->
    ((r0 <- r;; (let '(w, vl) := r0 in Ok (u16 k ++ be16_octets vl ++ w))) = Ok o <-> exists w n, P w n /\ o = u16 k ++ u16 n ++ w)).
  { intros r P HP HR. split.
    - intros H. apply bind_ok in H as ([w n] & E & H). apply HP in E. exists w, n. rewrite be16_octets_u16 in H by eauto. split; auto. congruence.
    - intros (w & n & HW & ->). rewrite (proj2 (HP w n) HW). cbn [bind]. rewrite be16_octets_u16 by eauto. reflexivity. }
  assert (MB : forall x, 0 <= x mod 65536 < 65536) by (intros; apply Z.mod_pos_bound; lia).
  pose proof (proj1 (cstr_iff v (cstr v)) eq_refl) as UP. pose proof (up_bytes _ _ UP B) as [BU LU].
  assert (UPF : forall u, up_to_nul v u -> u = cstr v) by (intros u U; apply cstr_iff in U; auto).
  assert (VR : forall w n, value_reads k v w n -> 0 <= n < 65536).
  { intros w n H. inversion H; subst; auto; try lia.
    match goal with U : up_to_nul v ?u, T : tokens 32 ?u _, C : b64_chars _ _, Q : octets_of _ _ |- _ =>
      pose proof (up_bytes _ _ U B) as [BB _]; pose proof (tokens_bytes _ _ _ T BB) as BT; inversion BT as [|? ? BT1 _]; subst;
      pose proof (base64_len_le _ _ BT1 (proj2 (base64_iff _ _ BT1) (ex_intro _ _ (conj C Q)))) end. pose proof (zlen_nonneg _ w). lia. }
  destruct (k =? 2) eqn:K2.
  { replace k with 2 in * by lia. split; [discriminate|]. intros (w & n & H & _). inversion H; subst. match goal with X : ~ In _ _ |- _ => exfalso; apply X; cbn; auto end. }
  destruct (tokens_exist 44 _ (cstr v) (le_n _)) as [ts T]. pose proof (tokens_none _ _ _ T) as TN.
  assert (TF : forall ts', tokens 44 (cstr v) ts' -> ts' = ts).
  { clear - T. assert (G : forall s ts, tokens 44 s ts -> forall ts', tokens 44 s ts' -> ts' = ts).
    { intros s ts0 T0. remember (length ts0) as n eqn:N. revert s ts0 T0 N. induction n as [|n IH]; intros s ts0 T0 N ts' T'; apply strtok_tokens in T0; apply strtok_tokens in T'.
      - destruct ts0; [|discriminate]. destruct ts'; auto. destruct T' as (r & E & _). congruence.
      - destruct ts0 as [|t ts0]; [discriminate|]. destruct T0 as (r & E & T0). destruct ts' as [|t' ts']; [congruence|]. destruct T' as (r' & E' & T'). rewrite E in E'. assert (t' = t) by congruence. assert (r' = r) by congruence. subst. f_equal. injection N as N. eapply IH; eauto. }
    intros ts' T'. eauto. }
  assert (LST : forall (r : outcome bytes) (Q : bytes -> Prop), (forall w, r = Ok w <-> Q w) ->
    (forall w n, (ts <> [] /\ Q w /\ n = zlen w mod 65536) <-> value_reads k v w n) ->
    (match strtok 44 (cstr v) with Some _ => r0 <- (o0 <- r;; Ok (o0, zlen o0 mod 65536));; (let '(w, vl) := r0 in Ok (u16 k ++ be16_octets vl ++ w)) | None => Err res_parse_error end = Ok o <->
     exists w n, value_reads k v w n /\ o = u16 k ++ u16 n ++ w)).
  { intros r Q HQ HV. destruct (strtok 44 (cstr v)) as [x|] eqn:SK.
    - apply FIN; auto. intros w n. rewrite <- HV. split.
      + intros H. apply bind_ok in H as (o0 & E & H). assert (o0 = w) by congruence. subst o0. split; [intros X; apply TN in X; discriminate|]. split; [apply HQ; auto|congruence].
      + intros (_ & HW & ->). rewrite (proj2 (HQ w) HW). reflexivity.
    - split; [discriminate|]. intros (w & n & H & _). apply HV in H as (N & _). exfalso. apply N, TN. auto. }
  destruct (k =? 0) eqn:K0.
  { assert (k = 0) by lia. apply (LST _ (fun w => Forall (fun t => str_to_svckey t <> 65535) ts /\ w = concat (map (fun t => u16 (str_to_svckey t)) ts))).
    - intros w. apply mandatory_iff; auto. lia.
    - assert (ZL : zlen (concat (map (fun t => u16 (str_to_svckey t)) ts)) = 2 * zlen ts) by (apply zlen_u16s; reflexivity).
      intros w n. subst k. split.
      + intros (N & (F & ->) & ->). rewrite ZL. eapply vr_mandatory; eauto.
      + intros H. inversion H as [v0 u ts' U T' N F| | | | | |? ? NI]; subst; [|exfalso; apply NI; cbn; auto]. apply UPF in U. subst u. apply TF in T'. subst ts'. rewrite ZL. auto. }
  destruct (k =? 3) eqn:K3.
  { assert (k = 3) by lia. subst k. destruct (strtok 32 (cstr v)) as [[t r]|] eqn:SK.
    - destruct (proj1 (tokens_first 32 (cstr v) t) (ex_intro _ _ SK)) as (ts32 & T32). assert (NT : t <> []).
      { clear - T32. remember (t :: ts32) as l eqn:E. revert E. induction T32 as [|s ts H IH|t' e ts N F E H IH]; intros Q; [discriminate|auto|]. congruence. }
      assert (PV : forall w n, value_reads 3 v w n <-> exists p, c_unsigned t p /\ p <= 65535 /\ w = u16 p /\ n = 2).
      { intros w n. split.
        - intros H. inversion H as [| |? u t' ts' p U T' C P| | | |? ? NI]; subst; [|exfalso; apply NI; cbn; auto 10]. apply UPF in U. subst u. apply strtok_tokens in T' as (r' & E' & _). assert (t' = t) by congruence. subst. eauto 10.
        - intros (p & C & P & -> & ->). eapply vr_port; eauto. }
      destruct (strtoul t) as [p rest] eqn:SU. destruct (negb _ || (p >? 65535)) eqn:G.
      + split; [discriminate|]. intros (w & n & H & _). apply PV in H as (p' & C & P & _). apply strtoul_iff in C; auto. rewrite C in SU. assert (rest = []) by congruence. assert (p = p') by congruence. subst. cbn [negb orb] in G. lia.
      + apply orb_false_iff in G as [G1 G2]. destruct rest; [|discriminate]. apply strtoul_iff in SU; auto. assert (P0 : 0 <= p).
        { destruct SU as (a & b & c & d & _ & _ & (_ & FD & ->) & X). change (2 ^ 64) with 18446744073709551616 in X. pose proof (dec_value_nonneg c FD). destruct X as [[_ ->]|[_ ->]]; [lia|]. destruct (_ <=? _); [apply Z.mod_pos_bound|]; lia. }
        rewrite be16_octets_u16 by lia. apply FIN; auto. intros w n. rewrite PV. split.
        * intros H. exists p. split; auto. split; [lia|]. split; congruence.
        * intros (p' & C & P & -> & ->). apply strtoul_iff in SU; auto. apply strtoul_iff in C; auto. congruence.
    - split; [discriminate|]. intros (w & n & H & _). inversion H as [| |? u t' ts' p U T' C P| | | |? ? NI]; subst; [|exfalso; apply NI; cbn; auto 10]. apply UPF in U. subst u. apply strtok_tokens in T' as (r' & E' & _). congruence. }
  destruct (k =? 5) eqn:K5.
  { assert (k = 5) by lia. subst k. destruct (strtok 32 (cstr v)) as [[t r]|] eqn:SK.
    - destruct (proj1 (tokens_first 32 (cstr v) t) (ex_intro _ _ SK)) as (ts32 & T32). pose proof (tokens_bytes _ _ _ T32 BU) as BT. apply Forall_inv in BT.
      assert (PV : forall w n, value_reads 5 v w n <-> zlen t <= 255 /\ base64_str_to_bytes t = Ok w /\ n = zlen w).
      { intros w n. split.
        - intros H. inversion H as [| | | |? u t' ts' vs l U T' L C Q| |? ? NI]; subst; [|exfalso; apply NI; cbn; auto 10]. apply UPF in U. subst u. apply strtok_tokens in T' as (r' & E' & _). assert (t' = t) by congruence. subst. split; auto. split; auto. apply base64_iff; eauto.
        - intros (L & C & ->). apply base64_iff in C as (vs & C & Q); auto. eapply vr_ech; eauto. }
      destruct (zlen t >? 255) eqn:G.
      + split; [discriminate|]. intros (w & n & H & _). apply PV in H as (L & _). lia.
      + apply FIN; auto. intros w n. rewrite PV. split.
        * intros H. apply bind_ok in H as (w' & H1 & H). assert (w' = w) by congruence. subst w'. split; [lia|]. split; auto. pose proof (base64_len_le _ _ BT H1). pose proof (zlen_nonneg _ w). rewrite Z.mod_small in H by lia. congruence.
        * intros (L & H1 & ->). pose proof (base64_len_le _ _ BT H1). pose proof (zlen_nonneg _ w). rewrite H1. cbn [bind]. rewrite Z.mod_small by lia. reflexivity.
    - split; [discriminate|]. intros (w & n & H & _). inversion H as [| | | |? u t' ts' vs l U T' L C Q| |? ? NI]; subst; [|exfalso; apply NI; cbn; auto 10]. apply UPF in U. subst u. apply strtok_tokens in T' as (r' & E' & _). congruence. }
  destruct (k =? 4) eqn:K4.
  { assert (k = 4) by lia. apply (LST _ (fun w => exists az, Forall2 (fun t a => (if true then inet_pton4 t else inet_pton6 t) = Some a) ts az /\ w = concat az)).
    - intros w. apply hint_iff; auto. lia.
    - assert (ZL : forall az, Forall2 (fun t a => inet_pton4 t = Some a) ts az -> zlen (concat az) = 4 * zlen ts) by (intros az; apply zlen_addrs; intros t a E; apply inet_pton4_out in E; tauto).
      intros w n. subst k. split.
      + intros (N & (az & F & ->) & ->). rewrite ZL by auto. eapply vr_ipv4hint; eauto.
      + intros H. inversion H as [| | |v0 u ts' az U T' N F| | |? ? NI]; subst; [|exfalso; apply NI; cbn; auto 10]. apply UPF in U. subst u. apply TF in T'. subst ts'. rewrite (ZL az) by auto. eauto. }
  destruct (k =? 6) eqn:K6.
  { assert (k = 6) by lia. apply (LST _ (fun w => exists az, Forall2 (fun t a => (if false then inet_pton4 t else inet_pton6 t) = Some a) ts az /\ w = concat az)).
    - intros w. apply hint_iff; auto. lia.
    - assert (ZL : forall az, Forall2 (fun t a => inet_pton6 t = Some a) ts az -> zlen (concat az) = 16 * zlen ts) by (intros az; apply zlen_addrs; intros t a E; apply inet_pton6_out in E; tauto).
      intros w n. subst k. split.
      + intros (N & (az & F & ->) & ->). rewrite ZL by auto. eapply vr_ipv6hint; eauto.
      + intros H. inversion H as [| | | | |v0 u ts' az U T' N F|? ? NI]; subst; [|exfalso; apply NI; cbn; auto 10]. apply UPF in U. subst u. apply TF in T'. subst ts'. rewrite (ZL az) by auto. eauto. }
  destruct (k =? 1) eqn:K1.
  { assert (k = 1) by lia. subst k. apply FIN; auto. intros w n. rewrite alpn_iff. split.
    - intros (ls & A & -> & ->). apply vr_alpn. auto.
    - intros H. inversion H as [|v0 ls A| | | | |? ? NI]; subst; [|exfalso; apply NI; cbn; auto 10]. eauto. }
  apply FIN; auto. intros w n. split.
  - intros H. assert (w = v) by congruence. assert (n = zlen v mod 65536) by congruence. subst. apply vr_other. cbn. lia.
  - intros H. inversion H; subst; try lia. reflexivity.
Qed.

(** ** All parameters *)
Lemma key_split : forall k e, Forall (fun c => c <> 61 /\ c <> 32) k -> (e = [] \/ exists c r, e = c :: r /\ (c = 61 \/ c = 32)) ->
  split_at (fun c => (c =? 61) || (c =? 32)) (k ++ e) = (k, e).
Proof.
  intros k e F H. apply split_at_app; [eapply Forall_impl; [|exact F]; cbn beta; intros; lia|]. destruct H as [->|(c & r & -> & X)]; [left; auto|right; exists c, r; split; auto; lia].
Qed.
Lemma svckey_nil : str_to_svckey [] = 65535.
Proof. vm_compute. reflexivity. Qed.
Lemma params_iff : forall f s o, (length s < f)%nat -> (svcparams_parse f s = Ok o <-> service_params s o).
Proof.
  induction f as [|f IH]; intros s o L; [lia|]. destruct s as [|c r].
  { cbn [svcparams_parse]. split; [intros H; injection H as <-; constructor|]. intros H. inversion H as [|? ? ?|k e ? F E K P Q|k s0 v w n e ? F K S V P Q]; subst; auto.
    - destruct k; [rewrite svckey_nil in K; lia|discriminate].
    - destruct k; discriminate. }
  cbn [length] in L. cbn [svcparams_parse]. destruct (c =? 32) eqn:C.
  { replace c with 32 by lia. rewrite IH by lia. split; [apply pr_blank|]. intros H. inversion H as [|? ? ?|k e ? F E K P Q|k s0 v w n e ? F K S V P Q]; subst; auto.
    - destruct k as [|x k]; [rewrite svckey_nil in K; lia|]. injection Q as -> Q. inversion F; lia.
    - destruct k as [|x k]; [rewrite svckey_nil in K; lia|]. injection Q as -> Q. inversion F; lia. }
  destruct (split_at _ (c :: r)) as [ks val] eqn:SP. cbv zeta. change spr_invalid with 65535. change spr_nd_alpn with 2.
  pose proof SP as SP'. apply split_at_eq in SP' as (EQ & HV & FK). assert (FK' : Forall (fun x => x <> 61 /\ x <> 32) ks) by (eapply Forall_impl; [|exact FK]; cbn beta; intros; lia).
  assert (LV : ks <> [] -> (length val < S (length r))%nat). { intros N. apply (f_equal (@length Z)) in EQ. rewrite app_length in EQ. cbn [length] in EQ. destruct ks; [congruence|]. cbn [length] in EQ. lia. }
  (* the derivation determines the key *)
  assert (INV : service_params (c :: r) o -> (str_to_svckey ks = 2 /\ (val = [] \/ exists x, val = 32 :: x) /\ exists o', service_params val o' /\ o = u16 2 ++ u16 0 ++ o') \/
    (str_to_svckey ks <> 65535 /\ exists s v w n e o', val = 61 :: s /\ string_read s v e /\ value_reads (str_to_svckey ks) v w n /\ service_params e o' /\ o = u16 (str_to_svckey ks) ++ u16 n ++ w ++ o')).
  { intros H. inversion H as [|? ? ?|k e o' F E K P Q|k s0 v w n e o' F K S V P Q]; subst; [lia| |].
    - left. rewrite <- Q in SP. rewrite key_split in SP; auto. 2:{ destruct E as [->|(x & ->)]; [auto|right; eauto]. } assert (k = ks) by congruence. assert (e = val) by congruence. subst. eauto 10.
    - right. rewrite <- Q in SP. rewrite key_split in SP; auto. 2:{ right. eauto. } assert (k = ks) by congruence. assert (val = 61 :: s0) by congruence. subst. split; auto. eauto 15. }
  destruct (str_to_svckey ks =? 65535) eqn:KI.
  { split; [discriminate|]. intros H. apply INV in H as [(K & _)|(K & _)]; lia. }
  assert (NK : ks <> []) by (intros ->; rewrite svckey_nil in KI; lia). specialize (LV NK).
  assert (KR : 0 <= str_to_svckey ks < 65535). { destruct (svckey_range ks) as [KR _]; [change spr_invalid with 65535; lia|lia]. }
  assert (BARE : (val = [] \/ exists x, val = 32 :: x) -> ((if negb (str_to_svckey ks =? 2) then Err res_parse_error else o0 <- str_to_svcparam (str_to_svckey ks) None;; (o' <- svcparams_parse f val;; Ok (o0 ++ o'))) = Ok o <-> service_params (c :: r) o)).
  { intros HE. destruct (str_to_svckey ks =? 2) eqn:K2; cbn [negb].
    - replace (str_to_svckey ks) with 2 by lia. split.
      + intros H. apply bind_ok in H as (o0 & H0 & H). apply bind_ok in H as (o' & H1 & H). apply IH in H1; [|lia]. assert (Q0 : str_to_svcparam 2 None = Ok (u16 2 ++ u16 0)) by (vm_compute; reflexivity). assert (o0 = u16 2 ++ u16 0) by congruence. subst o0. assert (o = u16 2 ++ u16 0 ++ o') by (rewrite app_assoc; congruence). subst o. rewrite EQ. apply pr_flag; auto. lia.
      + intros H. apply INV in H as [(_ & _ & o' & P & ->)|(_ & s & v & w & n & e & o' & -> & _)]; [|destruct HE as [HE|(x & HE)]; discriminate].
        apply IH in P; [|lia]. rewrite P. reflexivity.
    - split; [discriminate|]. intros H. apply INV in H as [(K & _)|(_ & s & v & w & n & e & o' & -> & _)]; [lia|]. destruct HE as [HE|(x & HE)]; discriminate. }
  destruct val as [|x v]; [apply BARE; auto|]. destruct (x =? 61) eqn:X61.
  - replace x with 61 in * by lia. cbn [length] in LV. destruct (from_str_string v) as [[l e]|] eqn:FS.
    + apply string_iff in FS. pose proof (string_bytes _ _ _ FS) as BL. pose proof (string_len _ _ _ FS) as LE. split.
      * intros H. apply bind_ok in H as (o0 & H0 & H). apply bind_ok in H as (o' & H1 & H). apply IH in H1; [|lia]. apply svcparam_iff in H0 as (w & n & V & ->); auto.
        assert (o = u16 (str_to_svckey ks) ++ u16 n ++ w ++ o') by (rewrite <- !app_assoc in H; congruence). subst o. rewrite EQ. eapply pr_value; eauto. lia.
      * intros H. apply INV in H as [(_ & [E|(y & E)] & _)|(_ & s & v' & w & n & e' & o' & E & S & V & P & ->)]; try discriminate. injection E as <-.
        apply string_iff in S. apply string_iff in FS. rewrite FS in S. assert (v' = l) by congruence. assert (e' = e) by congruence. subst.
        rewrite (proj2 (svcparam_iff _ l _ KR BL)) by eauto. cbn [bind]. apply IH in P; [|lia]. rewrite P. cbn [bind]. rewrite <- !app_assoc. reflexivity.
    + split; [discriminate|]. intros H. apply INV in H as [(_ & [E|(y & E)] & _)|(_ & s & v' & w & n & e' & o' & E & S & V & P & ->)]; try discriminate. injection E as <-. apply string_iff in S. congruence.
  - apply BARE. right. exists v. f_equal. destruct HV as [HV|(y & z & HV & Y)]; [discriminate|]. injection HV as -> ->. lia.
Qed.
