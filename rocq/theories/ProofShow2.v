(** ProofShow2.v: the text of EDNS options and of every field, well-formed or not, is what is printed. *)
From Coq Require Strings.String.
From Verif Require Import Base Lib SpecName SpecMessage SpecEncode SpecFormat SpecTables SpecText SpecMsgText SpecPrint Libc ModelName ModelFormat ModelTables ModelDescr ModelToStr ModelParse
  ProofUnpack ProofCopy ProofNameStr ProofNameOps ProofFormat ProofInet ProofInet6 ProofB64 ProofB32 ProofTables ProofRdata ProofPrint ProofPrint2 ProofField ProofVisible ProofEncode ProofRdataText
  ProofFromStr ProofBitmap ProofSvc ProofRoundTrip ProofSafe ProofOptions ProofShow1.

(** ** EDNS options *)
Lemma option_head_is : forall c h, 0 <= c < 65536 -> option_head c h -> h = ednsoptcode_text c.
Proof.
  intros c h R [[-> ->]|[[-> ->]|(N8 & N15 & d & D & ->)]]; [reflexivity|reflexivity|]. unfold ednsoptcode_text. replace (c =? 8) with false by lia. replace (c =? 15) with false by lia.
  rewrite (decimal_fmt_u c d) by (auto; lia). reflexivity.
Qed.
Lemma generic_hex_is : forall l h, generic_hex l h -> h = concat (map (fun b => hex2 false b ++ [32]) l).
Proof. intros l h H. induction H as [|b h l s H1 H2 IH]; [reflexivity|]. apply hex_octet_unique in H1 as [_ ->]. cbn [map concat]. rewrite IH, <- app_assoc. reflexivity. Qed.
Lemma purpose_fun : forall i p q, ede_purpose_text i p -> ede_purpose_text i q -> p = q.
Proof.
  intros i p q [(m & I & ->)|(N & ->)] [(m' & J & ->)|(N' & ->)]; auto.
  - f_equal. f_equal. f_equal. cbn in I, J.
    repeat (destruct I as [E|I]; [injection E as <- <-; repeat (destruct J as [E|J]; [injection E; intros; subst; first [reflexivity|lia]|]); contradiction|]). contradiction.
  - exfalso. apply N'. apply in_map_iff. exists (i, m). auto.
  - exfalso. apply N. apply in_map_iff. exists (i, m'). auto.
Qed.
Lemma option_text_fun : forall o s s', bytes_ok (snd o) -> option_text o s -> option_text o s' -> s = s'.
Proof.
  intros o s s' B H H'. destruct H as [source scope a t d e La T D E|source scope a t d e La T D E|info msg d p R D P|code data d h R N8 N15 D G]; cbn [snd] in B.
  - inversion H' as [? ? ? t' d' e' La' T' D' E' Q|? ? ? t' d' e' La' T' D' E' Q| |? ? ? ? R' N8' N15' D' G' Q]; subst; [|congruence].
    rewrite (decimal_unique _ _ _ D D'), (decimal_unique _ _ _ E E'). do 2 f_equal.
    assert (BA : bytes_ok (zero_pad 4 a)). { unfold zero_pad. apply bytes_ok_app. split; [apply bytes_ok_app in B; tauto|]. apply Forall_forall. intros x X. apply repeat_spec in X. subst. unfold is_byte. lia. }
    apply (ipv4_is _ _ BA) in T as [_ ->]. apply (ipv4_is _ _ BA) in T' as [_ ->]. reflexivity.
  - inversion H' as [? ? ? t' d' e' La' T' D' E' Q|? ? ? t' d' e' La' T' D' E' Q| |? ? ? ? R' N8' N15' D' G' Q]; subst; [|congruence].
    rewrite (decimal_unique _ _ _ D D'), (decimal_unique _ _ _ E E'). do 2 f_equal.
    assert (BA : bytes_ok (zero_pad 16 a)). { unfold zero_pad. apply bytes_ok_app. split; [apply bytes_ok_app in B; tauto|]. apply Forall_forall. intros x X. apply repeat_spec in X. subst. unfold is_byte. lia. }
    eapply ipv6_unique; eauto.
  - inversion H' as [| |info' msg' d' p' R' D' P' Q|? ? ? ? R' N8' N15' D' G' Q]; subst; [|congruence].
    assert (info' = info). { pose proof (Z.div_mod info 256 ltac:(lia)). pose proof (Z.div_mod info' 256 ltac:(lia)). lia. } subst info'. rewrite (decimal_unique _ _ _ D D'), (purpose_fun _ _ _ P P'). reflexivity.
  - inversion H' as [| | |? ? d' h' R' N8' N15' D' G' Q]; subst; try congruence. rewrite (decimal_unique _ _ _ D D'). rewrite (generic_hex_is _ _ G), (generic_hex_is _ _ G'). reflexivity.
Qed.
Lemma option_bad_text : forall c src n t r, ednsoptdata_text c src n = Ok (t, Some r) -> t = [32] /\ r = res_parse_error.
Proof.
  intros c src n t r H. unfold ednsoptdata_text in H. destruct (c =? 8).
  - destruct (n <? 2); [injection H as <- <-; auto|]. apply bind_ok in H as (f & _ & H). destruct (n - 2 <? 1); [injection H as <- <-; auto|]. apply bind_ok in H as (x & _ & H). destruct (n - 2 - 1 <? 1); [injection H as <- <-; auto|].
    apply bind_ok in H as (y & _ & H). apply bind_ok in H as (o & _ & H). destruct o; [discriminate|injection H as <- <-; auto].
  - destruct (c =? 15).
    + destruct (n <? 2); [injection H as <- <-; auto|]. apply bind_ok in H as (f & _ & H). apply bind_ok in H as (x & _ & H). apply bind_ok in H as (y & _ & H). discriminate.
    + apply bind_ok in H as (f & _ & H). apply bind_ok in H as (x & _ & H). discriminate.
Qed.
Lemma option_data : forall c v rest s, bytes_ok v -> zlen v < 65536 -> 0 <= c < 65536 -> option_text (c, v) s ->
  exists t, ednsoptdata_text c (v ++ rest) (zlen v) = Ok (t, None) /\ s = ednsoptcode_text c ++ t.
Proof.
  intros c v rest s B L C O. destruct (option_print c v rest B L C) as [(t & E & T)|(t & _ & N)]; [|exfalso; eapply N; eauto]. exists t. split; [auto|]. eapply option_text_fun; [|exact O|exact T]. exact B.
Qed.
Lemma ednsopts_step : forall f c v l rest, 0 <= c < 65536 -> zlen v < 65536 -> ednsopts_text (S f) ((param (c, v) ++ l) ++ rest) (zlen (param (c, v) ++ l)) =
  ('(t, r) <- ednsoptdata_text c (v ++ l ++ rest) (zlen v) ;;
   emit (ednsoptcode_text c ++ t) (after_res r (emit (if zlen l >? 0 then [10] else []) (ednsopts_text f (l ++ rest) (zlen l))))).
Proof.
  intros f c v l rest C V. assert (ES : (param (c, v) ++ l) ++ rest = u16 c ++ u16 (zlen v) ++ v ++ l ++ rest). { unfold param. cbn [fst snd]. repeat rewrite <- app_assoc. reflexivity. }
  rewrite ES. rewrite zlen_app, zlen_param. cbn [snd]. pose proof (zlen_nonneg _ v). pose proof (zlen_nonneg _ l).
  cbn [ednsopts_text]. replace (4 + zlen v + zlen l >? 0) with true by lia. replace (4 + zlen v + zlen l <? 2) with false by lia.
  rewrite (take_rd_app (u16 c)) by reflexivity. rewrite (adv_app (u16 c)) by reflexivity. cbn [bind].
  rewrite (take_rd_app (u16 (zlen v))) by reflexivity. rewrite (adv_app (u16 (zlen v))) by reflexivity.
  unfold u16. cbn [nth bind]. rewrite !ProofRdata.be16_u16.
  replace (4 + zlen v + zlen l - 2 <? 2) with false by lia. replace (4 + zlen v + zlen l - 2 - 2 <? zlen v) with false by lia.
  rewrite adv_app by reflexivity. replace (4 + zlen v + zlen l - 2 - 2 - zlen v) with (zlen l) by lia. reflexivity.
Qed.
Lemma param_value : forall c v, bytes_ok (param (c, v)) -> bytes_ok v.
Proof. intros c v B. unfold param in B. rewrite !bytes_ok_app in B. tauto. Qed.
Lemma options_shown_print : forall l s n, options_shown l s n -> forall f rest, bytes_ok l -> zlen l < 65536 -> (length l < f)%nat ->
  exists g, ednsopts_text f (l ++ rest) (zlen l) = Ok (s, g) /\ exits n g.
Proof.
  intros l s n H. induction H as [|[c v] s V O|[c v] s l t n V O NL PS IH|b|c l h C Z KH|c n l h C N Z KH|c v h l C V KH NO]; intros f rest B L F; (destruct f as [|f]; [lia|]).
  - exists (TNext rest 0). split; [reflexivity|]. apply (exits_go []). congruence.
  - cbn [snd] in V. pose proof (option_code _ _ _ O) as C. rewrite <- (app_nil_r (param (c, v))). rewrite ednsopts_step by auto. cbn [app].
    pose proof (param_value _ _ B) as Bv. destruct (option_data c v rest s Bv V C O) as (t & -> & ->). cbn [bind after_res]. change (zlen (@nil Z) >? 0) with false. cbv iota.
    destruct f as [|f]; [exfalso; unfold param, u16 in F; cbn [app length] in F; lia|]. cbn [ednsopts_text]. change (zlen (@nil Z) >? 0) with false. cbv iota. unfold emit. cbn [bind app]. rewrite app_nil_r.
    exists (TNext rest 0). split; [reflexivity|]. apply (exits_go []). congruence.
  - cbn [snd] in V. pose proof (option_code _ _ _ O) as C. rewrite ednsopts_step by auto. apply bytes_ok_app in B as [B1 B2].
    pose proof (param_value _ _ B1) as Bv. destruct (option_data c v (l ++ rest) s Bv V C O) as (t' & -> & ->). cbn [bind after_res].
    assert (0 < zlen l). { destruct l; [congruence|]. rewrite zlen_cons. pose proof (zlen_nonneg _ l). lia. } replace (zlen l >? 0) with true by lia.
    rewrite zlen_app in L. pose proof (zlen_nonneg _ (param (c, v))). destruct (IH f rest B2 ltac:(lia)) as (g & -> & X). { rewrite app_length in F. unfold param, u16 in F. cbn [app length] in F. lia. }
    unfold emit. cbn [bind]. exists g. split; [reflexivity|auto].
  - exists TErr. split; [reflexivity|apply exits_short].
  - exists TErr. split; [|apply exits_short]. rewrite zlen_app. rewrite zlen_u16. pose proof (zlen_nonneg _ l). rewrite <- app_assoc. cbn [ednsopts_text]. replace (2 + zlen l >? 0) with true by lia. replace (2 + zlen l <? 2) with false by lia.
    rewrite (take_rd_app (u16 c)) by reflexivity. cbn [bind]. unfold u16. cbn [nth]. rewrite !ProofRdata.be16_u16. replace (2 + zlen l - 2 <? 2) with true by lia. rewrite (option_head_is c h C KH). reflexivity.
  - exists TErr. split; [|apply exits_short]. rewrite !zlen_app. rewrite !zlen_u16. pose proof (zlen_nonneg _ l). rewrite <- !app_assoc. cbn [ednsopts_text]. replace (2 + (2 + zlen l) >? 0) with true by lia. replace (2 + (2 + zlen l) <? 2) with false by lia.
    rewrite (take_rd_app (u16 c)) by reflexivity. rewrite (adv_app (u16 c)) by reflexivity. cbn [bind]. rewrite (take_rd_app (u16 n)) by reflexivity.
    unfold u16. cbn [nth bind]. rewrite !ProofRdata.be16_u16. replace (2 + (2 + zlen l) - 2 <? 2) with false by lia.
    replace (2 + (2 + zlen l) - 2 - 2 <? n) with true by lia. rewrite (option_head_is c h C KH). reflexivity.
  - rewrite ednsopts_step by auto. apply bytes_ok_app in B as [B1 B2]. pose proof (param_value _ _ B1) as Bv.
    destruct (option_print c v (l ++ rest) Bv V C) as [(t & _ & O)|(t & E & _)]; [exfalso; eapply NO; eauto|]. rewrite E. destruct (option_bad_text _ _ _ _ _ E) as [-> _]. cbn [bind after_res]. unfold emit. cbn [bind].
    exists (TRes res_parse_error). split; [|apply exits_value]. rewrite (option_head_is c h C KH), app_nil_r. reflexivity.
Qed.

(** ** Bit maps with windows of any length *)
Lemma bits_text_any : forall w a lo, bits_text 8 w a lo = sepd (map tname (map (fun x => Z.lor (256 * w) x) (octet_types lo a))).
Proof.
  intros w a lo. replace (256 * w) with (Z.shiftl w 8) by (rewrite Z.shiftl_mul_pow2 by lia; change (2 ^ 8) with 256; lia).
  unfold octet_types. cbn [bits_text filter]. rewrite !land_bit by lia.
  change (Z.of_nat 7) with 7. change (Z.of_nat 6) with 6. change (Z.of_nat 5) with 5. change (Z.of_nat 4) with 4.
  change (Z.of_nat 3) with 3. change (Z.of_nat 2) with 2. change (Z.of_nat 1) with 1. change (Z.of_nat 0) with 0.
  rewrite !rrtype_text_tname.
  change (7 - 0) with 7. change (7 - 1) with 6. change (7 - 2) with 5. change (7 - 3) with 4. change (7 - 4) with 3.
  change (7 - 5) with 2. change (7 - 6) with 1. change (7 - 7) with 0.
  replace (lo + 1 + 1 + 1 + 1 + 1 + 1 + 1) with (lo + 7) by lia. replace (lo + 1 + 1 + 1 + 1 + 1 + 1) with (lo + 6) by lia. replace (lo + 1 + 1 + 1 + 1 + 1) with (lo + 5) by lia.
  replace (lo + 1 + 1 + 1 + 1) with (lo + 4) by lia. replace (lo + 1 + 1 + 1) with (lo + 3) by lia. replace (lo + 1 + 1) with (lo + 2) by lia.
  assert (S : forall b v l, sepd (map tname (map (fun x => Z.lor (Z.shiftl w 8) x) (map (fun j => lo + j) (if b : bool then v :: l else l)))) =
     (if b then tname (Z.lor (Z.shiftl w 8) (lo + v)) ++ [32] else []) ++ sepd (map tname (map (fun x => Z.lor (Z.shiftl w 8) x) (map (fun j => lo + j) l)))) by (intros [] v l; reflexivity).
  rewrite !S. cbn [map]. change (sepd []) with (@nil Z). rewrite Z.add_0_r. reflexivity.
Qed.
Lemma bitmap_text_any : forall l w lo, bitmap_text l w lo = sepd (map tname (map (fun x => Z.lor (256 * w) x) (map_types lo l))).
Proof. induction l as [|a l IH]; intros w lo; [reflexivity|]. cbn [bitmap_text map_types]. rewrite !map_app, sepd_app, bits_text_any, IH. reflexivity. Qed.
Lemma map_types_range : forall l base, 0 <= base -> Forall (fun x => base <= x < base + 8 * zlen l) (map_types base l).
Proof.
  induction l as [|a l IH]; intros base H; [constructor|]. rewrite zlen_cons. pose proof (zlen_nonneg _ l). cbn [map_types]. apply Forall_app. split.
  - unfold octet_types. apply Forall_forall. intros x X. apply in_map_iff in X as (j & <- & J). apply filter_In in J as [J _]. cbn [In] in J. lia.
  - eapply Forall_impl; [|apply IH; lia]. cbn beta. lia.
Qed.
Lemma numbers_range : forall ws, Forall (fun w => is_byte (fst w) /\ zlen (snd w) <= 255) ws -> Forall (fun n => 0 <= n < 65536) (bitmap_numbers ws).
Proof.
  induction ws as [|[w l] ws IH]; intros H; [constructor|]. inversion H as [|? ? [H1 H2] H3]; subst. cbn [fst snd] in *. unfold bitmap_numbers. cbn [map concat]. apply Forall_app. split; [|apply IH; auto].
  unfold window_numbers. cbn [fst snd]. apply Forall_forall. intros x X. apply in_map_iff in X as (y & <- & Y). pose proof (map_types_range l 0 ltac:(lia)) as R. rewrite Forall_forall in R. apply R in Y. unfold is_byte in H1.
  split; [apply Z.lor_nonneg; lia|]. change 65536 with (2 ^ 16). apply lor_bound; change (2 ^ 16) with 65536; lia.
Qed.
Lemma windows_head : forall ws, bytes_ok (concat (map window ws)) -> Forall (fun w => zlen (snd w) <= 255) ws -> Forall (fun w => is_byte (fst w) /\ zlen (snd w) <= 255) ws.
Proof. induction ws as [|[w l] ws IH]; intros B H; constructor; inversion H; subst; cbn [map concat] in B; apply bytes_ok_app in B as [B1 B2]; auto. split; [|auto]. unfold window in B1. cbn [fst snd] in *. apply bytes_ok_cons in B1. tauto. Qed.
Lemma windows_any : forall ws f tail n, (length ws <= f)%nat -> zlen (concat (map window ws)) <= n ->
  windows_text (S f) (concat (map window ws) ++ tail) n =
  emit (sepd (map tname (bitmap_numbers ws))) (windows_text (S (f - length ws)) tail (n - zlen (concat (map window ws)))).
Proof.
  induction ws as [|[w l] ws IH]; intros f tail n F N.
  - cbn [map concat app length]. rewrite Nat.sub_0_r. change (zlen (@nil Z)) with 0. rewrite Z.sub_0_r. change (sepd (map tname (bitmap_numbers []))) with (@nil Z). unfold emit. destruct (windows_text (S f) tail n) as [[o g]| | |]; reflexivity.
  - destruct f as [|f]; [cbn in F; lia|]. cbn [map concat] in N |- *. rewrite zlen_app in *. unfold window in *. cbn [fst snd] in *. rewrite !zlen_cons in *.
    set (R := zlen (concat (map (fun w0 => fst w0 :: zlen (snd w0) :: snd w0) ws))) in *. assert (0 <= R) by apply zlen_nonneg. pose proof (zlen_nonneg _ l).
    match goal with |- _ = emit _ ?x => set (W := x) end. remember (S f) as sf. cbn [windows_text]. subst sf. replace (n >=? 2) with true by lia. cbn [app]. rewrite <- app_assoc. change (w :: zlen l :: l ++ ?x) with ([w; zlen l] ++ l ++ x).
    rewrite (take_rd_app [w; zlen l]) by reflexivity. cbn [bind nth]. rewrite (adv_app [w; zlen l]) by reflexivity.
    replace (n - 2 <? zlen l) with false by lia. rewrite take_rd_app by reflexivity. cbn [bind]. rewrite adv_app by reflexivity.
    rewrite (IH f tail (n - 2 - zlen l)) by (fold R; cbn in F; lia). fold R. replace (n - 2 - zlen l - R) with (n - (zlen l + 1 + 1 + R)) by lia. match goal with |- emit _ (emit _ ?x) = _ => change x with W end. clearbody W.
    unfold bitmap_numbers. cbn [map concat]. rewrite map_app, sepd_app, bitmap_text_any. unfold window_numbers at 2. cbn [fst snd]. unfold emit.
    destruct W as [[o g]| | |]; cbn [bind]; rewrite ?app_assoc; reflexivity.
Qed.

(** ** Character-strings up to the end *)
Lemma strings_cut : forall ss f l rest, Forall (fun s => zlen s <= 255) ss -> bytes_ok (concat (map char_string ss) ++ l) -> l <> [] -> no_head (field_octets FString) l -> (length ss < f)%nat ->
  strings_text f ((concat (map char_string ss) ++ l) ++ rest) (zlen (concat (map char_string ss) ++ l)) = Ok (sepd (map quoted ss), TErr).
Proof.
  induction ss as [|s ss IH]; intros f l rest V B N H F; (destruct f as [|f]; [cbn in F; lia|]).
  - cbn [map concat app] in *. destruct (no_string l B N H) as (c & r & -> & Bc & L). cbn [app strings_text]. rewrite zlen_cons. pose proof (zlen_nonneg _ r).
    replace (zlen r + 1 >? 0) with true by lia. cbn [hd_rd bind]. replace (zlen r + 1 - 1 <? c) with true by lia. reflexivity.
  - inversion V; subst. cbn [map concat] in B |- *. rewrite <- app_assoc in B. apply bytes_ok_app in B as [B1 B2]. unfold char_string in B1. apply bytes_ok_cons in B1 as [_ B1].
    assert (ES : ((char_string s ++ concat (map char_string ss)) ++ l) ++ rest = [zlen s] ++ s ++ (concat (map char_string ss) ++ l) ++ rest).
    { unfold char_string at 1. cbn [app]. rewrite <- !app_assoc. reflexivity. }
    rewrite ES. rewrite <- (app_assoc (char_string s)), (zlen_app _ (char_string s)), zlen_char_string. pose proof (zlen_nonneg _ s). set (R := zlen (concat (map char_string ss) ++ l)) in *. assert (0 <= R) by apply zlen_nonneg.
    cbn [strings_text]. replace (zlen s + 1 + R >? 0) with true by lia.
    rewrite (adv_app [zlen s]) by reflexivity. cbn [app hd_rd bind]. replace (zlen s + 1 + R - 1 <? zlen s) with false by lia.
    rewrite to_str_string_spec by auto. cbn [bind]. rewrite adv_app by reflexivity. replace (zlen s + 1 + R - 1 - zlen s) with R by lia.
    unfold R. rewrite IH by (auto; cbn in F; lia). unfold emit. cbn [bind map]. reflexivity.
Qed.
