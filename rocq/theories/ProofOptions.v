(** ProofOptions.v: the text of EDNS options. *)
From Coq Require Strings.String.
From Verif Require Import Base Lib SpecName SpecMessage SpecEncode SpecParsed SpecFormat SpecTables SpecText SpecMsgText Libc ModelName ModelFormat ModelTables ModelDescr ModelToStr ModelParse
  ProofUnpack ProofCopy ProofNameStr ProofNameOps ProofFormat ProofInet ProofInet6 ProofB64 ProofB32 ProofTables ProofRdata ProofPrint ProofPrint2 ProofField ProofVisible ProofEncode ProofRdataText
  ProofFromStr ProofBitmap ProofSvc ProofRoundTrip ProofSafe ProofSafe2.

Lemma print_printable_shown : forall l rest, print_printable (length l) (l ++ rest) = Ok (shown l).
Proof. induction l as [|c l IH]; intros rest; [reflexivity|]. cbn [length app print_printable hd_rd bind tl]. rewrite IH. reflexivity. Qed.

Lemma ede_purpose_ok : forall info, 0 <= info -> 
  ede_purpose_text info (if info <? zlen ede_purpose then lit " (" ++ nth (Z.to_nat info) ede_purpose [] ++ [41] else []).
Proof.
  intros info H. rewrite zlen_ede. destruct (info <? 25) eqn:E.
  - left. assert (G : forallb (fun i => existsb (fun e => (fst e =? i) && streq (lit (snd e)) (nth (Z.to_nat i) ede_purpose [])) ede_codes) (map Z.of_nat (seq 0 25)) = true) by (vm_compute; reflexivity).
    rewrite forallb_forall in G. specialize (G info). rewrite existsb_exists in G. destruct G as ([k m] & I & K).
    { apply in_map_iff. exists (Z.to_nat info). split; [lia|]. apply in_seq. lia. }
    cbn [fst snd] in K. apply andb_prop in K as [K1 K2]. apply Z.eqb_eq in K1. subst k. apply streq_eq in K2. exists m. rewrite K2. auto.
  - right. split; [|auto]. intros I. assert (G : forallb (fun i => i <? 25) (map fst ede_codes) = true) by (vm_compute; reflexivity). rewrite forallb_forall in G. apply G in I. lia.
Qed.

Lemma be16_two : forall l, zlen l = 2 -> bytes_ok l -> exists a b, l = [a; b] /\ is_byte a /\ is_byte b /\ l = u16 (be16 a b) /\ 0 <= be16 a b < 65536.
Proof.
  intros l L B. destruct (two l L B) as (a & b & -> & Ba & Bb). exists a, b. pose proof (be16_range a b Ba Bb). split; [auto|]. split; [auto|]. split; [auto|]. split; [|auto].
  unfold u16, be16, is_byte in *. f_equal; [zdm|]. f_equal. zdm.
Qed.
Lemma u16_be16 : forall v, 0 <= v < 65536 -> exists a b, u16 v = [a; b] /\ is_byte a /\ is_byte b /\ be16 a b = v.
Proof. intros v H. exists (v / 256), (v mod 256). unfold u16, be16, is_byte. split; [auto|]. repeat split; zdm. Qed.

Lemma cons2_inj : forall (a b c d : Z) x y, a :: b :: x = c :: d :: y -> a = c /\ b = d /\ x = y.
Proof. intros. injection H. auto. Qed.

(** One option: its text, or an error and no text. *)
Lemma option_print : forall code data rest, bytes_ok data -> zlen data < 65536 -> 0 <= code < 65536 ->
  (exists t, ednsoptdata_text code (data ++ rest) (zlen data) = Ok (t, None) /\ option_text (code, data) (ednsoptcode_text code ++ t)) \/
  (exists t, ednsoptdata_text code (data ++ rest) (zlen data) = Ok (t, Some res_parse_error) /\ forall s, ~ option_text (code, data) s).
Proof.
  intros code data rest B L C. unfold ednsoptdata_text. pose proof (zlen_nonneg _ data).
  assert (D8 : forall n, 0 <= n < 65536 -> decimal n (fmt_u n)) by (intros n Hn; apply fmt_u_decimal; change (10 ^ 20) with 100000000000000000000; lia).
  destruct (Z.eqb_spec code 8) as [-> |N8].
  { assert (SHORT : zlen data < 4 -> forall s, ~ option_text (8, data) s).
    { intros Z s O. inversion O; subst; [rewrite !zlen_cons in Z; pose proof (zlen_nonneg _ a); lia|rewrite !zlen_cons in Z; pose proof (zlen_nonneg _ a); lia|congruence]. }
    destruct (zlen data <? 2) eqn:E; [right; eexists; split; [reflexivity|apply SHORT; lia]|].
    destruct (split_len data 2 B ltac:(lia)) as (l & d1 & -> & L1 & B1 & B2). destruct (be16_two l L1 B1) as (f1 & f2 & -> & Ba & Bb & EU & FR).
    rewrite <- app_assoc. rewrite take_rd_app by auto. cbn [bind nth]. rewrite adv_app by auto. rewrite zlen_app in *. change (zlen [f1; f2]) with 2 in *.
    destruct (2 + zlen d1 - 2 <? 1) eqn:E2; [right; eexists; split; [reflexivity|apply SHORT; lia]|].
    destruct (split_hd d1 B2 ltac:(lia)) as (so & r1 & -> & Bs & B3 & L3). cbn [app hd_rd bind]. change (adv (so :: r1 ++ rest) 1) with (r1 ++ rest). rewrite zlen_cons in *.
    destruct (2 + (zlen r1 + 1) - 2 - 1 <? 1) eqn:E3; [right; eexists; split; [reflexivity|apply SHORT; lia]|].
    destruct (split_hd r1 B3 ltac:(lia)) as (sc & a & -> & Bs2 & B4 & L4). cbn [app hd_rd bind]. change (adv (sc :: a ++ rest) 1) with (a ++ rest). rewrite zlen_cons in *.
    replace (2 + (zlen a + 1 + 1) - 2 - 1 - 1) with (zlen a) in * by lia. unfold ip_to_ubuf. set (fam := be16 f1 f2) in *.
    assert (INV : forall s, option_text (8, f1 :: f2 :: so :: sc :: a) s -> fam = 1 /\ zlen a <= 4 \/ fam = 2 /\ zlen a <= 16).
    { intros s O. inversion O; subst; [left|right|congruence]; split; auto. }
    destruct (negb (fam =? 1) && negb (fam =? 2)) eqn:F1; [cbn [bind]; right; eexists; split; [reflexivity|]; intros s O; apply INV in O; lia|].
    destruct ((fam =? 1) && (zlen a >? 4)) eqn:F2; [cbn [bind]; right; eexists; split; [reflexivity|]; intros s O; apply INV in O; lia|].
    destruct ((fam =? 2) && (zlen a >? 16)) eqn:F3; [cbn [bind]; right; eexists; split; [reflexivity|]; intros s O; apply INV in O; lia|].
    rewrite take_rd_app by auto. cbn [bind]. assert (A16 : zlen a <= 16) by lia. pose proof (zlen_nonneg _ a).
    assert (BL : blit (repeat 0 16) 0 a = Ok (zero_pad 16 a)).
    { replace (repeat 0 16) with (@nil Z ++ repeat 0 (Z.to_nat (zlen a)) ++ repeat 0 (Z.to_nat (16 - zlen a))).
      - rewrite blit_ok; [reflexivity|reflexivity|rewrite zlen_repeat; lia].
      - cbn [app]. rewrite <- repeat_plus. f_equal. lia. }
    rewrite BL. cbn [bind].
    assert (PB : forall n, bytes_ok (zero_pad n a)). { intros n. unfold zero_pad. apply bytes_ok_app. split; [auto|]. apply Forall_forall. intros x X. apply repeat_spec in X. subst. unfold is_byte. lia. }
    assert (PL : forall n, zlen a <= n -> zlen (zero_pad n a) = n) by (intros n Hn; unfold zero_pad; rewrite zlen_app, zlen_repeat; lia).
    unfold is_byte in *. pose proof (D8 so ltac:(lia)). pose proof (D8 sc ltac:(lia)).
    destruct (Z.eqb_spec fam 1) as [E4|N4].
    - destruct (addr4_spec (zero_pad 4 a) (PB 4) (PL 4 ltac:(lia))) as [P T].
      assert (SP : zero_pad 16 a = zero_pad 4 a ++ repeat 0 12). { unfold zero_pad. rewrite <- app_assoc, <- repeat_plus. f_equal. f_equal. lia. }
      rewrite SP. unfold pres4. rewrite P by lia. cbn [bind]. left. eexists. split; [reflexivity|]. assert ([f1; f2] = u16 1) as EF by (rewrite <- E4; exact EU). change (u16 1) with [0; 1] in EF. apply cons2_inj in EF as (-> & -> & _).
      apply (ot_subnet4 so sc a); auto. lia.
    - assert (E5 : fam = 2) by lia. destruct (addr6_spec (zero_pad 16 a) (PB 16) (PL 16 ltac:(lia))) as (P & T & _). specialize (P []). rewrite app_nil_r in P.
      unfold pres6. rewrite P. cbn [bind]. left. eexists. split; [reflexivity|]. assert ([f1; f2] = u16 2) as EF by (rewrite <- E5; exact EU). change (u16 2) with [0; 2] in EF. apply cons2_inj in EF as (-> & -> & _).
      apply (ot_subnet6 so sc a); auto. }
  destruct (Z.eqb_spec code 15) as [-> |N15].
  { destruct (zlen data <? 2) eqn:E.
    { right; eexists; split; [reflexivity|]. intros s O. inversion O; subst; [|congruence]. unfold u16 in E; cbn [app] in E; rewrite !zlen_cons in E. pose proof (zlen_nonneg _ msg). lia. }
    destruct (split_len data 2 B ltac:(lia)) as (l & msg & -> & L1 & B1 & B2). destruct (be16_two l L1 B1) as (f1 & f2 & -> & Ba & Bb & EU & FR).
    rewrite <- app_assoc. rewrite take_rd_app by auto. cbn [bind nth]. rewrite adv_app by auto. rewrite zlen_app. change (zlen [f1; f2]) with 2.
    rewrite u64_text_fmt by (change (10 ^ (6 - 1)) with 100000; lia). cbn [bind]. replace (2 + zlen msg - 2) with (zlen msg) by lia. rewrite zlen_to_nat, print_printable_shown. cbn [bind]. left. eexists. split; [reflexivity|].
    rewrite EU. apply (ot_ede (be16 f1 f2) msg (fmt_u (be16 f1 f2))); [lia|apply D8; lia|apply ede_purpose_ok; lia]. }
  left. rewrite zlen_to_nat, hex_blanks_spec by (auto; lia). cbn [bind]. rewrite print_printable_shown. cbn [bind]. eexists. split; [reflexivity|].
  unfold ednsoptcode_text. replace (code =? 8) with false by lia. replace (code =? 15) with false by lia. rewrite <- !app_assoc.
  apply (ot_other code data (fmt_u code)); auto. apply generic_hex_spec; auto.
Qed.

Lemma option_code : forall code data s, option_text (code, data) s -> 0 <= code < 65536.
Proof. intros code data s O. inversion O; subst; lia. Qed.

(** The first option of an option list. *)
Lemma options_head : forall k1 k2 v1 v2 r opts ts, is_byte k1 -> is_byte k2 -> is_byte v1 -> is_byte v2 -> options_text (k1 :: k2 :: v1 :: v2 :: r) opts ts ->
  exists d opts' t ts', opts = (be16 k1 k2, d) :: opts' /\ ts = t :: ts' /\ r = d ++ concat (map param opts') /\ zlen d = be16 v1 v2 /\ option_text (be16 k1 k2, d) t /\
    options_text (concat (map param opts')) opts' ts'.
Proof.
  intros k1 k2 v1 v2 r opts ts B1 B2 B3 B4 (E & F & O). destruct O as [|[k d] t opts ts O OS]; [discriminate|].
  inversion F as [|? ? F1 F2]; subst. cbn [fst snd] in *. cbn [map concat] in E. pose proof (option_code _ _ _ O). pose proof (zlen_nonneg _ d).
  unfold param in E at 1. cbn [fst snd] in E. destruct (u16_be16 k ltac:(lia)) as (x1 & x2 & E1 & X1 & X2 & X3). destruct (u16_be16 (zlen d) ltac:(lia)) as (y1 & y2 & E2 & Y1 & Y2 & Y3).
  rewrite E1, E2 in E. cbn [app] in E. injection E as -> -> -> -> ->. exists d, opts, t, ts. rewrite X3. split; [auto|]. split; [auto|]. split; [auto|]. split; [auto|]. split; [auto|]. split; [auto|]. auto.
Qed.

Lemma options_short : forall l opts ts, l <> [] -> zlen l < 4 -> ~ options_text l opts ts.
Proof.
  intros l opts ts N Z (E & F & O). destruct O as [|[k d] t opts ts O OS]; [cbn in E; congruence|]. subst l. cbn [map concat] in Z. unfold param in Z at 1. unfold u16 in Z. cbn [app] in Z. rewrite !zlen_cons in Z.
  pose proof (zlen_nonneg _ ((snd (k, d) ++ concat (map param opts)))). lia.
Qed.

Lemma options_print : forall f l after, bytes_ok l -> bytes_ok after -> (length l < f)%nat ->
  (exists opts ts, options_text l opts ts /\ ednsopts_text f (l ++ after) (zlen l) = Ok (join_by 10 ts, TNext after 0)) \/
  (exists s g, ednsopts_text f (l ++ after) (zlen l) = Ok (s, g) /\ (g = TErr \/ g = TRes res_parse_error) /\ forall opts ts, ~ options_text l opts ts).
Proof.
  induction f as [|f IH]; intros l after B BA F; [lia|]. cbn [ednsopts_text]. destruct (zlen l >? 0) eqn:E.
  2:{ pose proof (zlen_nonneg _ l). assert (l = []) as -> by (apply zlen_zero; lia). left. exists [], []. split; [split; [reflexivity|split; constructor]|reflexivity]. }
  assert (NL : l <> []) by (intros ->; cbn in E; lia).
  destruct (zlen l <? 2) eqn:E2; [right; exists [], TErr; split; [auto|split; [auto|]]; intros; apply options_short; [auto|lia]|].
  destruct (split_len l 2 B ltac:(lia)) as (k & l1 & -> & L & B1 & B2). destruct (two k L B1) as (k1 & k2 & -> & Ba & Bb).
  rewrite <- app_assoc. rewrite take_rd_app by auto. cbn [bind nth]. rewrite adv_app by auto. rewrite zlen_app in *. change (zlen [k1; k2]) with 2 in *. pose proof (be16_range k1 k2 Ba Bb) as KR.
  destruct (2 + zlen l1 - 2 <? 2) eqn:E3; [right; eexists _, TErr; split; [reflexivity|split; [auto|]]; intros; apply options_short; [auto|rewrite zlen_app; change (zlen [k1; k2]) with 2; lia]|].
  destruct (split_len l1 2 B2 ltac:(lia)) as (v & l2 & -> & L2 & B3 & B4). destruct (two v L2 B3) as (v1 & v2 & -> & Bv1 & Bv2).
  rewrite <- app_assoc. rewrite take_rd_app by auto. cbn [bind nth]. rewrite adv_app by auto. rewrite zlen_app in *. change (zlen [v1; v2]) with 2 in *. pose proof (be16_range v1 v2 Bv1 Bv2) as VR.
  replace (2 + (2 + zlen l2) - 2 - 2) with (zlen l2) by lia.
  destruct (zlen l2 <? be16 v1 v2) eqn:E4.
  { right. eexists _, TErr. split; [reflexivity|]. split; [auto|]. intros opts ts O. apply options_head in O as (d & opts' & t & ts' & _ & _ & -> & LD & _); auto. rewrite zlen_app in E4. pose proof (zlen_nonneg _ (concat (map param opts'))). lia. }
  destruct (split_len l2 (be16 v1 v2) B4 ltac:(lia)) as (d & l3 & -> & LD & B5 & B6). rewrite <- app_assoc. rewrite <- LD. rewrite adv_app by auto. rewrite zlen_app. replace (zlen d + zlen l3 - zlen d) with (zlen l3) by lia.
  destruct (option_print (be16 k1 k2) d (l3 ++ after) B5 ltac:(lia) KR) as [(t & -> & OT)|(t & -> & NT)].
  - cbn [bind after_res]. destruct (IH l3 after B6 BA) as [(opts & ts & (O1 & O2 & O3) & ->)|(s & g & -> & G & NO)]. { cbn [app length] in F. rewrite app_length in F. lia. }
    + cbn [emit bind]. left. exists ((be16 k1 k2, d) :: opts), ((ednsoptcode_text (be16 k1 k2) ++ t) :: ts). split.
      * split; [|split; [constructor; [cbn [snd]; lia|auto]|constructor; auto]]. cbn [map concat]. unfold param at 1. cbn [fst snd]. rewrite <- O1.
        assert (U : forall a b, is_byte a -> is_byte b -> u16 (be16 a b) = [a; b]). { intros a b X Y. unfold u16, be16, is_byte in *. f_equal; [zdm|]. f_equal. zdm. }
        rewrite LD, !U by auto. reflexivity.
      * f_equal. f_equal. destruct (zlen l3 >? 0) eqn:E5.
        -- destruct ts as [|t' ts]; [inversion O3; subst; cbn in E5; lia|]. rewrite (join_cons 10 (ednsoptcode_text (be16 k1 k2) ++ t) (t' :: ts)) by discriminate. cbn [app]. reflexivity.
        -- destruct ts as [|t' ts]; [cbn [app join_by]; rewrite app_nil_r; reflexivity|]. inversion O3; subst. exfalso. cbn [map concat] in E5. unfold param, u16 in E5. cbn [app] in E5. rewrite zlen_cons in E5. match type of E5 with (zlen ?q + 1 >? 0) = _ => pose proof (zlen_nonneg _ q) end. lia.
    + cbn [emit bind]. right. eexists _, g. split; [reflexivity|]. split; [auto|]. intros opts ts O. apply options_head in O as (d' & opts' & t' & ts' & _ & _ & ED & LD' & _ & O'); auto.
      apply app_zlen_inj in ED as [-> ED]; [|lia]. subst l3. eapply NO; eauto.
  - cbn [bind after_res emit]. right. eexists _, _. split; [reflexivity|]. split; [auto|]. intros opts ts O. apply options_head in O as (d' & opts' & t' & ts' & _ & _ & ED & LD' & OT & _); auto.
    apply app_zlen_inj in ED as [-> ED]; [|lia]. eapply NT; eauto.
Qed.

(** The text of an option: not empty, printable, not ending in a blank. *)
Lemma option_solid : forall o s, bytes_ok (snd o) -> option_text o s -> s <> [] /\ last s 0 <> 32 /\ printable s.
Proof.
  assert (LV : forall a b, visible b -> b <> [] -> last (a ++ b) 0 <> 32).
  { intros a b V N. assert (X : In (last (a ++ b) 0) b). { destruct (exists_last N) as (b' & y & ->). rewrite app_assoc, last_last. apply in_app_iff. right. left. auto. } unfold visible in V. rewrite Forall_forall in V. apply V in X. lia. }
  assert (SP : forall l, printable (shown l)). { intros l. unfold shown. apply Forall_forall. intros x I. apply in_map_iff in I as (c & <- & _). destruct (_ && _) eqn:E; lia. }
  intros o s B O. destruct O as [source scope a t d e L T D E|source scope a t d e L T D E|info msg d p I D P|code data d h C N8 N15 D H].
  - apply ipv4_visible in T as [T _]. apply decimal_visible in D as [D _]. apply decimal_visible in E as [E NE]. split; [discriminate|]. split; [rewrite !app_assoc; apply LV; auto|]. apply visible_printable in T, D, E. pr.
  - apply ipv6_visible in T as [T _]. apply decimal_visible in D as [D _]. apply decimal_visible in E as [E NE]. split; [discriminate|]. split; [rewrite !app_assoc; apply LV; auto|]. apply visible_printable in T, D, E. pr.
  - apply decimal_visible in D as [D _]. apply visible_printable in D. split; [discriminate|]. split; [rewrite !app_assoc, last_last; lia|].
    assert (PP : printable p). { destruct P as [(m & IM & ->)|[_ ->]]; [|pr]. assert (printable (lit m)); [|pr]. assert (G : forallb (fun e => forallb (fun c => (32 <=? c) && (c <=? 126)) (lit (snd e))) ede_codes = true) by (vm_compute; reflexivity).
      rewrite forallb_forall in G. apply G in IM. cbn [snd] in IM. rewrite forallb_forall in IM. apply Forall_forall. intros x X. apply IM in X. lia. }
    pose proof (SP msg). pr.
  - apply decimal_visible in D as [D _]. apply visible_printable in D. split; [discriminate|]. split. { change (lit """)") with ([34] ++ [41]). rewrite !app_assoc, last_last. lia. }
    assert (PH : printable h). { clear - H B. cbn [snd] in B. induction H as [|b h l s HO H IH]; [pr|]. apply bytes_ok_cons in B as [_ B]. apply hex_octet_visible in HO as [HO _]. apply visible_printable in HO. pose proof (IH B). pr. }
    pose proof (SP data). pr.
Qed.

Lemma param_bytes : forall opts ts, bytes_ok (concat (map param opts)) -> Forall2 option_text opts ts -> Forall (fun s => s <> [] /\ last s 0 <> 32 /\ printable s) ts.
Proof.
  intros opts ts B F. induction F as [|o t opts ts O F IH]; [constructor|]. cbn [map concat] in B. apply bytes_ok_app in B as [B1 B2]. constructor; [|auto].
  unfold param in B1. rewrite !bytes_ok_app in B1. apply (option_solid o); tauto.
Qed.

Lemma join_last : forall c ts, c <> 32 -> ts <> [] -> Forall (fun s => s <> [] /\ last s 0 <> 32) ts -> last (join_by c ts) 0 <> 32.
Proof.
  intros c ts C N F. destruct (exists_last N) as (ts' & y & ->). apply Forall_app in F as [_ F]. inversion F as [|? ? [N1 L1] _]; subst. clear F N.
  assert (K : forall x, last (x ++ y) 0 = last y 0). { intros x. destruct (exists_last N1) as (b' & z & ->). rewrite app_assoc, !last_last. auto. }
  clear - K L1. induction ts' as [|t ts' IH]; [auto|]. cbn [app]. rewrite join_cons by (destruct ts'; discriminate).
  intros X. apply IH. rewrite <- X. change (t ++ c :: join_by c (ts' ++ [y])) with (t ++ ([c] ++ join_by c (ts' ++ [y]))). rewrite app_assoc.
  assert (J : exists x, join_by c (ts' ++ [y]) = x ++ y). { clear. induction ts' as [|t ts' IH]; [exists []; reflexivity|]. destruct IH as (x & E). cbn [app]. rewrite join_cons by (destruct ts'; discriminate). rewrite E. exists (t ++ c :: x). rewrite <- app_assoc. reflexivity. }
  destruct J as (x & ->). rewrite app_assoc, !K. auto.
Qed.

Definition option_errors : list bytes := [lit " ### PARSE ERROR ###"; lit " ### PARSE ERROR #12 ###"].

(** Options as rdata. *)
Lemma opt_print : forall u l after c, bytes_ok l -> bytes_ok after -> zlen l < 65536 ->
  (exists opts ts, options_text l opts ts /\ rdata_to_ubuf u (l ++ after) (zlen l) 41 c = Ok (match ts with [] => strip_blank u | _ => u ++ join_by 10 ts end)) \/
  (exists s e, rdata_to_ubuf u (l ++ after) (zlen l) 41 c = Ok (u ++ s ++ e) /\ In e option_errors /\ forall opts ts, ~ options_text l opts ts).
Proof.
  intros u l after c B BA L. unfold rdata_to_ubuf. change (lookup_descr 41) with (Some {| d_class := class_un; d_types := [rdf_edns_opt_rdata] |}).
  cbn [d_class]. change (negb _) with false. cbv iota. cbn [d_types fields_text].
  destruct (Z.eqb_spec (zlen l) 0) as [Z|Z].
  { apply zlen_zero in Z as ->. left. exists [], []. split; [split; [reflexivity|split; constructor]|]. cbn [bind]. rewrite app_nil_r. reflexivity. }
  cbn [field_text]. destruct (options_print (S (length (l ++ after))) l after B BA) as [(opts & ts & O & E)|(s & g & E & G & NO)]; [rewrite app_length; lia| |]; rewrite E; cbn [bind].
  - left. exists opts, ts. split; [auto|]. cbn [emit bind fields_text]. rewrite app_nil_r. f_equal. destruct O as (O1 & O2 & O3). assert (PS : Forall (fun s => s <> [] /\ last s 0 <> 32 /\ printable s) ts) by (apply (param_bytes opts); subst; auto).
    destruct ts as [|t ts]; [rewrite app_nil_r; reflexivity|]. apply strip_blank_keep.
    assert (J : last (join_by 10 (t :: ts)) 0 <> 32). { apply join_last; [lia|discriminate|]. eapply Forall_impl; [|exact PS]. cbn beta. tauto. }
    assert (NJ : join_by 10 (t :: ts) <> []). { inversion PS as [|? ? [NT _] _]; subst. destruct ts; [cbn [join_by]; auto|]. rewrite join_cons by discriminate. destruct t; [congruence|discriminate]. }
    destruct (exists_last NJ) as (b & z & EZ). rewrite EZ in *. rewrite app_assoc. rewrite last_last in *. auto.
  - right. destruct G as [-> | ->].
    + exists s, (lit " ### PARSE ERROR ###"). split; [reflexivity|]. split; [left; auto|auto].
    + exists s, (lit " ### PARSE ERROR #12 ###"). split; [reflexivity|]. split; [right; left; auto|auto].
Qed.
