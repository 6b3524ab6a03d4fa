(** ProofSafe.v: printing rdata: what is read, what is written. *)
From Coq Require Strings.String.
From Verif Require Import Base Lib SpecName SpecMessage SpecEncode SpecFormat SpecTables SpecText Libc ModelName ModelFormat ModelTables ModelDescr ModelToStr ModelParse
  ProofUnpack ProofCopy ProofNameStr ProofNameOps ProofFormat ProofInet ProofInet6 ProofB64 ProofB32 ProofTables ProofRdata ProofPrint ProofPrint2 ProofField ProofVisible ProofEncode ProofRdataText.

Lemma printable_app : forall a b, printable (a ++ b) <-> printable a /\ printable b.
Proof. intros. unfold printable. apply Forall_app. Qed.
Lemma printable_cons : forall a b, printable (a :: b) <-> 32 <= a <= 126 /\ printable b.
Proof. intros. unfold printable. split; [intros H; inversion H; auto|intros [? ?]; constructor; auto]. Qed.
Lemma printable_nil : printable []. Proof. constructor. Qed.
Lemma visible_printable : forall s, visible s -> printable s.
Proof. intros s H. eapply Forall_impl; [|exact H]. cbn beta. lia. Qed.
Lemma printable_lit : forall m, forallb (fun c => (32 <=? c) && (c <=? 126)) (lit m) = true -> printable (lit m).
Proof. intros m H. rewrite forallb_forall in H. apply Forall_forall. intros c I. apply H in I. lia. Qed.
Ltac plit := first [apply printable_lit; vm_compute; reflexivity].
Ltac pr := repeat first [assumption | apply printable_nil | apply printable_app; split | apply printable_cons; split; [lia|] | plit].

Lemma concat_printable : forall A (f : A -> bytes) l, (forall a, In a l -> printable (f a)) -> printable (concat (map f l)).
Proof. induction l as [|a l IH]; intros H; [constructor|]. cbn [map concat]. apply printable_app. split; [apply H; left; auto|apply IH; intros; apply H; right; auto]. Qed.
Lemma quote_octet_printable : forall c, is_byte c -> printable (quote_octet c).
Proof.
  intros c H. assert (G : forallb (fun x => (32 <=? x) && (x <=? 126)) (quote_octet c) = true).
  { revert c H. apply (forall_bytes (fun c => forallb (fun x => (32 <=? x) && (x <=? 126)) (quote_octet c))). vm_compute. reflexivity. }
  rewrite forallb_forall in G. apply Forall_forall. intros x I. apply G in I. lia.
Qed.
Lemma quotes_printable : forall l, bytes_ok l -> printable (concat (map quote_octet l)).
Proof. intros l B. apply concat_printable. intros a I. apply quote_octet_printable. unfold bytes_ok in B. rewrite Forall_forall in B. auto. Qed.
Lemma quoted_printable : forall l, bytes_ok l -> printable (quoted l).
Proof. intros l B. unfold quoted. pose proof (quotes_printable l B). pr. Qed.
Lemma hex2_printable : forall up b, is_byte b -> printable (hex2 up b).
Proof. intros up b B. apply visible_printable. apply (hex_octet_visible up b). apply hex2_spec; auto. Qed.
Lemma hexs_printable : forall up l, bytes_ok l -> printable (hexs up l).
Proof. intros up l B. apply concat_printable. intros a I. apply hex2_printable. unfold bytes_ok in B. rewrite Forall_forall in B. auto. Qed.
Lemma fmt_u_printable : forall n, 0 <= n < 10 ^ 20 -> printable (fmt_u n).
Proof. intros n H. apply visible_printable. apply (decimal_visible n). apply fmt_u_decimal; auto. Qed.
Lemma type_printable : forall n s, type_text n s -> printable s.
Proof. intros n s H. apply visible_printable. eapply type_text_visible; eauto. Qed.
Lemma svckey_printable : forall k, 0 <= k < 65536 -> printable (svckey_to_str k).
Proof.
  intros k H. destruct (Z.eq_dec k 65535) as [-> |N]; [change (svckey_to_str 65535) with (lit "invalid key"); plit|].
  apply visible_printable. apply (key_text_visible k). apply key_text_spec. lia.
Qed.

Lemma split_len : forall (src : bytes) n, bytes_ok src -> 0 <= n <= zlen src -> exists l rest, src = l ++ rest /\ zlen l = n /\ bytes_ok l /\ bytes_ok rest.
Proof.
  intros src n B H. exists (firstn (Z.to_nat n) src), (skipn (Z.to_nat n) src). split; [symmetry; apply firstn_skipn|]. split; [apply zlen_firstn; auto|].
  split; [apply bytes_ok_firstn|apply bytes_ok_skipn]; auto.
Qed.
Lemma split_hd : forall (src : bytes), bytes_ok src -> 1 <= zlen src -> exists c r, src = c :: r /\ is_byte c /\ bytes_ok r /\ zlen r = zlen src - 1.
Proof. intros [|c r] B H; [cbn in H; lia|]. exists c, r. rewrite zlen_cons. apply bytes_ok_cons in B. intuition lia. Qed.
Lemma two : forall l : bytes, zlen l = 2 -> bytes_ok l -> exists a b, l = [a; b] /\ is_byte a /\ is_byte b.
Proof.
  intros [|a [|b [|c l]]] H B; rewrite ?zlen_cons in H; try (pose proof (zlen_nonneg _ l)); cbn in H; try lia.
  apply bytes_ok_cons in B as [A B]. apply bytes_ok_cons in B as [C _]. eauto.
Qed.
Lemma be16_range : forall a b, is_byte a -> is_byte b -> 0 <= be16 a b < 65536.
Proof. unfold is_byte, be16. lia. Qed.

Lemma lor_bound : forall a b n, 0 <= n -> 0 <= a < 2 ^ n -> 0 <= b < 2 ^ n -> Z.lor a b < 2 ^ n.
Proof.
  intros a b n N A B. assert (0 <= Z.lor a b) by (apply Z.lor_nonneg; lia). destruct (Z.eq_dec (Z.lor a b) 0) as [E|E]; [lia|].
  apply Z.log2_lt_pow2; [lia|]. rewrite Z.log2_lor by lia.
  assert (K : forall x, 0 <= x < 2 ^ n -> Z.log2 x < n \/ x = 0). { intros x X. destruct (Z.eq_dec x 0); [auto|left]. apply Z.log2_lt_pow2; lia. }
  assert (n <> 0). { intros ->. change (2 ^ 0) with 1 in *. assert (a = 0) by lia. assert (b = 0) by lia. subst. apply E. reflexivity. }
  destruct (K a A) as [?| ->], (K b B) as [?| ->]; change (Z.log2 0) with 0; lia.
Qed.

(** ** SvcParams *)
Definition gr (o : outcome (bytes * option res)) : Prop := exists t r, o = Ok (t, r) /\ printable t.

Lemma gr_emit : forall t k, printable t -> gr k -> gr (emit t k).
Proof. intros t k P (t' & r & -> & P'). exists (t ++ t'), r. split; [reflexivity|]. apply printable_app. auto. Qed.
Lemma list_sep_printable : forall r, printable (list_sep r).
Proof. intros r. unfold list_sep. destruct (r >? 0); pr. Qed.

Lemma mandatory_safe : forall f src rem, bytes_ok src -> 0 <= rem <= zlen src -> (length src < f)%nat -> gr (mandatory_loop f src rem).
Proof.
  induction f as [|f IH]; intros src rem B R F; [lia|]. cbn [mandatory_loop]. destruct (rem <=? 0) eqn:E; [exists [], None; split; [auto|pr]|].
  destruct (2 >? rem) eqn:E2; [exists [], (Some res_parse_error); split; [auto|pr]|].
  destruct (split_len src 2 B ltac:(lia)) as (l & rest & -> & L & B1 & B2). destruct (two l L B1) as (a & b & -> & Ba & Bb).
  rewrite take_rd_app by auto. cbn [bind nth]. rewrite adv_app by auto. apply gr_emit.
  - apply printable_app. split; [apply svckey_printable; apply be16_range; auto|apply list_sep_printable].
  - rewrite zlen_app in R. apply IH; auto; [lia|]. rewrite app_length in F. cbn in F. lia.
Qed.
Lemma hint_safe : forall f sz src rem, sz = 4 \/ sz = 16 -> bytes_ok src -> 0 <= rem <= zlen src -> (length src < f)%nat -> gr (hint_loop f sz src rem).
Proof.
  induction f as [|f IH]; intros sz src rem S B R F; [lia|]. cbn [hint_loop]. destruct (rem <=? 0) eqn:E; [exists [], None; split; [auto|pr]|].
  destruct (sz >? rem) eqn:E2; [exists [], (Some res_parse_error); split; [auto|pr]|].
  destruct (split_len src sz B ltac:(lia)) as (l & rest & -> & L & B1 & B2). rewrite adv_app by auto.
  assert (G : exists t, (if sz =? 4 then inet4_ntop (l ++ rest) 16 else inet6_ntop (l ++ rest) 46) = Ok (Some t) /\ printable t).
  { destruct S as [-> | ->]; cbn [Z.eqb Pos.eqb].
    - destruct (addr4_spec l B1 L) as [P T]. rewrite P by lia. exists (addr4 l). split; [auto|]. apply visible_printable. apply (ipv4_visible _ _ T).
    - destruct (addr6_spec l B1 L) as (P & T & _). rewrite P by lia. exists (addr6 l). split; [auto|]. apply visible_printable. apply (ipv6_visible _ _ T). }
  destruct G as (t & -> & P). cbn [bind]. apply gr_emit; [apply printable_app; split; [auto|apply list_sep_printable]|].
  rewrite zlen_app in R. apply IH; auto; [lia|]. rewrite app_length in F. unfold zlen in L. lia.
Qed.
Lemma alpn_safe : forall f src rem, bytes_ok src -> 0 <= rem <= zlen src -> (length src < f)%nat -> gr (alpn_text f src rem).
Proof.
  induction f as [|f IH]; intros src rem B R F; [lia|]. cbn [alpn_text]. destruct (rem <=? 0) eqn:E; [exists [32], None; split; [auto|pr]|].
  destruct (split_hd src B ltac:(lia)) as (c & r & -> & Bc & Br & Lr). cbn [hd_rd bind tl]. unfold is_byte in Bc.
  destruct (c >? rem - 1) eqn:E2; [exists [], (Some res_parse_error); split; [auto|pr]|].
  destruct (split_len r c Br ltac:(lia)) as (l & rest & -> & L & B1 & B2). rewrite <- L at 1. rewrite zlen_to_nat, alpn_chars_spec by auto. cbn [bind]. rewrite adv_app by auto.
  apply gr_emit.
  - apply printable_app. split; [|destruct (_ >? 0); pr]. apply quotes_printable. unfold alpn_id. clear - B1.
    induction B1 as [|x l Hx B IH]; [constructor|]. cbn [map concat]. apply bytes_ok_app. split; [|exact IH]. unfold list_octet. unfold bytes_ok. destruct (_ || _); repeat (apply Forall_cons; [first [exact Hx|unfold is_byte; lia]|]); apply Forall_nil.
  - rewrite zlen_cons, zlen_app in R. rewrite zlen_cons, zlen_app in Lr. apply IH; auto; [lia|]. cbn [length] in F. rewrite app_length in F. lia.
Qed.
Lemma svcparam_safe : forall key src len, bytes_ok src -> 0 <= len <= zlen src -> len < 65536 -> key <> spr_invalid -> gr (svcparam_to_str key src len).
Proof.
  intros key src len B L LM K. unfold svcparam_to_str. cbv zeta. replace (key =? spr_invalid) with false by lia.
  destruct (key =? spr_mandatory); [apply mandatory_safe; auto; lia|].
  destruct (key =? spr_nd_alpn). { destruct (negb (len =? 0)); [exists [], (Some res_parse_error)|exists [32], None]; split; auto; pr. }
  destruct (key =? spr_port).
  { destruct (Z.eqb_spec len 2) as [-> |]; cbn [negb]; [|exists [], (Some res_parse_error); split; [auto|pr]].
    destruct (split_len src 2 B L) as (l & rest & -> & LL & B1 & B2). destruct (two l LL B1) as (a & b & -> & Ba & Bb).
    rewrite take_rd_app by auto. cbn [bind nth]. pose proof (be16_range a b Ba Bb) as R. rewrite u64_text_fmt by (change (10 ^ (6 - 1)) with 100000; lia). cbn [bind].
    eexists _, _. split; [reflexivity|]. apply printable_app. split; [apply fmt_u_printable|pr]. change (10 ^ 20) with 100000000000000000000. lia. }
  destruct (key =? spr_ech).
  { destruct (split_len src len B L) as (l & rest & -> & LL & B1 & B2). subst len. destruct (Z.eq_dec (zlen l) 0) as [Z0|NZ].
    - rewrite Z0, bytes_to_base64_nil. cbn [bind]. eexists _, _. split; [reflexivity|]. pr.
    - rewrite bytes_to_base64_spec by (auto; lia). cbn [bind]. eexists _, _. split; [reflexivity|]. apply printable_app. split; [apply visible_printable, (base64_visible (length l)); auto|pr]. }
  destruct (key =? spr_ipv4hint); [apply hint_safe; auto; lia|]. destruct (key =? spr_ipv6hint); [apply hint_safe; auto; lia|].
  destruct (key =? spr_alpn); [apply gr_emit; [pr|apply alpn_safe; auto; lia]|].
  destruct (split_len src len B L) as (l & rest & -> & LL & B1 & B2). subst len. rewrite to_str_string_spec by auto. cbn [bind].
  eexists _, _. split; [reflexivity|]. apply printable_app. split; [apply quoted_printable; auto|pr].
Qed.

(** ** Names *)
Lemma esc_printable : forall c, is_byte c -> printable (esc_ddd c).
Proof.
  intros c B. unfold esc_ddd. assert (0 <= c / 100 < 10 /\ 0 <= c / 10 mod 10 < 10 /\ 0 <= c mod 10 < 10) by (unfold is_byte in B; zdm). pr.
Qed.
Lemma dts_chars_printable : forall k src rem dst s r d, bytes_ok src -> printable dst -> dts_chars k src rem dst = Ok (s, r, d) -> bytes_ok s /\ printable d.
Proof.
  induction k as [|k IH]; intros src rem dst s r d B P H; cbn [dts_chars] in H; [injection H as <- <- <-; auto|].
  destruct (rem >? 0); [|injection H as <- <- <-; auto]. destruct src as [|c src]; [discriminate|]. cbn [hd_rd bind tl] in H. apply bytes_ok_cons in B as [Bc B].
  destruct ((c =? 46) || (c =? 92)) eqn:E1.
  { apply bind_ok in H as (d1 & H1 & H2). apply push_inv in H1 as [-> _]. apply IH in H2; auto. pr. }
  destruct ((33 <=? c) && (c <=? 126)) eqn:E2.
  { apply bind_ok in H as (d1 & H1 & H2). apply push_inv in H1 as [-> _]. apply IH in H2; auto. pr. }
  apply bind_ok in H as (d1 & H1 & H2). apply IH in H2; auto. apply printable_app. split; [auto|apply esc_printable; auto].
Qed.
Lemma dts_loop_printable : forall f src rem dst oclen read s n, bytes_ok src -> printable dst -> dts_loop f src rem dst oclen read = Ok (s, n) -> printable s.
Proof.
  induction f as [|f IH]; intros src rem dst oclen read s n B P H; [discriminate|]. cbn [dts_loop] in H. destruct (_ && _).
  - apply bind_ok in H as ([[s1 r1] d1] & H1 & H2). apply dts_chars_printable in H1 as [B1 P1]; auto; [|destruct src; [constructor|apply bytes_ok_cons in B; tauto]].
    apply bind_ok in H2 as (d2 & H2 & H3). apply push_inv in H2 as [-> _]. apply bind_ok in H3 as (o & H3 & H4). apply IH in H4; auto. pr.
  - apply bind_ok in H as (d1 & H1 & H2). apply bind_ok in H2 as (d2 & H2 & H3). injection H3 as <- _. destruct (read =? 0).
    + apply push_inv in H1 as [-> _]. pr.
    + injection H1 as <-. auto.
Qed.
Lemma domain_printable : forall src n s k, bytes_ok src -> domain_to_str src n = Ok (s, k) -> printable s.
Proof. intros src n s k B H. unfold domain_to_str in H. apply bind_ok in H as (o & _ & H). eapply dts_loop_printable; eauto. constructor. Qed.

(** A name without its root octet: printing it reads the octet behind it. *)
Lemma dts_loop_cut : forall ls f rem dst read, valid_labels ls -> zlen (prewire ls) <= rem -> zlen dst + 4 * zlen (prewire ls) <= 1016 ->
  (length ls < f)%nat -> ls <> [] -> 
  dts_loop f (prewire ls) rem dst (match ls with [] => 0 | l :: _ => zlen l end) read = UB OobRead.
Proof.
  induction ls as [|l ls IH]; intros f rem dst read V R D F N; [congruence|]. apply valid_labels_cons in V as [V1 V2]. destruct V1 as [L1 B1].
  change (prewire (l :: ls)) with (zlen l :: l ++ prewire ls) in *. rewrite zlen_cons, zlen_app in R, D. pose proof (zlen_nonneg _ (prewire ls)).
  destruct f as [|f]; [cbn in F; lia|]. cbn [dts_loop]. replace ((rem >? 0) && negb (zlen l =? 0)) with true by lia. cbn [tl].
  rewrite zlen_to_nat, dts_chars_label by lia. cbn [bind]. pose proof (pres_label_len l). unfold PRESLEN_NAME. rewrite push_ok by (rewrite zlen_app; change (zlen [46]) with 1; lia). cbn [bind].
  destruct ls as [|l' ls]; [reflexivity|]. change (prewire (l' :: ls)) with (zlen l' :: l' ++ prewire ls). cbn [hd_rd bind].
  change (zlen l' :: l' ++ prewire ls) with (prewire (l' :: ls)). apply IH; auto; try discriminate; try lia; [|cbn in *; lia].
  rewrite !zlen_app. change (zlen [46]) with 1. lia.
Qed.
Lemma domain_cut : forall ls n, valid_labels ls -> ls <> [] -> zlen (prewire ls) < 255 -> zlen (prewire ls) <= n -> domain_to_str (prewire ls) n = UB OobRead.
Proof.
  intros ls n V N L H. unfold domain_to_str. destruct ls as [|l ls]; [congruence|]. change (prewire (l :: ls)) with (zlen l :: l ++ prewire ls) at 1. cbn [hd_rd bind].
  apply (dts_loop_cut (l :: ls)); auto; [change (zlen (@nil Z)) with 0; lia|]. pose proof (prewire_length (l :: ls)). unfold zlen in *. lia.
Qed.

(** ** Fields *)
Definition is_name (t : rdf) : bool := match t with rdf_name | rdf_uname => true | _ => false end.

(** How a field leaves the loop: some octets of the rdata consumed, which are a value of the field unless nothing is left. *)
Definition consumed (t : rdf) (src : bytes) (n : Z) (f : tflow) : Prop :=
  match f with
  | TNext s' n' => n' = 0 \/ (bytes_ok s' /\ 0 <= n' <= zlen s' /\ exists u, src = u ++ s' /\ zlen u = n - n' /\
      (to_end (fmt_of t) = false -> if is_name t then exists ls, valid_name ls /\ u = wire ls else field_octets (fmt_of t) u /\ u <> []))
  | _ => True
  end.
Definition good (t : rdf) (src : bytes) (n : Z) (o : outcome (bytes * tflow)) : Prop :=
  exists s f, o = Ok (s, f) /\ printable s /\ consumed t src n f.
Definition cut_name (src : bytes) (n : Z) : Prop :=
  exists ls rest, valid_labels ls /\ ls <> [] /\ src = prewire ls ++ rest /\ zlen (prewire ls) = n /\ n < 255.

Lemma good_err : forall t src n s, printable s -> good t src n (Ok (s, TErr)).
Proof. intros. exists s, TErr. repeat split; auto. Qed.

Lemma windows_safe : forall f src n, bytes_ok src -> 0 <= n <= zlen src -> (length src < f)%nat ->
  exists s g, windows_text f src n = Ok (s, g) /\ printable s /\ match g with TNext s' n' => bytes_ok s' /\ 0 <= n' <= zlen s' /\ exists u, src = u ++ s' /\ zlen u = n - n' | _ => True end.
Proof.
  induction f as [|f IH]; intros src n B R F; [lia|]. cbn [windows_text]. destruct (n >=? 2) eqn:E.
  2:{ exists [], (TNext src n). split; [auto|]. split; [pr|]. split; [auto|]. split; [auto|]. exists []. split; [auto|cbn; lia]. }
  destruct (split_len src 2 B ltac:(lia)) as (l & rest & -> & L & B1 & B2). destruct (two l L B1) as (w & len & -> & Bw & Bl).
  rewrite take_rd_app by auto. cbn [bind nth]. rewrite adv_app by auto. rewrite zlen_app in R. unfold is_byte in Bl.
  destruct (n - 2 <? len) eqn:E2; [exists [], TErr; split; [auto|split; [pr|auto]]|].
  destruct (split_len rest len B2 ltac:(lia)) as (bm & rest' & -> & L2 & B3 & B4). rewrite take_rd_app by auto. cbn [bind]. rewrite adv_app by auto.
  rewrite zlen_app in R. destruct (IH rest' (n - 2 - len) B4 ltac:(lia)) as (s & g & -> & P & G). { rewrite !app_length in F. cbn in F. lia. }
  cbn [emit bind]. eexists _, _. split; [reflexivity|]. split.
  - apply printable_app. split; [|exact P]. clear - B3 Bw Bl L2. 
    assert (G : forall lo, 0 <= lo -> lo + 8 * zlen bm <= 2048 -> printable (bitmap_text bm w lo)).
    { clear L2. induction bm as [|a bm IH]; intros lo L0 L1; [constructor|]. cbn [bitmap_text]. apply bytes_ok_cons in B3 as [Ba B3]. rewrite zlen_cons in L1. apply printable_app. split; [|apply IH; auto; lia].
      clear - Bw L0 L1. pose proof (zlen_nonneg _ bm). assert (K : forall j lo, 0 <= lo -> lo + Z.of_nat j <= 2048 -> printable (bits_text j w a lo)).
      { induction j as [|j IH]; intros lo' A1 A2; [constructor|]. cbn [bits_text]. apply printable_app. split; [|apply IH; lia].
        destruct (negb _); [|constructor]. rewrite rrtype_text_tname. apply printable_app. split; [|pr]. apply type_printable with (Z.lor (Z.shiftl w 8) lo'). apply tname_text.
        unfold is_byte in Bw. split; [apply Z.lor_nonneg; split; [apply Z.shiftl_nonneg; lia|lia]|].
        assert (0 <= Z.shiftl w 8 < 2 ^ 16) by (rewrite Z.shiftl_mul_pow2 by lia; change (2 ^ 8) with 256; change (2 ^ 16) with 65536; lia).
        change 65536 with (2 ^ 16). apply lor_bound; [lia|auto|]. change (2 ^ 16) with 65536. lia. }
      apply K; lia. }
    apply G; lia.
  - destruct g as [s' n'| |]; auto. destruct G as (G1 & G2 & u & -> & G3). split; [auto|]. split; [auto|]. exists ([w; len] ++ bm ++ u). rewrite <- !app_assoc. split; [reflexivity|]. rewrite !zlen_app. lia.
Qed.

Lemma svcparams_safe : forall f src n, bytes_ok src -> 0 <= n <= zlen src -> (length src < f)%nat ->
  exists s g, svcparams_text f src n = Ok (s, g) /\ printable s /\ match g with TNext s' n' => n' = 0 | _ => True end.
Proof.
  induction f as [|f IH]; intros src n B R F; [lia|]. cbn [svcparams_text]. destruct (n >? 0) eqn:E.
  2:{ exists [], (TNext src n). split; [auto|]. split; [pr|]. cbv beta iota. lia. }
  destruct (n <? 2) eqn:E2; [exists [], TErr; repeat split; pr|].
  destruct (split_len src 2 B ltac:(lia)) as (l & rest & -> & L & B1 & B2). destruct (two l L B1) as (k1 & k2 & -> & Ba & Bb).
  rewrite take_rd_app by auto. cbn [bind nth]. rewrite adv_app by auto. rewrite zlen_app in R. pose proof (be16_range k1 k2 Ba Bb) as KR.
  destruct (Z.eqb_spec (be16 k1 k2) spr_invalid) as [EK|NK]; [exists [], TErr; repeat split; pr|].
  set (head := svckey_to_str (be16 k1 k2) ++ (if negb (be16 k1 k2 =? spr_nd_alpn) then [61] else [])).
  assert (PH : printable head). { unfold head. apply printable_app. split; [apply svckey_printable; auto|destruct (negb _); pr]. }
  destruct (n - 2 <? 2) eqn:E3; [exists head, TErr; repeat split; pr|].
  destruct (split_len rest 2 B2 ltac:(lia)) as (l & rest' & -> & L2 & B3 & B4). destruct (two l L2 B3) as (v1 & v2 & -> & Bv1 & Bv2).
  rewrite take_rd_app by auto. cbn [bind nth]. rewrite adv_app by auto. rewrite zlen_app in R. pose proof (be16_range v1 v2 Bv1 Bv2) as VR.
  destruct (n - 2 - 2 <? be16 v1 v2) eqn:E4; [exists head, TErr; repeat split; pr|].
  destruct (svcparam_safe (be16 k1 k2) rest' (be16 v1 v2) B4 ltac:(lia) ltac:(lia) NK) as (t & r & -> & PT). cbn [bind].
  destruct r as [r|]; cbn [after_res].
  { cbn [emit bind]. eexists _, _. split; [reflexivity|]. split; [pr|auto]. }
  destruct (split_len rest' (be16 v1 v2) B4 ltac:(lia)) as (v & r' & -> & LV & B5 & B6). rewrite adv_app by auto. rewrite zlen_app in R.
  destruct (IH r' (n - 2 - 2 - be16 v1 v2) B6 ltac:(lia)) as (s & g & -> & P & G). { rewrite !app_length in F. cbn in F. lia. }
  cbn [emit bind]. eexists _, _. split; [reflexivity|]. split; [pr|auto].
Qed.
Lemma strings_safe : forall f src n, bytes_ok src -> 0 <= n <= zlen src -> (length src < f)%nat ->
  exists s g, strings_text f src n = Ok (s, g) /\ printable s /\ match g with TNext s' n' => n' = 0 | _ => True end.
Proof.
  induction f as [|f IH]; intros src n B R F; [lia|]. cbn [strings_text]. destruct (n >? 0) eqn:E.
  2:{ exists [], (TNext src n). split; [auto|]. split; [pr|]. cbv beta iota. lia. }
  destruct (split_hd src B ltac:(lia)) as (c & r & -> & Bc & Br & Lr). cbn [hd_rd bind]. change (adv (c :: r) 1) with r. unfold is_byte in Bc.
  destruct (n - 1 <? c) eqn:E2; [exists [], TErr; repeat split; pr|].
  destruct (split_len r c Br ltac:(lia)) as (l & rest & -> & L & B1 & B2). rewrite zlen_cons, zlen_app in R. replace (to_str_string (l ++ rest) c) with (to_str_string (l ++ rest) (zlen l)) by (rewrite L; reflexivity). rewrite to_str_string_spec by auto. cbn [bind]. rewrite adv_app by auto.
  destruct (IH rest (n - 1 - c) B2 ltac:(lia)) as (s & g & -> & P & G). { cbn [length] in F. rewrite !app_length in F. lia. }
  cbn [emit bind]. eexists _, _. split; [reflexivity|]. split; [|auto]. pose proof (quoted_printable l B1). pr.
Qed.

Lemma int_safe : forall t sz size src n, fmt_of t = FFixed sz -> 1 <= sz <= 4 -> 2 <= size <= 21 -> 256 ^ sz <= 10 ^ (size - 1) -> bytes_ok src -> 0 < n <= zlen src ->
  good t src n (int_text sz size src n).
Proof.
  intros t sz size src n FT S1 S2 S3 B R. destruct (n <? sz) eqn:E; [unfold int_text; rewrite E; apply good_err; pr|].
  destruct (split_len src sz B ltac:(lia)) as (l & rest & -> & L & B1 & B2). rewrite (int_text_spec sz size l rest n) by (auto; lia). rewrite zlen_app in R.
  pose proof (fixed_value sz l B1 L) as FV. exists (fmt_u (be_value l) ++ [32]), (TNext rest (n - sz)). split; [auto|]. split.
  - apply printable_app. split; [apply fmt_u_printable|pr]. assert (256 ^ sz <= 256 ^ 4) by (apply Z.pow_le_mono_r; lia). change (256 ^ 4) with 4294967296 in *. change (10 ^ 20) with 100000000000000000000. lia.
  - right. split; [auto|]. split; [lia|]. exists l. split; [auto|]. split; [lia|]. intros _. replace (is_name t) with false by (destruct t; try discriminate; auto). rewrite FT. split; [exact L|]. intros ->. cbn in L. lia.
Qed.
Lemma pres4_split : forall l rest size, bytes_ok l -> zlen l = 4 -> 16 <= size -> exists s, pres4 (l ++ rest) size = Ok s /\ visible s.
Proof. intros l rest size B L S. destruct (addr4_spec l B L) as [P T]. unfold pres4. rewrite P by auto. exists (addr4 l). split; [auto|]. apply (ipv4_visible _ _ T). Qed.
Lemma pres6_split : forall l rest, bytes_ok l -> zlen l = 16 -> exists s, pres6 (l ++ rest) 46 = Ok s /\ visible s.
Proof. intros l rest B L. destruct (addr6_spec l B L) as (P & T & _). unfold pres6. rewrite P. exists (addr6 l). split; [auto|]. apply (ipv6_visible _ _ T). Qed.
Lemma eui_safe : forall t k src n, fmt_of t = FFixed (Z.of_nat k) -> (0 < k)%nat -> bytes_ok src -> Z.of_nat k <= n <= zlen src ->
  good t src n (h <- eui_text k true src ;; Ok (h, TNext (adv src (Z.of_nat k)) (n - Z.of_nat k))).
Proof.
  intros t k src n FT K B R. destruct (split_len src (Z.of_nat k) B ltac:(lia)) as (l & rest & -> & L & B1 & B2). rewrite zlen_app in R.
  assert (NL : l <> []) by (intros ->; cbn in L; lia).
  assert (k = length l) as EK by (unfold zlen in L; lia). rewrite EK at 1. rewrite eui_text_spec by auto. cbn [bind app]. rewrite adv_app by auto.
  eexists _, _. split; [reflexivity|]. split.
  - destruct (join_visible 45 (map (hex2 false) l)) as [A _]; [lia|destruct l; [congruence|discriminate]| |apply visible_printable; exact A].
    apply Forall_forall. intros x X. apply in_map_iff in X as (y & <- & Y). unfold bytes_ok in B1. rewrite Forall_forall in B1. eapply hex_octet_visible. apply hex2_spec. auto.
  - right. split; [auto|]. split; [lia|]. exists l. split; [auto|]. split; [lia|]. intros _. replace (is_name t) with false by (destruct t; try discriminate; auto). rewrite FT. split; [exact L|auto].
Qed.

Lemma field_safe : forall t src n, t <> rdf_edns_opt_rdata -> bytes_ok src -> 0 < n <= zlen src -> n < 65536 ->
  good t src n (field_text t src n) \/ (is_name t = true /\ cut_name src n).
Proof.
  intros t src n NE B R RM.
  assert (NM : is_name t = true -> good t src n (field_text t src n) \/ (is_name t = true /\ cut_name src n)).
  { intros IT. assert (FT : field_text t src n = match len_uname src n with
      | Ok len => '(s, _) <- domain_to_str src len ;; Ok (s ++ [32], TNext (adv src len) (n - len))
      | Err r => Ok ([], TRes r) | UB f => UB f | NoFuel => NoFuel end) by (destruct t; try discriminate; reflexivity).
    rewrite FT. destruct (len_uname_case src n B ltac:(change (2 ^ 32) with 4294967296; lia) ltac:(lia)) as (r & C & E). rewrite E. clear E FT.
    inversion C as [ls rest V E1 E2|ls rest V E1 E2|ls c rest V E1 E2 E3]; subst; cbn [limit255].
    - destruct (zlen (wire ls) >? 255) eqn:E3; [left; exists [], (TRes res_name_len); repeat split; pr|]. left.
      assert (VN : valid_name ls) by (split; [auto|lia]). rewrite domain_to_str_wire by (auto; lia). cbn [bind]. rewrite adv_app by auto. rewrite zlen_app in R. apply bytes_ok_app in B as [B1 B2].
      eexists _, _. split; [reflexivity|]. split; [pr; apply visible_printable; apply (pres_name_visible ls V)|]. right. split; [auto|]. split; [lia|]. exists (wire ls). split; [auto|]. split; [lia|]. intros _. rewrite IT. eauto.
    - destruct (zlen (prewire ls) + 1 >? 255) eqn:E3; [left; exists [], (TRes res_name_len); repeat split; pr|]. right. split; [auto|]. exists ls, rest. split; [auto|]. split; [intros ->; cbn in R; lia|]. repeat (split; [solve [auto]|]). lia.
    - left. exists [], (TRes res_invalid_length_octet). repeat split; pr. }
  destruct t; try (left; fail); try (apply NM; reflexivity); try congruence; left; cbn [field_text].
  - (* bytes *) rewrite Z.mod_small by (change (2 ^ 64) with 18446744073709551616; lia). destruct (split_len src n B ltac:(lia)) as (l & rest & -> & L & B1 & B2). subst n. rewrite bytes_text_spec by auto. cbn [bind].
    eexists _, _. split; [reflexivity|]. split; [apply hexs_printable; auto|left; auto].
  - destruct (split_len src n B ltac:(lia)) as (l & rest & -> & L & B1 & B2). subst n. rewrite bytes_to_base64_spec by (auto; lia). cbn [bind].
    eexists _, _. split; [reflexivity|]. split; [apply visible_printable, (base64_visible (length l)); auto|left; auto].
  - rewrite Z.mod_small by (change (2 ^ 64) with 18446744073709551616; lia). destruct (split_len src n B ltac:(lia)) as (l & rest & -> & L & B1 & B2). subst n. rewrite to_str_string_spec by auto. cbn [bind].
    eexists _, _. split; [reflexivity|]. split; [pose proof (quoted_printable l B1); pr|left; auto].
  - apply int_safe; auto; try lia; reflexivity.
  - apply int_safe; auto; try lia; cbn; lia.
  - apply int_safe; auto; try lia; cbn; lia.
  - destruct (n <? 4) eqn:E; [apply good_err; pr|]. destruct (split_len src 4 B ltac:(lia)) as (l & rest & -> & L & B1 & B2). destruct (pres4_split l rest 16 B1 L ltac:(lia)) as (s & -> & V). cbn [bind]. rewrite adv_app by auto.
    apply visible_printable in V. rewrite zlen_app in R. eexists _, _. split; [reflexivity|]. split; [pr|]. right. split; [auto|]. split; [lia|]. exists l. split; [auto|]. split; [lia|]. intros _. cbn. split; [auto|]. intros ->. cbn in L. lia.
  - destruct (n <? 16) eqn:E; [apply good_err; pr|]. destruct (split_len src 16 B ltac:(lia)) as (l & rest & -> & L & B1 & B2). destruct (pres6_split l rest B1 L) as (s & -> & V). cbn [bind]. rewrite adv_app by auto.
    apply visible_printable in V. rewrite zlen_app in R. eexists _, _. split; [reflexivity|]. split; [pr|]. right. split; [auto|]. split; [lia|]. exists l. split; [auto|]. split; [lia|]. intros _. cbn. split; [auto|]. intros ->. cbn in L. lia.
  - (* A6 *) destruct (n <? 1) eqn:E; [apply good_err; pr|]. destruct (split_hd src B ltac:(lia)) as (p & r & -> & Bp & Br & Lr). cbn [hd_rd bind]. change (adv (p :: r) 1) with r. unfold is_byte in Bp.
    destruct (p >? 128) eqn:E2; [apply good_err; pr|]. rewrite prefix_octets by lia. set (oc := (128 - p + 7) / 8). assert (OC : 0 <= oc <= 16) by (unfold oc; zdm).
    destruct (n <? 1 + oc) eqn:E3; [apply good_err; pr|]. destruct (split_len r oc Br ltac:(lia)) as (a & rest & -> & L & B1 & B2). rewrite take_rd_app by auto. cbn [bind]. rewrite adv_app by auto.
    rewrite zlen_cons, zlen_app in R.
    assert (BL : blit (repeat 0 16) (16 - oc) a = Ok (repeat 0 (Z.to_nat (16 - oc)) ++ a)).
    { replace (repeat 0 16) with (repeat 0 (Z.to_nat (16 - oc)) ++ repeat 0 (Z.to_nat oc) ++ @nil Z).
      - rewrite blit_ok; [rewrite app_nil_r; reflexivity|rewrite zlen_repeat; lia|rewrite zlen_repeat; lia].
      - rewrite app_nil_r, <- repeat_plus. f_equal. lia. }
    rewrite BL. cbn [bind].
    assert (PS : exists s, (if oc >? 0 then s <- pres6 (repeat 0 (Z.to_nat (16 - oc)) ++ a) 46;; Ok (s ++ [32]) else Ok []) = Ok s /\ printable s).
    { destruct (oc >? 0); [|exists []; split; [auto|pr]]. destruct (pres6_split (repeat 0 (Z.to_nat (16 - oc)) ++ a) []) as (s & E4 & V).
      - apply bytes_ok_app. split; [|auto]. apply Forall_forall. intros x X. apply repeat_spec in X. subst. unfold is_byte. lia.
      - rewrite zlen_app, zlen_repeat. lia.
      - rewrite app_nil_r in E4. rewrite E4. apply visible_printable in V. exists (s ++ [32]). split; [auto|pr]. }
    destruct PS as (s & -> & V). cbn [bind]. eexists _, _. split; [reflexivity|]. split.
    + assert (printable (fmt_u p)) by (apply fmt_u_printable; change (10 ^ 20) with 100000000000000000000; lia). pr.
    + right. split; [auto|]. split; [lia|]. exists (p :: a). split; [auto|]. rewrite zlen_cons. split; [lia|]. intros _. cbn. split; [|discriminate]. exists p, a. split; [lia|]. split; [exact L|auto].
  - replace (n <? 6) with (n <? Z.of_nat 6) by reflexivity. destruct (n <? Z.of_nat 6) eqn:E; [apply good_err; pr|]. apply (eui_safe rdf_eui48 6); auto; lia.
  - replace (n <? 8) with (n <? Z.of_nat 8) by reflexivity. destruct (n <? Z.of_nat 8) eqn:E; [apply good_err; pr|]. apply (eui_safe rdf_eui64 8); auto; lia.
  - (* string *) destruct (n <? 1) eqn:E; [apply good_err; pr|]. destruct (split_hd src B ltac:(lia)) as (c & r & -> & Bc & Br & Lr). cbn [hd_rd bind]. change (adv (c :: r) 1) with r. unfold is_byte in Bc.
    destruct (n - 1 <? c) eqn:E2; [apply good_err; pr|]. destruct (split_len r c Br ltac:(lia)) as (l & rest & -> & L & B1 & B2). rewrite zlen_cons, zlen_app in R. replace (to_str_string (l ++ rest) c) with (to_str_string (l ++ rest) (zlen l)) by (rewrite L; reflexivity). rewrite to_str_string_spec by auto. cbn [bind]. rewrite adv_app by auto.
    eexists _, _. split; [reflexivity|]. split; [pose proof (quoted_printable l B1); pr|]. right. split; [auto|]. split; [lia|]. exists (c :: l). split; [auto|]. rewrite zlen_cons. split; [lia|]. intros _. cbn. split; [|discriminate]. exists l. split; [lia|]. unfold char_string. rewrite L. auto.
  - destruct (strings_safe (S (length src)) src n B ltac:(lia) ltac:(lia)) as (s & g & -> & P & G). exists s, g. split; [auto|]. split; [auto|]. destruct g; auto. left. auto.
  - (* rrtype *) destruct (n <? 2) eqn:E; [apply good_err; pr|]. destruct (split_len src 2 B ltac:(lia)) as (l & rest & -> & L & B1 & B2). destruct (two l L B1) as (a & b & -> & Ba & Bb).
    rewrite take_rd_app by auto. cbn [bind nth]. rewrite adv_app by auto. rewrite zlen_app in R. eexists _, _. split; [reflexivity|]. split.
    + rewrite rrtype_text_tname. apply printable_app. split; [|pr]. eapply type_printable. apply tname_text. apply be16_range; auto.
    + right. split; [auto|]. split; [lia|]. exists [a; b]. split; [auto|]. split; [lia|]. intros _. cbn. split; [auto|discriminate].
  - (* bitmap *) destruct (n <? 2) eqn:E; [apply good_err; pr|]. destruct (windows_safe (S (length src)) src n B ltac:(lia) ltac:(lia)) as (s & g & -> & P & G). exists s, g. split; [auto|]. split; [auto|]. destruct g as [s' n'| |]; auto. destruct G as (G1 & G2 & u & G3 & G4).
    right. split; [auto|]. split; [auto|]. exists u. split; [auto|]. split; [auto|]. cbn. discriminate.
  - (* salt *) destruct (n <? 1) eqn:E; [apply good_err; pr|]. destruct (split_hd src B ltac:(lia)) as (c & r & -> & Bc & Br & Lr). cbn [hd_rd bind]. change (adv (c :: r) 1) with r. unfold is_byte in Bc.
    destruct (n <? 1 + c) eqn:E2; [apply good_err; pr|]. destruct (split_len r c Br ltac:(lia)) as (l & rest & -> & L & B1 & B2). rewrite zlen_cons, zlen_app in R. replace (Z.to_nat c) with (length l) by (unfold zlen in L; lia). rewrite salt_hex_spec by auto. cbn [bind]. rewrite adv_app by auto.
    eexists _, _. split; [reflexivity|]. split; [pose proof (hexs_printable false l B1); destruct (c =? 0); pr|]. right. split; [auto|]. split; [lia|]. exists (c :: l). split; [auto|]. rewrite zlen_cons. split; [lia|]. intros _. cbn. split; [|discriminate]. exists l. split; [lia|]. unfold char_string. rewrite L. auto.
  - (* hash *) destruct (n <? 1) eqn:E; [apply good_err; pr|]. destruct (split_hd src B ltac:(lia)) as (c & r & -> & Bc & Br & Lr). cbn [hd_rd bind]. change (adv (c :: r) 1) with r. unfold is_byte in Bc.
    destruct (n <? 1 + c) eqn:E2; [apply good_err; pr|]. rewrite zlen_cons in R. destruct (Z.eqb_spec c 0) as [-> |NC].
    { eexists _, _. split; [reflexivity|]. split; [pr|]. right. split; [auto|]. split; [lia|]. exists [0]. split; [auto|]. split; [change (zlen [0]) with 1; lia|]. intros _. cbn. split; [|discriminate]. exists []. split; [cbn; lia|auto]. }
    destruct (split_len r c Br ltac:(lia)) as (l & rest & -> & L & B1 & B2). rewrite zlen_app in R. rewrite take_rd_app by auto. cbn [bind]. assert (NL : l <> []) by (intros ->; cbn in L; lia).
    rewrite base32_encode_spec by (auto; lia). cbn [bind]. rewrite adv_app by auto.
    eexists _, _. split; [reflexivity|]. split; [pr; apply visible_printable, (base32_visible (length l)); auto|]. right. split; [auto|]. split; [lia|]. exists (c :: l). split; [auto|]. rewrite zlen_cons. split; [lia|]. intros _. cbn. split; [|discriminate]. exists l. split; [lia|]. unfold char_string. rewrite L. auto.
  - destruct (svcparams_safe (S (length src)) src n B ltac:(lia) ltac:(lia)) as (s & g & -> & P & G). exists s, g. split; [auto|]. split; [auto|]. destruct g; auto. left. auto.
Qed.

(** ** All fields *)
Definition holds (f : fmt) (v : fval) : Prop := match v with VName ns => f = FName /\ valid_name ns | VOctets o => field_octets f o /\ o <> [] end.
Definition fcut (fs : list fmt) (src : bytes) (n : Z) : Prop :=
  exists before after vs ls rest, fs = before ++ FName :: after /\ Forall2 holds before vs /\
    valid_labels ls /\ ls <> [] /\ zlen (prewire ls) < 255 /\ src = canon vs ++ prewire ls ++ rest /\ n = zlen (canon vs ++ prewire ls).

Lemma ends_tail : forall t ts, ends_ok (t :: ts) = true -> ends_ok ts = true /\ (ts <> [] -> to_end (fmt_of t) = false).
Proof.
  intros t [|t' ts] H; [split; [auto|congruence]|]. cbn [ends_ok] in H. apply andb_prop in H as [H1 H2]. split; [exact H2|]. intros _. destruct (to_end _); [discriminate|auto].
Qed.
Lemma name_fmt : forall t, is_name t = true <-> fmt_of t = FName.
Proof. intros []; cbn; split; intros; congruence. Qed.

Lemma fields_safe : forall ts src n, ends_ok ts = true -> ~ In rdf_edns_opt_rdata ts -> bytes_ok src -> 0 <= n <= zlen src -> n < 65536 ->
  (exists s f, fields_text ts src n = Ok (s, f) /\ printable s) \/ fcut (map fmt_of ts) src n.
Proof.
  induction ts as [|t ts IH]; intros src n EO NE B R RM; [left; exists [], (TNext src n); split; [auto|pr]|].
  cbn [fields_text]. destruct (Z.eqb_spec n 0) as [-> |NZ]; [left; exists [], (TNext src 0); split; [auto|pr]|].
  destruct (field_safe t src n) as [(s & f & -> & P & C)|[IN (ls & rest & C1 & C2 & C3 & C4 & C5)]]; [intros ->; apply NE; left; auto|auto|lia|auto| |].
  2:{ right. exists [], (map fmt_of ts), [], ls, rest. apply name_fmt in IN. cbn [map app]. rewrite IN. split; [auto|]. split; [constructor|]. split; [auto|]. split; [auto|]. split; [lia|]. split; [auto|]. cbn [canon map concat app]. auto. }
  cbn [bind]. destruct f as [s' n'| |]; [|left; eexists _, _; split; [reflexivity|auto]..]. apply ends_tail in EO as [EO TE].
  destruct C as [-> |(B' & R' & u & -> & LU & FO)].
  { left. destruct ts; cbn [fields_text Z.eqb emit bind]; rewrite ?app_nil_r; eauto. }
  destruct ts as [|t' ts]; [left; cbn [fields_text emit bind]; rewrite app_nil_r; eauto|]. specialize (FO (TE ltac:(discriminate))). pose proof (zlen_nonneg _ u).
  destruct (IH s' n' EO) as [(s2 & f2 & -> & P2)|(before & after & vs & ls & rest & F1 & F2 & F3 & F4 & F5 & F6 & F7)]; auto; try lia.
  { intros I. apply NE. right. exact I. }
  { left. cbn [emit bind]. eexists _, _. split; [reflexivity|]. pr. }
  right. set (ts' := t' :: ts) in *. cbn [map]. rewrite F1.
  assert (V : exists v, holds (fmt_of t) v /\ u = canon1 v).
  { destruct (is_name t) eqn:IN; [destruct FO as (ns & V & ->); exists (VName ns); apply name_fmt in IN; cbn; auto|exists (VOctets u); cbn; auto]. }
  destruct V as (v & HV & ->). exists (fmt_of t :: before), after, (v :: vs), ls, rest. split; [auto|]. split; [constructor; auto|]. split; [auto|]. split; [auto|]. split; [auto|].
  unfold canon in *. cbn [map concat]. rewrite F6, <- app_assoc. split; [auto|]. rewrite <- app_assoc, zlen_app, <- F7. lia.
Qed.

Lemma fields_cut : forall ts src n, ends_ok ts = true -> ~ In rdf_edns_opt_rdata ts -> bytes_ok src -> n = zlen src -> n < 65536 ->
  fcut (map fmt_of ts) src n -> fields_text ts src n = UB OobRead.
Proof.
  intros ts src n EO NE B EN RM (before & after & vs & ls & rest & F1 & F2 & F3 & F4 & F5 & F6 & F7).
  assert (rest = []) as ->. { rewrite EN, F6 in F7. rewrite !zlen_app in F7. apply zlen_zero. lia. }
  rewrite app_nil_r in F6. clear EN. subst n.
  revert ts src EO NE F1 B F6 RM. induction F2 as [|f v before vs H F2 IH]; intros ts src EO NE F1 B F6 RM.
  - cbn [canon map concat app] in *. destruct ts as [|t ts]; [discriminate|]. cbn [map] in F1. injection F1 as F1 _. cbn [fields_text].
    assert (0 < zlen (prewire ls)). { destruct ls as [|l ls]; [congruence|]. pose proof (prewire_length (l :: ls)). cbn [length] in *. lia. }
    replace (zlen (prewire ls) =? 0) with false by lia. rewrite F6 in *.
    assert (L : len_uname (prewire ls) (zlen (prewire ls)) = Ok (zlen (prewire ls) + 1)). { rewrite <- (app_nil_r (prewire ls)) at 1. apply len_uname_cut; auto. constructor. }
    destruct t; try discriminate; cbn [field_text]; rewrite L; rewrite domain_cut by (auto; lia); reflexivity.
  - destruct ts as [|t ts]; [discriminate|]. cbn [map app] in F1. injection F1 as FT F1. subst f.
    apply ends_tail in EO as [EO TE].
    assert (NT : ts <> []). { intros ->. cbn [map] in F1. destruct before; discriminate. }
    specialize (TE NT). 
    assert (EC : canon (v :: vs) = canon1 v ++ canon vs) by reflexivity. rewrite EC, <- app_assoc in *. subst src. apply bytes_ok_app in B as [B1 B2].
    assert (P1 : 0 < zlen (prewire ls)). { destruct ls as [|l ls]; [congruence|]. pose proof (prewire_length (l :: ls)). cbn [length] in *. lia. }
    assert (VO : value_ok t v).
    { destruct v as [ns|o]; cbn [holds value_ok canon1] in *; [tauto|]. destruct H as [H1 H2]. repeat (split; [solve [auto]|]). intros ->. discriminate. }
    assert (VP : 0 <= zlen (canon1 v)) by apply zlen_nonneg.
    destruct (field_print t v ltac:(intros ->; apply NE; left; auto) VO) as (toks & _ & PR). specialize (PR (canon vs ++ prewire ls) (zlen (canon1 v ++ canon vs ++ prewire ls)) B2).
    assert (ZC : zlen (canon1 v ++ canon vs ++ prewire ls) = zlen (canon1 v) + zlen (canon vs ++ prewire ls)) by apply zlen_app. rewrite ZC in *. pose proof (zlen_nonneg _ (canon vs)). assert (zlen (canon vs ++ prewire ls) = zlen (canon vs) + zlen (prewire ls)) as ZA by apply zlen_app.
    destruct PR as (s' & PR & SR); [lia|lia|intros K; congruence|]. specialize (SR ltac:(lia)). subst s'.
    cbn [fields_text]. replace (zlen (canon1 v) + zlen (canon vs ++ prewire ls) =? 0) with false by lia. rewrite PR. cbn [bind].
    replace (zlen (canon1 v) + zlen (canon vs ++ prewire ls) - zlen (canon1 v)) with (zlen (canon vs ++ prewire ls)) by lia.
    rewrite IH; [reflexivity|auto|intros I; apply NE; right; auto|auto|auto|auto|lia].
Qed.

Lemma fcut_exact : forall fs l, fcut fs l (zlen l) <-> ends_in_name fs l.
Proof.
  intros fs l. split.
  - intros (before & after & vs & ls & rest & F1 & F2 & F3 & F4 & F5 & F6 & F7). assert (rest = []) as ->. { rewrite F6 in F7. rewrite !zlen_app in F7. apply zlen_zero. lia. }
    rewrite app_nil_r in F6. exists before, after, vs, ls. repeat (split; [solve [auto]|]). auto.
  - intros (before & after & vs & ls & F1 & F2 & F3 & F4 & F5 & F6). exists before, after, vs, ls, []. rewrite app_nil_r. subst l. repeat (split; [solve [auto]|]). auto.
Qed.

(** ** EDNS options *)
Lemma lines_app : forall a b, printable_lines (a ++ b) <-> printable_lines a /\ printable_lines b.
Proof. intros. unfold printable_lines. apply Forall_app. Qed.
Lemma printable_lines_of : forall s, printable s -> printable_lines s.
Proof. intros s H. eapply Forall_impl; [|exact H]. cbn beta. lia. Qed.
Lemma print_printable_safe : forall l rest, exists s, print_printable (length l) (l ++ rest) = Ok s /\ printable s /\ zlen s = zlen l.
Proof.
  induction l as [|c l IH]; intros rest; [exists []; repeat split; pr|]. destruct (IH rest) as (s & E & P & Z). cbn [length app print_printable hd_rd bind tl]. rewrite E. cbn [bind].
  eexists. split; [reflexivity|]. split; [|rewrite !zlen_cons; lia]. apply printable_cons. split; [|auto]. unfold isprint. destruct (_ && _) eqn:K; lia.
Qed.
Lemma hex_blanks_printable : forall l, bytes_ok l -> printable (concat (map (fun b => hex2 false b ++ [32]) l)).
Proof. intros l B. apply concat_printable. intros a I. unfold bytes_ok in B. rewrite Forall_forall in B. pose proof (hex2_printable false a (B a I)). pr. Qed.
Lemma zlen_ede : zlen ede_purpose = 25. Proof. reflexivity. Qed.
Lemma ede_printable : Forall printable ede_purpose.
Proof. unfold ede_purpose. repeat (apply Forall_cons; [plit|]). apply Forall_nil. Qed.

Lemma ednsoptdata_safe : forall code src n, bytes_ok src -> 0 <= n <= zlen src -> n < 65536 -> gr (ednsoptdata_text code src n).
Proof.
  intros code src n B R RM. unfold ednsoptdata_text. destruct (code =? 8).
  { destruct (n <? 2) eqn:E; [eexists _, _; split; [reflexivity|pr]|]. destruct (split_len src 2 B ltac:(lia)) as (l & rest & -> & L & B1 & B2). destruct (two l L B1) as (f1 & f2 & -> & Ba & Bb).
    rewrite take_rd_app by auto. cbn [bind nth]. rewrite adv_app by auto. rewrite zlen_app, L in R. destruct (n - 2 <? 1) eqn:E2; [eexists _, _; split; [reflexivity|pr]|].
    destruct (split_hd rest B2 ltac:(lia)) as (so & r1 & -> & Bs & B3 & L3). cbn [hd_rd bind]. change (adv (so :: r1) 1) with r1. rewrite zlen_cons in R. destruct (n - 2 - 1 <? 1) eqn:E3; [eexists _, _; split; [reflexivity|pr]|].
    destruct (split_hd r1 B3 ltac:(lia)) as (sc & r2 & -> & Bs2 & B4 & L4). cbn [hd_rd bind]. change (adv (sc :: r2) 1) with r2. rewrite zlen_cons in R.
    unfold ip_to_ubuf. set (fam := be16 f1 f2). destruct (negb (fam =? 1) && negb (fam =? 2)) eqn:F1; [cbn [bind]; eexists _, _; split; [reflexivity|pr]|].
    destruct ((fam =? 1) && (n - 2 - 1 - 1 >? 4)) eqn:F2; [cbn [bind]; eexists _, _; split; [reflexivity|pr]|].
    destruct ((fam =? 2) && (n - 2 - 1 - 1 >? 16)) eqn:F3; [cbn [bind]; eexists _, _; split; [reflexivity|pr]|].
    destruct (split_len r2 (n - 2 - 1 - 1) B4 ltac:(lia)) as (a & rest & -> & L5 & B5 & B6). rewrite take_rd_app by auto. cbn [bind].
    assert (A16 : zlen a <= 16) by lia. pose proof (zlen_nonneg _ a).
    assert (BL : blit (repeat 0 16) 0 a = Ok (a ++ repeat 0 (Z.to_nat (16 - zlen a)))).
    { replace (repeat 0 16) with (@nil Z ++ repeat 0 (Z.to_nat (zlen a)) ++ repeat 0 (Z.to_nat (16 - zlen a))).
      - rewrite blit_ok; [reflexivity|reflexivity|rewrite zlen_repeat; lia].
      - cbn [app]. rewrite <- repeat_plus. f_equal. lia. }
    rewrite BL. cbn [bind]. set (addr := a ++ repeat 0 (Z.to_nat (16 - zlen a))).
    assert (BA : bytes_ok addr). { unfold addr. apply bytes_ok_app. split; [auto|]. apply Forall_forall. intros x X. apply repeat_spec in X. subst. unfold is_byte. lia. }
    assert (LA : zlen addr = 16) by (unfold addr; rewrite zlen_app, zlen_repeat; lia).
    assert (PT : exists t, (if fam =? 1 then pres4 addr 46 else pres6 addr 46) = Ok t /\ printable t).
    { destruct (fam =? 1).
      - destruct (split_len addr 4 BA ltac:(lia)) as (x & y & -> & X & X1 & X2). destruct (pres4_split x y 46 X1 X ltac:(lia)) as (s & -> & V). exists s. split; [auto|apply visible_printable; auto].
      - destruct (pres6_split addr [] BA LA) as (s & E4 & V). rewrite app_nil_r in E4. exists s. split; [auto|apply visible_printable; auto]. }
    destruct PT as (t & -> & PT). cbn [bind]. unfold is_byte in *. eexists _, _. split; [reflexivity|].
    assert (K : forall b, 0 <= b < 256 -> printable (fmt_u b)) by (intros b Hb; apply fmt_u_printable; change (10 ^ 20) with 100000000000000000000; lia). pose proof (K _ Bs). pose proof (K _ Bs2). pr. }
  destruct (code =? 15).
  { destruct (n <? 2) eqn:E; [eexists _, _; split; [reflexivity|pr]|]. destruct (split_len src 2 B ltac:(lia)) as (l & rest & -> & L & B1 & B2). destruct (two l L B1) as (f1 & f2 & -> & Ba & Bb).
    rewrite take_rd_app by auto. cbn [bind nth]. rewrite adv_app by auto. rewrite zlen_app in R. pose proof (be16_range f1 f2 Ba Bb) as IR. rewrite u64_text_fmt by (change (10 ^ (6 - 1)) with 100000; lia). cbn [bind].
    destruct (split_len rest (n - 2) B2 ltac:(lia)) as (a & rest' & -> & L5 & B5 & B6). replace (Z.to_nat (n - 2)) with (length a) by (unfold zlen in L5; lia).
    destruct (print_printable_safe a rest') as (p & -> & PP & _). cbn [bind]. eexists _, _. split; [reflexivity|].
    assert (PF : printable (fmt_u (be16 f1 f2))) by (apply fmt_u_printable; change (10 ^ 20) with 100000000000000000000; lia).
    set (purpose := if be16 f1 f2 <? zlen ede_purpose then _ else _).
    assert (PU : printable purpose). { unfold purpose. rewrite zlen_ede. destruct (be16 f1 f2 <? 25) eqn:EP; [|pr]. apply printable_app. split; [plit|]. apply printable_app. split; [|pr].
      pose proof ede_printable as K. rewrite Forall_forall in K. apply K. apply nth_In. change (length ede_purpose) with 25%nat. lia. }
    pr. }
  destruct (split_len src n B ltac:(lia)) as (l & rest & -> & L & B1 & B2). replace (Z.to_nat n) with (length l) by (unfold zlen in L; lia). rewrite hex_blanks_spec by (auto; lia). cbn [bind].
  destruct (print_printable_safe l rest) as (p & -> & PP & _). cbn [bind]. eexists _, _. split; [reflexivity|]. pose proof (hex_blanks_printable l B1). pr.
Qed.

Lemma optcode_printable : forall k, 0 <= k < 65536 -> printable (ednsoptcode_text k).
Proof. intros k H. unfold ednsoptcode_text. destruct (k =? 8); [plit|]. destruct (k =? 15); [plit|]. assert (printable (fmt_u k)) by (apply fmt_u_printable; change (10 ^ 20) with 100000000000000000000; lia). pr. Qed.

Lemma ednsopts_safe : forall f src n, bytes_ok src -> 0 <= n <= zlen src -> (length src < f)%nat ->
  exists s g, ednsopts_text f src n = Ok (s, g) /\ printable_lines s /\ match g with TNext s' n' => n' = 0 | _ => True end.
Proof.
  induction f as [|f IH]; intros src n B R F; [lia|]. cbn [ednsopts_text]. destruct (n >? 0) eqn:E.
  2:{ exists [], (TNext src n). split; [auto|]. split; [constructor|]. cbv beta iota. lia. }
  destruct (n <? 2) eqn:E2; [exists [], TErr; repeat split; constructor|].
  destruct (split_len src 2 B ltac:(lia)) as (l & rest & -> & L & B1 & B2). destruct (two l L B1) as (k1 & k2 & -> & Ba & Bb).
  rewrite take_rd_app by auto. cbn [bind nth]. rewrite adv_app by auto. rewrite zlen_app in R. pose proof (be16_range k1 k2 Ba Bb) as KR.
  pose proof (printable_lines_of _ (optcode_printable _ KR)) as PH.
  destruct (n - 2 <? 2) eqn:E3; [eexists _, TErr; split; [reflexivity|auto]|].
  destruct (split_len rest 2 B2 ltac:(lia)) as (l & rest' & -> & L2 & B3 & B4). destruct (two l L2 B3) as (v1 & v2 & -> & Bv1 & Bv2).
  rewrite take_rd_app by auto. cbn [bind nth]. rewrite adv_app by auto. rewrite zlen_app in R. pose proof (be16_range v1 v2 Bv1 Bv2) as VR.
  destruct (n - 2 - 2 <? be16 v1 v2) eqn:E4; [eexists _, TErr; split; [reflexivity|auto]|].
  destruct (ednsoptdata_safe (be16 k1 k2) rest' (be16 v1 v2) B4 ltac:(lia) ltac:(lia)) as (t & r & -> & PT). apply printable_lines_of in PT. cbn [bind].
  destruct r as [r|]; cbn [after_res].
  { cbn [emit bind]. eexists _, _. split; [reflexivity|]. split; [rewrite app_nil_r; apply lines_app; auto|auto]. }
  destruct (split_len rest' (be16 v1 v2) B4 ltac:(lia)) as (v & r' & -> & LV & B5 & B6). rewrite adv_app by auto. rewrite zlen_app in R.
  destruct (IH r' (n - 2 - 2 - be16 v1 v2) B6 ltac:(lia)) as (s & g & -> & P & G). { rewrite !app_length in F. cbn in F. lia. }
  cbn [emit bind]. eexists _, _. split; [reflexivity|]. split; [|auto]. apply lines_app. split; [apply lines_app; auto|]. apply lines_app. split; [|auto]. destruct (n - 2 - 2 - be16 v1 v2 >? 0); [apply Forall_cons; [lia|constructor]|constructor].
Qed.
