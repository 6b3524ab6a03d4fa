(** ProofNameStr.v: domain_to_str, str_to_name. *)
From Verif Require Import Base Lib SpecName ModelName ProofUnpack ProofCopy ProofNameOps.

(** ** domain_to_str *)
Lemma pres_octet_len : forall c, 1 <= zlen (pres_octet c) <= 4.
Proof. intros c. unfold pres_octet. destruct (_ || _); [zl; lia|]. destruct (_ && _); zl; lia. Qed.

Lemma pres_label_len : forall l, 0 <= zlen (pres_label l) <= 4 * zlen l.
Proof.
  induction l as [|c l IH]; [change (zlen (pres_label [])) with 0; zl; lia|]. unfold pres_label in *. cbn [map concat]. zl. pose proof (pres_octet_len c). lia.
Qed.

Lemma pres_label_cons : forall c l, pres_label (c :: l) = pres_octet c ++ pres_label l.
Proof. reflexivity. Qed.

(** One character. *)
Lemma dts_chars_step : forall k c src rem dst, 0 < rem -> zlen dst + 5 <= 1025 ->
  dts_chars (S k) (c :: src) rem dst = dts_chars k src (rem - 1) (dst ++ pres_octet c).
Proof.
  intros k c src rem dst R B. cbn [dts_chars hd_rd bind tl]. replace (rem >? 0) with true by lia. unfold pres_octet, PRESLEN_NAME.
  destruct ((c =? 46) || (c =? 92)); [rewrite push_ok by zlia; reflexivity|].
  destruct ((33 <=? c) && (c <=? 126)); [rewrite push_ok by zlia; reflexivity|].
  rewrite push_ok by (unfold esc_ddd; zlia). reflexivity.
Qed.

Lemma dts_chars_label : forall l src rem dst, zlen l <= rem -> zlen dst + 4 * zlen l + 1 <= 1025 ->
  dts_chars (length l) (l ++ src) rem dst = Ok (src, rem - zlen l, dst ++ pres_label l).
Proof.
  induction l as [|c l IH]; intros src rem dst R B.
  - cbn [length dts_chars app]. rewrite zlen_nil, app_nil_r, Z.sub_0_r. reflexivity.
  - zl. pose proof (zlen_nonneg _ l). cbn [length app]. rewrite dts_chars_step by lia. pose proof (pres_octet_len c).
    rewrite IH by zlia. rewrite pres_label_cons, app_assoc. f_equal. f_equal. f_equal. lia.
Qed.

Fixpoint pres_dots (ls : lname) : bytes := match ls with [] => [] | l :: r => pres_label l ++ 46 :: pres_dots r end.

Lemma pres_dots_spec : forall ls, ls <> [] -> pres_name ls = pres_dots ls.
Proof.
  intros [|l ls] H; [congruence|]. unfold pres_name. clear H.
  assert (G : forall x, concat (map (fun l => pres_label l ++ [46]) x) = pres_dots x).
  { induction x as [|a x IH]; auto. cbn [map concat pres_dots]. rewrite IH, <- app_assoc. reflexivity. }
  apply G.
Qed.

Lemma dts_loop_wire : forall ls f rest rem dst read, valid_labels ls -> zlen (wire ls) <= rem -> zlen dst + 4 * zlen (wire ls) <= 1020 ->
  (length ls < f)%nat -> (ls = [] -> read <> 0) -> 0 <= read ->
  dts_loop f (wire ls ++ rest) rem dst (match ls with [] => 0 | l :: _ => zlen l end) read
   = Ok (dst ++ pres_dots ls, read + zlen (wire ls)).
Proof.
  induction ls as [|l ls IH]; intros f rest rem dst read V R B F NZ RD; (destruct f as [|f]; [simpl in F; lia|]).
  - cbn [dts_loop]. replace ((rem >? 0) && negb (0 =? 0)) with false by lia.
    specialize (NZ eq_refl). replace (read =? 0) with false by lia. cbn [bind]. change (zlen (wire [])) with 1 in *. unfold PRESLEN_NAME.
    rewrite push_ok by zlia. cbn [bind pres_dots]. rewrite app_nil_r. reflexivity.
  - apply valid_labels_cons in V as [[V1 V2] V]. rewrite wire_cons in *. cbn [dts_loop app tl]. zl.
    pose proof (zlen_wire ls). pose proof (zlen_nonneg _ (prewire ls)). pose proof (zlen_nonneg _ dst).
    replace ((rem >? 0) && negb (zlen l =? 0)) with true by lia.
    replace (Z.to_nat (zlen l)) with (length l) by (unfold zlen; lia). rewrite <- app_assoc.
    rewrite dts_chars_label by lia. cbn [bind]. pose proof (pres_label_len l). unfold PRESLEN_NAME.
    rewrite push_ok by zlia. cbn [bind].
    assert (HD : hd_rd (wire ls ++ rest) = Ok (match ls with [] => 0 | l :: _ => zlen l end)) by (destruct ls; reflexivity).
    rewrite HD. cbn [bind]. rewrite IH; auto; try zlia; [|simpl in F; lia].
    cbn [pres_dots]. rewrite <- !app_assoc. cbn [app]. f_equal. f_equal. lia.
Qed.

Lemma domain_to_str_wire : forall ls rest n, valid_name ls -> zlen (wire ls) <= n ->
  domain_to_str (wire ls ++ rest) n = Ok (pres_name ls, zlen (wire ls)).
Proof.
  intros ls rest n [V L] R. unfold domain_to_str. destruct ls as [|l ls].
  - cbn [wire prewire map concat app hd_rd bind length]. cbn [dts_loop].
    replace ((n >? 0) && negb (0 =? 0)) with false by lia. reflexivity.
  - assert (HD : hd_rd (wire (l :: ls) ++ rest) = Ok (zlen l)) by reflexivity. rewrite HD. cbn [bind].
    pose proof (dts_loop_wire (l :: ls) (S (length (wire (l :: ls) ++ rest))) rest n [] 0 V R) as K. rewrite zlen_nil in K.
    rewrite K; try lia.
    + rewrite pres_dots_spec by discriminate. reflexivity.
    + rewrite app_length. pose proof (prewire_length (l :: ls)). pose proof (zlen_wire (l :: ls)). unfold zlen in *. lia.
    + discriminate.
Qed.

(** Arbitrary sources: at most 1025 octets written, reads at most one octet past the end. *)
Lemma dts_chars_any : forall k src rem dst, 0 <= rem -> zlen dst + 4 * rem <= 1016 ->
  (exists src' rem' dst', dts_chars k src rem dst = Ok (src', rem', dst') /\ 0 <= rem' <= rem /\
     zlen dst' + 4 * rem' <= 1016 /\ zlen src' = zlen src - (rem - rem'))
  \/ (dts_chars k src rem dst = UB OobRead /\ zlen src < rem).
Proof.
  induction k as [|k IH]; intros src rem dst R B.
  - left. exists src, rem, dst. cbn [dts_chars]. repeat split; auto; lia.
  - destruct (Z.eq_dec rem 0) as [->|NZ].
    + left. exists src, 0, dst. cbn [dts_chars]. replace (0 >? 0) with false by lia. repeat split; auto; lia.
    + destruct src as [|c src].
      * right. cbn [dts_chars hd_rd bind]. replace (rem >? 0) with true by lia. rewrite zlen_nil. split; auto; lia.
      * rewrite dts_chars_step by lia. pose proof (pres_octet_len c).
        destruct (IH src (rem - 1) (dst ++ pres_octet c) ltac:(lia) ltac:(zlia)) as [(s & r & d & -> & X)|[-> X]].
        -- left. exists s, r, d. zl. repeat split; auto; lia.
        -- right. zl. split; auto; lia.
Qed.

Lemma dts_loop_any : forall f src rem dst oclen read, 0 <= rem -> zlen dst + 4 * rem <= 1020 -> zlen src < Z.of_nat f ->
  src <> [] ->
  (exists s n, dts_loop f src rem dst oclen read = Ok (s, n) /\ zlen s + 1 <= 1025)
  \/ (dts_loop f src rem dst oclen read = UB OobRead /\ zlen src <= rem).
Proof.
  induction f as [|f IH]; intros src rem dst oclen read R B F NE; [pose proof (zlen_nonneg _ src); lia|]. cbn [dts_loop].
  destruct src as [|h src]; [congruence|]. cbn [tl].
  destruct ((rem >? 0) && negb (oclen =? 0)) eqn:E.
  - destruct (dts_chars_any (Z.to_nat oclen) src (rem - 1) dst ltac:(lia) ltac:(lia)) as [(s & r & d & -> & X & Y & Z1)|[-> X]].
    + cbn [bind]. unfold PRESLEN_NAME. rewrite push_ok by zlia. cbn [bind]. destruct s as [|c s]; cbn [hd_rd bind].
      * right. split; auto. zl; lia.
      * destruct (IH (c :: s) r (d ++ [46]) c (read + oclen + 1) ltac:(lia) ltac:(zlia) ltac:(zlia) ltac:(discriminate)) as [K|[K1 K2]]; [left; auto|].
        right. split; auto. zl; lia.
    + right. cbn [bind]. split; auto. zl; lia.
  - left. unfold PRESLEN_NAME. destruct (read =? 0).
    + rewrite push_ok by zlia. cbn [bind]. rewrite push_ok by zlia. cbn [bind]. eexists _, _; split; [reflexivity|zlia].
    + cbn [bind]. rewrite push_ok by zlia. cbn [bind]. eexists _, _; split; [reflexivity|zlia].
Qed.

Lemma domain_to_str_any : forall src n, 0 <= n <= 255 ->
  (exists s k, domain_to_str src n = Ok (s, k) /\ zlen s + 1 <= 1025)
  \/ (domain_to_str src n = UB OobRead /\ zlen src <= n).
Proof.
  intros src n Hn. unfold domain_to_str. destruct src as [|c src].
  - right. cbn [hd_rd bind]. rewrite zlen_nil. split; auto; lia.
  - cbn [hd_rd bind]. apply dts_loop_any; [lia|rewrite zlen_nil; lia|unfold zlen; lia|discriminate].
Qed.
