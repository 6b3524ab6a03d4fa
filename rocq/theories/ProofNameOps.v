(** ProofNameOps.v: reverse_name, left_chop, count_labels, is_subdomain, downcase_name. *)
From Verif Require Import Base Lib SpecName ModelName ProofUnpack ProofCopy.

Lemma wire_nonempty : forall ls, exists b r, wire ls = b :: r.
Proof. intros [|l ls]; [exists 0, []; auto|]. rewrite wire_cons. eauto. Qed.

Lemma valid_labels_cons : forall l ls, valid_labels (l :: ls) <-> valid_label l /\ valid_labels ls.
Proof. intros; unfold valid_labels; split; [intros H; inversion H; auto|intros [? ?]; auto]. Qed.
Lemma valid_labels_app : forall a b, valid_labels (a ++ b) <-> valid_labels a /\ valid_labels b.
Proof. intros; apply Forall_app. Qed.
Lemma valid_labels_rev : forall a, valid_labels a -> valid_labels (rev a).
Proof. intros; apply Forall_rev; auto. Qed.

Lemma prewire_bytes : forall ls, valid_labels ls -> bytes_ok (prewire ls).
Proof.
  intros ls V. induction V as [|l ls [H HB] V IH]; [constructor|]. rewrite prewire_cons. apply bytes_ok_cons.
  split; [unfold is_byte; lia|]. apply bytes_ok_app; auto.
Qed.
Lemma wire_bytes : forall ls, valid_labels ls -> bytes_ok (wire ls).
Proof. intros. unfold wire. apply bytes_ok_app. split; [apply prewire_bytes; auto|repeat constructor; lia]. Qed.

(** ** reverse_name *)
Lemma zlen_prewire_rev : forall ls, zlen (prewire (rev ls)) = zlen (prewire ls).
Proof.
  induction ls as [|l ls IH]; auto. simpl rev. rewrite prewire_app, zlen_app, zlen_prewire_cons, IH, zlen_prewire_cons, zlen_prewire_nil. lia.
Qed.

Lemma repeat_plus : forall A (a : A) n m, repeat a (n + m) = repeat a n ++ repeat a m.
Proof. intros; apply repeat_app. Qed.

Lemma reverse_loop_ok : forall ls f rest done n, valid_labels ls -> (length ls < f)%nat ->
  zlen (prewire done) + zlen (prewire ls) + 1 <= n ->
  reverse_loop f (wire ls ++ rest) n (zlen (prewire done)) (n - 1 - zlen (prewire done))
    (repeat 0 (Z.to_nat (n - 1 - zlen (prewire done))) ++ prewire (rev done) ++ [0]) =
  Ok (repeat 0 (Z.to_nat (n - 1 - zlen (prewire done) - zlen (prewire ls))) ++ prewire (rev (done ++ ls)) ++ [0]).
Proof.
  induction ls as [|l ls IH]; intros f rest done n V F B; (destruct f as [|f]; [simpl in F; lia|]).
  - rewrite zlen_prewire_nil, app_nil_r. simpl. replace (n - 1 - zlen (prewire done) - 0) with (n - 1 - zlen (prewire done)) by lia. reflexivity.
  - apply valid_labels_cons in V as [[V1 V2] V]. rewrite wire_cons. cbn [reverse_loop app hd_rd bind].
    rewrite zlen_prewire_cons in *. pose proof (zlen_nonneg _ (prewire done)). pose proof (zlen_nonneg _ (prewire ls)).
    replace (zlen l =? 0) with false by lia. replace (_ >? n) with false by lia.
    assert (S : zlen l :: (l ++ wire ls) ++ rest = (zlen l :: l) ++ (wire ls ++ rest)) by (simpl; rewrite <- app_assoc; auto).
    rewrite S, take_rd_app by zlia. cbn [bind].
    set (o := n - 1 - zlen (prewire done)) in *.
    replace (repeat 0 (Z.to_nat o)) with (repeat 0 (Z.to_nat (o - (zlen l + 1))) ++ repeat 0 (Z.to_nat (zlen l + 1))).
    2:{ rewrite <- repeat_plus. f_equal. lia. }
    rewrite <- app_assoc. rewrite blit_ok by (rewrite ?zlen_repeat; zlia). cbn [bind]. rewrite adv_app by zlia.
    specialize (IH f rest (done ++ [l]) n V ltac:(simpl in F; lia)).
    rewrite prewire_app, zlen_app, zlen_prewire_cons, zlen_prewire_nil in IH.
    rewrite rev_app_distr in IH. cbn [rev app] in IH.
    replace (zlen (prewire done) + (zlen l + 1)) with (zlen (prewire done) + (1 + zlen l + 0)) by lia.
    replace (o - (zlen l + 1)) with (n - 1 - (zlen (prewire done) + (1 + zlen l + 0))) by lia.
    rewrite prewire_cons in IH. simpl app in IH. simpl app. rewrite <- app_assoc in IH. rewrite IH by lia.
    f_equal. f_equal; [f_equal; lia|]. rewrite <- app_assoc. reflexivity.
Qed.

Lemma reverse_name_wire : forall ls rest, valid_labels ls ->
  reverse_name (wire ls ++ rest) (zlen (wire ls)) = Ok (wire (rev ls)).
Proof.
  intros ls rest V. unfold reverse_name. pose proof (zlen_nonneg _ (prewire ls)). pose proof (zlen_wire ls).
  pose proof (reverse_loop_ok ls (S (length (wire ls ++ rest))) rest [] (zlen (wire ls)) V) as K.
  rewrite zlen_prewire_nil in K. simpl app in K. change (prewire (rev [])) with (@nil Z) in K. simpl app in K.
  replace (zlen (wire ls) - 1 - 0) with (zlen (wire ls) - 1) in K by lia.
  replace (repeat 0 (Z.to_nat (zlen (wire ls)))) with (repeat 0 (Z.to_nat (zlen (wire ls) - 1)) ++ [0]).
  2:{ replace [0] with (repeat 0 1) by reflexivity. rewrite <- repeat_plus. f_equal. lia. }
  rewrite K; [|rewrite app_length; pose proof (prewire_length ls); unfold zlen in *; lia|lia].
  replace (zlen (wire ls) - 1 - zlen (prewire ls)) with 0 by lia. reflexivity.
Qed.

(** ** left_chop *)
Lemma left_chop_root : forall rest, left_chop (wire [] ++ rest) 1 = Ok (wire [] ++ rest, 1).
Proof. reflexivity. Qed.

Lemma left_chop_cons : forall l ls rest, valid_name (l :: ls) ->
  left_chop (wire (l :: ls) ++ rest) (zlen (wire (l :: ls))) = Ok (wire ls ++ rest, zlen (wire ls)).
Proof.
  intros l ls rest [V L]. apply valid_labels_cons in V as [[V1 V2] V]. unfold left_chop. rewrite wire_cons in *.
  cbn [app hd_rd bind]. zl. pose proof (zlen_wire ls). pose proof (zlen_nonneg _ (prewire ls)).
  replace ((zlen l =? 0) && _) with false by lia. replace (_ >? _) with false by lia.
  rewrite <- app_assoc. replace (zlen l :: l ++ wire ls ++ rest) with ((zlen l :: l) ++ wire ls ++ rest) by reflexivity.
  rewrite adv_app by zlia. f_equal. f_equal. rewrite Z.mod_small; lia.
Qed.

(** ** count_labels *)
Lemma count_loop_prefix : forall ls f tail pos len n, valid_labels ls -> pos + zlen (prewire ls) <= len ->
  count_loop (length ls + f) (prewire ls ++ tail) pos len n = count_loop f tail (pos + zlen (prewire ls)) len (n + zlen ls).
Proof.
  induction ls as [|l ls IH]; intros f tail pos len n V B.
  - rewrite zlen_prewire_nil, zlen_nil. simpl. f_equal; lia.
  - apply valid_labels_cons in V as [[V1 V2] V]. rewrite prewire_cons, zlen_cons in *. cbn [length plus count_loop app hd_rd bind tl].
    zl. pose proof (zlen_nonneg _ (prewire ls)).
    replace (zlen l =? 0) with false by lia. replace (zlen l <=? 63) with true by lia.
    rewrite <- app_assoc, adv_app by auto. replace (_ >? len) with false by lia.
    rewrite IH by (auto; lia). f_equal; lia.
Qed.

Lemma length_prewire_app : forall ls (tail : bytes), exists k, S (length (prewire ls ++ tail)) = (length ls + S k)%nat.
Proof.
  intros. exists (length (prewire ls ++ tail) - length ls)%nat. rewrite app_length. pose proof (prewire_length ls). unfold zlen in *. lia.
Qed.

Lemma count_labels_wire : forall ls rest len, valid_labels ls -> zlen (prewire ls) <= len ->
  count_labels (wire ls ++ rest) len = Ok (zlen ls).
Proof.
  intros ls rest len V B. unfold count_labels, wire. rewrite <- app_assoc.
  destruct (length_prewire_app ls ([0] ++ rest)) as [k ->]. rewrite count_loop_prefix by (auto; lia). reflexivity.
Qed.

Lemma count_labels_reserved : forall ls c rest len, valid_labels ls -> zlen (prewire ls) <= len -> 64 <= c ->
  count_labels (prewire ls ++ c :: rest) len = Err res_invalid_length_octet.
Proof.
  intros ls c rest len V B C. unfold count_labels.
  destruct (length_prewire_app ls (c :: rest)) as [k ->]. rewrite count_loop_prefix by (auto; lia).
  cbn [count_loop hd_rd bind]. replace (c =? 0) with false by lia. replace (c <=? 63) with false by lia. reflexivity.
Qed.

Lemma count_labels_overflow : forall ls c rest len, valid_labels ls -> zlen (prewire ls) <= len -> 1 <= c <= 63 ->
  len < zlen (prewire ls) + 1 + c ->
  count_labels (prewire ls ++ c :: rest) len = Err res_name_overflow.
Proof.
  intros ls c rest len V B C D. unfold count_labels.
  destruct (length_prewire_app ls (c :: rest)) as [k ->]. rewrite count_loop_prefix by (auto; lia).
  cbn [count_loop hd_rd bind]. replace (c =? 0) with false by lia. replace (c <=? 63) with true by lia.
  replace (_ >? len) with true by lia. reflexivity.
Qed.

(** ** is_subdomain *)
Fixpoint offs_of (ls : lname) (pos : Z) : list Z :=
  match ls with [] => [] | l :: r => pos :: offs_of r (pos + 1 + zlen l) end.

Lemma offs_of_length : forall ls pos, length (offs_of ls pos) = length ls.
Proof. induction ls; simpl; auto. Qed.

Lemma offsets_loop_wire : forall ls f rest pos len offs, valid_labels ls -> ls <> [] -> (length ls <= f)%nat ->
  0 <= pos -> pos + zlen (prewire ls) <= len -> len <= 255 ->
  offsets_loop f (wire ls ++ rest) pos len (zlen offs + zlen ls) offs = Ok (offs ++ offs_of ls pos).
Proof.
  induction ls as [|l ls IH]; intros f rest pos len offs V NE F P B BL; [congruence|].
  destruct f as [|f]; [simpl in F; lia|].
  apply valid_labels_cons in V as [[V1 V2] V]. rewrite wire_cons in *. rewrite prewire_cons in *. cbn [offsets_loop app hd_rd bind offs_of]. zl.
  pose proof (zlen_nonneg _ ls). pose proof (zlen_nonneg _ offs). pose proof (zlen_wire ls). pose proof (zlen_nonneg _ (prewire ls)).
  replace (zlen l =? 0) with false by lia. replace (zlen l <=? 63) with true by lia.
  rewrite push_ok by zlia. cbn [bind]. rewrite (Z.mod_small pos) by lia. zl.
  destruct (zlen offs + (0 + 1) =? zlen offs + (zlen ls + 1)) eqn:E.
  - assert (ls = []) by (apply zlen_zero; lia). subst. reflexivity.
  - replace (pos + zlen l >? len) with false by lia.
    replace (adv (zlen l :: (l ++ wire ls) ++ rest) (zlen l)) with (skipn (Z.to_nat (zlen l - 1)) l ++ wire ls ++ rest).
    2:{ unfold adv. rewrite <- app_assoc.
        replace (Z.to_nat (zlen l)) with (S (Z.to_nat (zlen l - 1))) by lia. cbn [skipn].
        rewrite skipn_app. f_equal. replace (Z.to_nat (zlen l - 1) - length l)%nat with 0%nat by (unfold zlen; lia). reflexivity. }
    assert (LS : exists x, skipn (Z.to_nat (zlen l - 1)) l = [x]).
    { pose proof (zlen_skipn _ l (zlen l - 1) ltac:(lia)) as K. destruct (skipn _ l) as [|x [|y r]]; zl; try lia; eauto.
      pose proof (zlen_nonneg _ r). lia. }
    destruct LS as [x ->]. cbn [app tl].
    replace (zlen offs + (zlen ls + 1)) with (zlen (offs ++ [pos]) + zlen ls) by zlia.
    replace (pos + zlen l + 1) with (pos + 1 + zlen l) by lia.
    rewrite IH; auto; try lia.
    + rewrite <- app_assoc. reflexivity.
    + intros ->. rewrite zlen_nil in E. lia.
    + simpl in F. lia.
Qed.

Lemma label_offsets_wire : forall ls rest len, valid_labels ls -> zlen (prewire ls) <= len <= 255 -> ls <> [] ->
  label_offsets (wire ls ++ rest) len (zlen ls) = Ok (offs_of ls 0).
Proof.
  intros ls rest len V L NE. unfold label_offsets.
  pose proof (prewire_length ls). pose proof (zlen_wire ls).
  pose proof (offsets_loop_wire ls (S (length (wire ls ++ rest))) rest 0 len []) as K. rewrite zlen_nil in K.
  simpl app in K. rewrite !Z.add_0_l in K. rewrite K; auto; try lia. rewrite app_length. unfold zlen in *. lia.
Qed.

(** The memory at the offset of the label number |a|. *)
Lemma adv_offset : forall a l b rest pos, 
  adv (wire (a ++ l :: b) ++ rest) (nth (length a) (offs_of (a ++ l :: b) pos) 0 - pos) = wire (l :: b) ++ rest.
Proof.
  induction a as [|x a IH]; intros l b rest pos.
  - cbn [length app offs_of nth]. replace (pos - pos) with 0 by lia. reflexivity.
  - cbn [length app offs_of nth]. rewrite (wire_cons x).
    assert (G : forall ls pos k, (k < length ls)%nat -> pos <= nth k (offs_of ls pos) 0).
    { clear. induction ls as [|y ls IH]; intros pos k H; [simpl in H; lia|]. destruct k; cbn [offs_of nth]; [lia|].
      specialize (IH (pos + 1 + zlen y) k ltac:(simpl in H; lia)). pose proof (zlen_nonneg _ y). lia. }
    specialize (G (a ++ l :: b) (pos + 1 + zlen x) (length a) ltac:(rewrite app_length; simpl; lia)).
    set (o := nth _ _ _) in *. replace ((zlen x :: x ++ wire (a ++ l :: b)) ++ rest) with ((zlen x :: x) ++ (wire (a ++ l :: b) ++ rest)) by (simpl; rewrite <- app_assoc; auto).
    pose proof (zlen_nonneg _ x).
    unfold adv. replace (Z.to_nat (o - pos)) with (length (zlen x :: x) + Z.to_nat (o - (pos + 1 + zlen x)))%nat by (simpl; unfold zlen in *; lia).
    rewrite skipn_app. rewrite skipn_all2 by lia.
    replace (length (zlen x :: x) + Z.to_nat (o - (pos + 1 + zlen x)) - length (zlen x :: x))%nat with (Z.to_nat (o - (pos + 1 + zlen x))) by lia.
    cbn [app]. apply IH.
Qed.

Lemma compare_label_ok : forall l0 r0 l1 r1, 
  compare_label (zlen l0 :: l0 ++ r0) (zlen l1 :: l1 ++ r1) = Ok (if list_eq_dec Z.eq_dec l0 l1 then true else false).
Proof.
  intros. unfold compare_label. cbn [hd_rd bind tl]. destruct (zlen l0 =? zlen l1) eqn:E.
  - rewrite take_rd_app by auto. cbn [bind]. rewrite take_rd_app by lia. reflexivity.
  - destruct (list_eq_dec Z.eq_dec l0 l1) as [->|]; auto. lia.
Qed.

Lemma subdomain_loop_ok : forall k a0 b0 c0 b1 c1 r0 r1, length b1 = k -> length b0 = k ->
  subdomain_loop k (wire (a0 ++ b0 ++ c0) ++ r0) (wire (b1 ++ c1) ++ r1)
    (offs_of (a0 ++ b0 ++ c0) 0) (offs_of (b1 ++ c1) 0) (zlen a0 + zlen b0 - 1)
  = Ok (if list_eq_dec (list_eq_dec Z.eq_dec) b0 b1 then true else false).
Proof.
  induction k as [|k IH]; intros a0 b0 c0 b1 c1 r0 r1 L1 L0.
  - destruct b0, b1; try discriminate. cbn [subdomain_loop]. destruct (list_eq_dec _ _ _); congruence.
  - destruct (exists_last (l := b0)) as (b0' & x0 & ->); [intros ->; discriminate|].
    destruct (exists_last (l := b1)) as (b1' & x1 & ->); [intros ->; discriminate|].
    rewrite app_length in L0, L1. simpl in L0, L1.
    cbn [subdomain_loop]. unfold offset_at.
    assert (Z0 : Z.to_nat (zlen a0 + zlen (b0' ++ [x0]) - 1) = length (a0 ++ b0')).
    { rewrite app_length. zl. unfold zlen. lia. }
    rewrite Z0. rewrite <- (app_assoc b0'), <- (app_assoc b1'). cbn [app].
    rewrite (app_assoc a0 b0').
    pose proof (adv_offset (a0 ++ b0') x0 c0 r0 0) as A0. rewrite Z.sub_0_r in A0.
    pose proof (adv_offset b1' x1 c1 r1 0) as A1. rewrite Z.sub_0_r in A1.
    replace (Z.to_nat (Z.of_nat k)) with (length b1') by lia.
    rewrite A0, A1. rewrite !wire_cons. cbn [app]. rewrite <- !(app_assoc x0), <- !(app_assoc x1), compare_label_ok.
    cbn [bind]. destruct (list_eq_dec Z.eq_dec x0 x1) as [->|NE].
    + specialize (IH a0 b0' (x1 :: c0) b1' (x1 :: c1) r0 r1 ltac:(lia) ltac:(lia)).
      replace (zlen a0 + zlen (b0' ++ [x1]) - 1 - 1) with (zlen a0 + zlen b0' - 1) by zlia.
      rewrite (app_assoc a0 b0') in IH. rewrite IH. f_equal.
      destruct (list_eq_dec (list_eq_dec Z.eq_dec) b0' b1') as [->|N2]; destruct (list_eq_dec _ _ _) as [E|N]; auto; try congruence.
      apply app_inj_tail in E as [E _]. congruence.
    + destruct (list_eq_dec (list_eq_dec Z.eq_dec) (b0' ++ [x0]) (b1' ++ [x1])) as [E|N]; auto. apply app_inj_tail in E as [_ E]. congruence.
Qed.

Lemma is_subdomain_len : forall n0 n1 r0 r1 len0 len1, valid_labels n0 -> valid_labels n1 ->
  zlen (prewire n0) <= len0 <= 255 -> zlen (prewire n1) <= len1 <= 255 ->
  exists b, is_subdomain (wire n0 ++ r0) len0 (wire n1 ++ r1) len1 = Ok b /\
            (b = true <-> proper_suffix n1 n0).
Proof.
  intros n0 n1 r0 r1 len0 len1 V0 V1 L0 L1. unfold is_subdomain.
  rewrite count_labels_wire by (auto; lia). cbn [as_parse_error bind].
  rewrite count_labels_wire by (auto; lia). cbn [as_parse_error bind].
  pose proof (zlen_nonneg _ n0). pose proof (zlen_nonneg _ n1).
  destruct (zlen n0 <=? zlen n1) eqn:E1.
  { exists false. split; auto. split; [discriminate|]. intros (p & NE & ->). zl.
    destruct p; [congruence|]. zl. pose proof (zlen_nonneg _ p). lia. }
  destruct (zlen n0 =? 0) eqn:E2; [lia|].
  destruct (zlen n1 =? 0) eqn:E3.
  { exists true. split; auto. split; auto. intros _. assert (n1 = []) by (apply zlen_zero; lia). subst.
    exists n0. split; [intros ->; rewrite zlen_nil in *; lia|rewrite app_nil_r; auto]. }
  rewrite label_offsets_wire by (auto; intros ->; rewrite zlen_nil in *; lia). cbn [as_parse_error bind].
  rewrite label_offsets_wire by (auto; intros ->; rewrite zlen_nil in *; lia). cbn [as_parse_error bind].
  set (a0 := firstn (length n0 - length n1) n0). set (b0 := skipn (length n0 - length n1) n0).
  assert (En0 : n0 = a0 ++ b0) by (unfold a0, b0; rewrite firstn_skipn; auto).
  assert (Lb : length b0 = length n1). { unfold b0. rewrite skipn_length. unfold zlen in *. lia. }
  assert (La : zlen a0 = zlen n0 - zlen n1). { rewrite En0, zlen_app. unfold zlen. lia. }
  pose proof (subdomain_loop_ok (length n1) a0 b0 [] n1 [] r0 r1 eq_refl Lb) as K.
  rewrite !app_nil_r, <- En0 in K.
  replace (Z.to_nat (zlen n1)) with (length n1) by (unfold zlen; lia).
  replace (zlen n0 - 1) with (zlen a0 + zlen b0 - 1) by (rewrite En0 at 1; zlia).
  rewrite K. eexists. split; [reflexivity|].
  destruct (list_eq_dec (list_eq_dec Z.eq_dec) b0 n1) as [E|N]; split; auto; try discriminate.
  - intros _. exists a0. split; [intros E5; rewrite E5, zlen_nil in La; lia|congruence].
  - intros (p & NE & E). exfalso. apply N. rewrite En0 in E.
    assert (length a0 = length p). { apply (f_equal (@length _)) in E. rewrite !app_length in E. lia. }
    rewrite <- (skipn_app_exact _ a0 b0 (zlen p)) by (unfold zlen; lia). rewrite E. apply skipn_app_exact; auto.
Qed.

Lemma is_subdomain_ok : forall n0 n1 r0 r1, valid_name n0 -> valid_name n1 ->
  exists b, is_subdomain (wire n0 ++ r0) (zlen (wire n0)) (wire n1 ++ r1) (zlen (wire n1)) = Ok b /\
            (b = true <-> proper_suffix n1 n0).
Proof. intros n0 n1 r0 r1 [V0 L0] [V1 L1]. pose proof (zlen_wire n0). pose proof (zlen_wire n1). apply is_subdomain_len; auto; lia. Qed.

(** ** downcase_name *)
Lemma downcase_loop_ok : forall n p, (n <= length p)%nat -> downcase_loop n p = Ok (map dc (firstn n p) ++ skipn n p).
Proof.
  induction n as [|n IH]; intros p H; [reflexivity|]. destruct p as [|b p]; [simpl in H; lia|].
  cbn [downcase_loop]. rewrite IH by (simpl in H; lia). reflexivity.
Qed.

Lemma downcase_name_ok : forall d rest, downcase_name (d ++ rest) (zlen d) = Ok (map dc d ++ rest).
Proof.
  intros. unfold downcase_name. rewrite downcase_loop_ok by (rewrite app_length; unfold zlen; lia).
  rewrite firstn_app_exact, skipn_app_exact by auto. reflexivity.
Qed.

Lemma map_dc_lower : forall l, bytes_ok l -> map dc l = lower_label l.
Proof. intros l H. unfold lower_label. induction H; simpl; auto. rewrite dc_spec by auto. f_equal. auto. Qed.

Lemma map_dc_prewire : forall ls, valid_labels ls -> map dc (prewire ls) = prewire (lower_name ls).
Proof.
  intros ls V. induction V as [|l ls [H HB] V IH]; auto. cbn [lower_name map]. rewrite !prewire_cons. cbn [map].
  rewrite map_app. fold (lower_name ls). rewrite IH, map_dc_lower by auto.
  rewrite dc_other by lia. f_equal. unfold lower_label. zl. reflexivity.
Qed.

Lemma map_dc_wire : forall ls, valid_labels ls -> map dc (wire ls) = wire (lower_name ls).
Proof. intros ls V. unfold wire. rewrite map_app, map_dc_prewire by auto. reflexivity. Qed.

Lemma lower_valid_labels : forall ls, valid_labels ls -> valid_labels (lower_name ls).
Proof.
  intros ls V. induction V as [|l ls [H HB] V IH]; [constructor|]. constructor; auto. split.
  - unfold lower_label. zl. auto.
  - clear -HB. unfold lower_label. induction HB as [|c l Hc HB IH]; [constructor|]. constructor; auto.
    unfold is_byte in *. destruct ((65 <=? c) && (c <=? 90)) eqn:E; lia.
Qed.

Lemma lower_valid : forall ls, valid_name ls -> valid_name (lower_name ls).
Proof. intros ls [V L]. split; [apply lower_valid_labels; auto|]. rewrite <- map_dc_wire by auto. zl. auto. Qed.
