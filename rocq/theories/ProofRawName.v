(** ProofRawName.v: the name functions on arbitrary octets. *)
From Verif Require Import Base Lib SpecName SpecRawName ModelName ProofUnpack ProofCopy ProofNameOps ProofNameStr.

Lemma raw_cons : forall l ls, raw_labels (l :: ls) <-> raw_label l /\ raw_labels ls.
Proof. intros; unfold raw_labels; split; [intros H; inversion H; auto|intros [? ?]; auto]. Qed.
Lemma raw_length : forall ls, Z.of_nat (length ls) <= zlen (prewire ls).
Proof. induction ls as [|l ls IH]; [rewrite zlen_prewire_nil; cbn; lia|]. rewrite zlen_prewire_cons. cbn [length]. pose proof (zlen_nonneg _ l). lia. Qed.

(** ** The three shapes *)
Lemma shape_any : forall n src, (length src <= n)%nat -> bytes_ok src ->
  (exists ls r, ended src ls r) \/ (exists ls, open src ls) \/ (exists ls c r, cut src ls c r).
Proof.
  induction n as [|n IH]; intros src L B.
  - destruct src; [|cbn in L; lia]. right. left. exists []. split; [constructor|reflexivity].
  - destruct src as [|c src]; [right; left; exists []; split; [constructor|reflexivity]|]. apply bytes_ok_cons in B as [C B]. unfold is_byte in C.
    destruct (Z.eq_dec c 0) as [-> |NZ]; [left; exists [], src; split; [constructor|reflexivity]|].
    destruct (Z_lt_le_dec (zlen src) c) as [LT|GE].
    { right. right. exists [], c, src. split; [constructor|]. split; [lia|]. split; [lia|reflexivity]. }
    set (l := firstn (Z.to_nat c) src). set (s := skipn (Z.to_nat c) src). assert (E : src = l ++ s) by (unfold l, s; rewrite firstn_skipn; auto).
    assert (ZL : zlen l = c). { unfold l. unfold zlen in *. rewrite firstn_length. lia. }
    assert (RL : raw_label l). { split; [lia|]. rewrite E in B. apply bytes_ok_app in B. apply B. }
    assert (LS : (length s <= n)%nat). { unfold s. rewrite skipn_length. cbn in L. lia. }
    assert (BS : bytes_ok s). { rewrite E in B. apply bytes_ok_app in B. apply B. }
    assert (EC : c :: src = zlen l :: l ++ s) by congruence.
    destruct (IH s LS BS) as [(ls & r & V & X)|[(ls & V & X)|(ls & d & r & V & D & R & X)]]; rewrite EC, X.
    + left. exists (l :: ls), r. split; [apply raw_cons; auto|]. rewrite wire_cons. cbn [app]. rewrite <- app_assoc. reflexivity.
    + right. left. exists (l :: ls). split; [apply raw_cons; auto|]. reflexivity.
    + right. right. exists (l :: ls), d, r. split; [apply raw_cons; auto|]. split; [auto|]. split; [auto|]. rewrite prewire_cons. cbn [app]. rewrite <- app_assoc. reflexivity.
Qed.

(** What follows the labels of a string: nothing, a zero octet, or too few octets. *)
Definition stop (t : bytes) : Prop := match t with [] => True | c :: r => c = 0 \/ zlen r < c end.
Lemma shape_fun : forall ls ls' t t', raw_labels ls -> raw_labels ls' -> stop t -> stop t' -> prewire ls ++ t = prewire ls' ++ t' -> ls = ls' /\ t = t'.
Proof.
  assert (G : forall l ls t t', raw_label l -> stop t -> prewire (l :: ls) ++ t' = t -> False).
  { intros l ls t t' [R _] S E. rewrite prewire_cons in E. cbn [app] in E. subst t. cbn [stop] in S. pose proof (zlen_nonneg _ (prewire ls)). pose proof (zlen_nonneg _ t'). rewrite !zlen_app in S. lia. }
  induction ls as [|l ls IH]; intros ls' t t' V V' S S' E.
  - destruct ls' as [|l' ls']; [split; auto|]. exfalso. apply raw_cons in V' as [V' _]. cbn [prewire map concat app] in E. eapply G; [exact V'|exact S|symmetry; exact E].
  - destruct ls' as [|l' ls']; [exfalso; apply raw_cons in V as [V _]; eapply G; [exact V|exact S'|exact E]|].
    apply raw_cons in V as [V1 V2]. apply raw_cons in V' as [V1' V2']. rewrite !prewire_cons in E. cbn [app] in E. rewrite <- !app_assoc in E. injection E as EL E.
    assert (l = l' /\ prewire ls ++ t = prewire ls' ++ t') as [-> E'].
    { clear -EL E. revert l' EL E. induction l as [|a l IH]; intros [|b l'] EL E; [split; auto|rewrite zlen_cons, zlen_nil in EL; pose proof (zlen_nonneg _ l'); lia|rewrite zlen_cons, zlen_nil in EL; pose proof (zlen_nonneg _ l); lia|]. rewrite !zlen_cons in EL.
      cbn [app] in E. injection E as -> E. destruct (IH l') as [-> X]; auto; lia. }
    destruct (IH ls' t t') as [-> ->]; auto.
Qed.
Lemma ended_stop : forall src ls r, ended src ls r -> raw_labels ls /\ src = prewire ls ++ 0 :: r /\ stop (0 :: r).
Proof. intros src ls r [V ->]. split; [auto|]. split; [unfold wire; rewrite <- app_assoc; auto|left; auto]. Qed.

(** ** domain_to_str *)
Definition dts_go (f : nat) (src : bytes) (rem : Z) (dst : bytes) (read : Z) : outcome (bytes * Z) :=
  oclen <- hd_rd src ;; dts_loop f src rem dst oclen read.

Lemma dts_go_label : forall f l rest rem dst read, 1 <= zlen l -> zlen l + 1 <= rem -> zlen dst + 4 * rem <= 1020 ->
  dts_go (S f) (zlen l :: l ++ rest) rem dst read = dts_go f rest (rem - 1 - zlen l) (dst ++ pres_label l ++ [46]) (read + zlen l + 1).
Proof.
  intros f l rest rem dst read L R B. unfold dts_go at 1. cbn [hd_rd bind dts_loop]. replace ((rem >? 0) && negb (zlen l =? 0)) with true by lia. cbn [tl].
  replace (Z.to_nat (zlen l)) with (length l) by (unfold zlen; lia). rewrite dts_chars_label by lia. cbn [bind]. pose proof (pres_label_len l). unfold PRESLEN_NAME.
  rewrite push_ok by (rewrite zlen_app; change (zlen [46]) with 1; lia). cbn [bind]. unfold dts_go. rewrite <- app_assoc. reflexivity.
Qed.
Lemma dts_go_labels : forall ls f tail rem dst read, raw_labels ls -> zlen (prewire ls) <= rem -> zlen dst + 4 * rem <= 1020 ->
  dts_go (length ls + f) (prewire ls ++ tail) rem dst read = dts_go f tail (rem - zlen (prewire ls)) (dst ++ pres_dots ls) (read + zlen (prewire ls)).
Proof.
  induction ls as [|l ls IH]; intros f tail rem dst read V R B.
  - cbn [length plus prewire map concat app pres_dots]. rewrite zlen_nil, app_nil_r, Z.sub_0_r, Z.add_0_r. reflexivity.
  - apply raw_cons in V as [[V1 V2] V]. rewrite prewire_cons in *. cbn [length plus app]. rewrite zlen_cons, zlen_app in *. pose proof (zlen_nonneg _ (prewire ls)). rewrite <- app_assoc.
    rewrite dts_go_label by lia. pose proof (pres_label_len l). rewrite IH; auto; [|lia|rewrite !zlen_app; change (zlen [46]) with 1; lia].
    cbn [pres_dots]. rewrite <- !app_assoc. cbn [app]. f_equal; lia.
Qed.
Lemma dts_go_chars : forall f c r b after dst read, 1 <= c -> zlen r < c -> zlen dst + 4 * zlen r <= 1016 -> 0 <= read ->
  dts_go (S (S f)) (c :: r ++ b :: after) (zlen r + 1) dst read = Ok (dst ++ pres_label r ++ [46], read + c + 1 + 1).
Proof.
  intros f c r b after dst read C R B RD. unfold dts_go. cbn [hd_rd bind]. pose proof (zlen_nonneg _ r). 
  assert (K : dts_chars (Z.to_nat c) (r ++ b :: after) (zlen r) dst = Ok (b :: after, 0, dst ++ pres_label r)).
  { clear RD. assert (LC : (length r < Z.to_nat c)%nat) by (unfold zlen in R; lia). generalize dependent (Z.to_nat c). clear C R c. revert dst B. induction r as [|x r IH]; intros dst B n LC.
    - destruct n; [cbn in LC; lia|]. cbn [dts_chars app]. rewrite zlen_nil. replace (0 >? 0) with false by lia. rewrite app_nil_r. reflexivity.
    - rewrite zlen_cons in *. destruct n; [cbn in LC; lia|]. cbn [app]. pose proof (zlen_nonneg _ r). rewrite dts_chars_step by lia. replace (zlen r + 1 - 1) with (zlen r) by lia. pose proof (pres_octet_len x).
      rewrite IH; [|lia|rewrite zlen_app; lia|cbn in LC; lia]. rewrite pres_label_cons, app_assoc. reflexivity. }
  cbn [dts_loop]. replace ((zlen r + 1 >? 0) && negb (c =? 0)) with true by lia. cbn [tl]. replace (zlen r + 1 - 1) with (zlen r) by lia.
  rewrite K. cbn [bind]. pose proof (pres_label_len r). unfold PRESLEN_NAME. rewrite push_ok by (rewrite zlen_app; change (zlen [46]) with 1; lia). cbn [bind hd_rd].
  replace ((0 >? 0) && negb (b =? 0)) with false by lia. replace (read + c + 1 =? 0) with false by lia. cbn [bind]. rewrite push_ok by (rewrite !zlen_app; change (zlen [46]) with 1; change (zlen [0]) with 1; lia). cbn [bind].
  rewrite <- app_assoc. reflexivity.
Qed.
Lemma dts_go_chars_end : forall f c r dst read, 1 <= c -> zlen r < c -> zlen dst + 4 * zlen r <= 1016 ->
  dts_go (S f) (c :: r) (zlen r + 1) dst read = UB OobRead.
Proof.
  intros f c r dst read C R B. unfold dts_go. cbn [hd_rd bind]. pose proof (zlen_nonneg _ r).
  assert (K : dts_chars (Z.to_nat c) r (zlen r) dst = Ok ([], 0, dst ++ pres_label r)).
  { assert (LC : (length r < Z.to_nat c)%nat) by (unfold zlen in R; lia). generalize dependent (Z.to_nat c). clear C R c. revert dst B. induction r as [|x r IH]; intros dst B n LC.
    - destruct n; [cbn in LC; lia|]. cbn [dts_chars app]. rewrite zlen_nil. replace (0 >? 0) with false by lia. rewrite app_nil_r. reflexivity.
    - rewrite zlen_cons in *. destruct n; [cbn in LC; lia|]. pose proof (zlen_nonneg _ r). rewrite dts_chars_step by lia. replace (zlen r + 1 - 1) with (zlen r) by lia. pose proof (pres_octet_len x).
      rewrite IH; [|lia|rewrite zlen_app; lia|cbn in LC; lia]. rewrite pres_label_cons, app_assoc. reflexivity. }
  cbn [dts_loop]. replace ((zlen r + 1 >? 0) && negb (c =? 0)) with true by lia. cbn [tl]. replace (zlen r + 1 - 1) with (zlen r) by lia.
  rewrite K. cbn [bind]. pose proof (pres_label_len r). unfold PRESLEN_NAME. rewrite push_ok by (rewrite zlen_app; change (zlen [46]) with 1; lia). reflexivity.
Qed.
(** The end of a name: a zero octet, or no octets left. *)
Lemma dts_go_end : forall f b after rem ls n, rem = 0 \/ b = 0 -> zlen (pres_name ls) <= 1020 -> n = zlen (prewire ls) -> raw_labels ls ->
  dts_go (S f) (b :: after) rem (pres_dots ls) n = Ok (pres_name ls, n + 1).
Proof.
  intros f b after rem ls n E B -> V. unfold dts_go. cbn [hd_rd bind dts_loop]. replace ((rem >? 0) && negb (b =? 0)) with false by lia. unfold PRESLEN_NAME.
  destruct ls as [|l ls].
  - rewrite zlen_prewire_nil. cbn [Z.eqb pres_dots bind]. reflexivity.
  - apply raw_cons in V as [[V1 _] _]. rewrite zlen_prewire_cons. pose proof (zlen_nonneg _ (prewire ls)). replace (1 + zlen l + zlen (prewire ls) =? 0) with false by lia. cbn [bind].
    rewrite pres_dots_spec in * by discriminate. rewrite push_ok by (change (zlen [0]) with 1; lia). reflexivity.
Qed.
Lemma dots_len : forall ls, zlen (pres_name ls) <= 4 * zlen (prewire ls) + 1.
Proof.
  intros [|l ls]; [cbn; lia|]. rewrite pres_dots_spec by discriminate.
  assert (G : forall x, zlen (pres_dots x) <= 4 * zlen (prewire x)).
  { induction x as [|a x IH]; [cbn; lia|]. cbn [pres_dots]. rewrite prewire_cons, !zlen_app, !zlen_cons, zlen_app. pose proof (pres_label_len a). lia. }
  specialize (G (l :: ls)). lia.
Qed.
Lemma domain_go : forall src n, domain_to_str src n = dts_go (S (length src)) src n [] 0.
Proof. reflexivity. Qed.
Lemma fuel_split : forall ls (tail : bytes), exists k, S (length (prewire ls ++ tail)) = (length ls + S (length tail + k))%nat.
Proof. intros. exists (length (prewire ls) - length ls)%nat. rewrite app_length. pose proof (raw_length ls). unfold zlen in *. lia. Qed.

Lemma domain_ended : forall src ls r after n, ended src ls r -> zlen (wire ls) <= n <= 255 -> domain_to_str (src ++ after) n = Ok (pres_name ls, zlen (wire ls)).
Proof.
  intros src ls r after n [V ->] N. rewrite domain_go. rewrite zlen_wire in *. unfold wire. rewrite <- !app_assoc. cbn [app]. destruct (fuel_split ls (0 :: r ++ after)) as (k & ->).
  rewrite dts_go_labels; auto; [|lia|rewrite zlen_nil; lia]. pose proof (dots_len ls). cbn [app]. rewrite Z.add_0_l. apply dts_go_end; auto; lia.
Qed.
Lemma domain_open : forall src ls b after, open src ls -> zlen src <= 255 -> domain_to_str (src ++ b :: after) (zlen src) = Ok (pres_name ls, zlen src + 1).
Proof.
  intros src ls b after [V ->] N. rewrite domain_go. destruct (fuel_split ls (b :: after)) as (k & ->). pose proof (dots_len ls).
  rewrite dts_go_labels; auto; [|lia|rewrite zlen_nil; lia]. cbn [app]. rewrite Z.add_0_l. destruct (Z_le_dec (zlen (pres_name ls)) 1020) as [D|D].
  - apply dts_go_end; auto; lia.
  - exfalso. (* 255 octets of labels: the length octets are not printed *)
    destruct ls as [|l ls]; [cbn in D; lia|]. rewrite pres_dots_spec in * by discriminate. cbn [pres_dots] in *. apply raw_cons in V as [[V1 _] _].
    rewrite prewire_cons in *. rewrite zlen_cons, !zlen_app in *. rewrite zlen_cons in *. pose proof (pres_label_len l).
    assert (G : forall x, zlen (pres_dots x) <= 4 * zlen (prewire x)).
    { clear. induction x as [|a x IH]; [cbn; lia|]. cbn [pres_dots]. rewrite prewire_cons, !zlen_app, !zlen_cons, zlen_app. pose proof (pres_label_len a). lia. }
    specialize (G ls). lia.
Qed.
Lemma domain_open_end : forall src ls, open src ls -> zlen src <= 255 -> domain_to_str src (zlen src) = UB OobRead.
Proof.
  intros src ls [V ->] N. rewrite domain_go. destruct (fuel_split ls []) as (k & F). rewrite app_nil_r in F. rewrite F.
  pose proof (dts_go_labels ls (S (length (@nil Z) + k)) [] (zlen (prewire ls)) [] 0 V ltac:(lia) ltac:(rewrite zlen_nil; lia)) as K. rewrite app_nil_r in K. rewrite K. reflexivity.
Qed.
Lemma dots_snoc : forall ls r, pres_name (ls ++ [r]) = pres_dots ls ++ pres_label r ++ [46].
Proof.
  intros ls r. assert (N : ls ++ [r] <> []) by (destruct ls; discriminate). rewrite pres_dots_spec by auto.
  clear N. induction ls as [|l ls IH]; [reflexivity|]. cbn [app pres_dots]. rewrite IH, <- app_assoc. reflexivity.
Qed.
Lemma domain_cutted : forall src ls c r b after, cut src ls c r -> zlen src <= 255 ->
  domain_to_str (src ++ b :: after) (zlen src) = Ok (pres_name (ls ++ [r]), zlen (prewire ls) + c + 2).
Proof.
  intros src ls c r b after (V & C & R & ->) N. rewrite domain_go. rewrite <- app_assoc. cbn [app]. destruct (fuel_split ls (c :: r ++ b :: after)) as (k & ->).
  rewrite zlen_app, zlen_cons in *. pose proof (zlen_nonneg _ r). pose proof (zlen_nonneg _ (prewire ls)). rewrite dts_go_labels; auto; [|lia|rewrite zlen_nil; lia]. cbn [app length plus]. replace (zlen (prewire ls) + (zlen r + 1) - zlen (prewire ls)) with (zlen r + 1) by lia.
  assert (D : zlen (pres_dots ls) <= 4 * zlen (prewire ls)).
  { generalize ls. clear. induction ls as [|a x IH]; [cbn; lia|]. cbn [pres_dots]. rewrite prewire_cons, !zlen_app, !zlen_cons, zlen_app. pose proof (pres_label_len a). lia. }
  rewrite dts_go_chars; try lia. rewrite dots_snoc. f_equal. f_equal. lia.
Qed.
Lemma domain_cut_end : forall src ls c r, cut src ls c r -> zlen src <= 255 -> domain_to_str src (zlen src) = UB OobRead.
Proof.
  intros src ls c r (V & C & R & ->) N. rewrite domain_go. destruct (fuel_split ls (c :: r)) as (k & ->).
  rewrite zlen_app, zlen_cons in *. pose proof (zlen_nonneg _ r). pose proof (zlen_nonneg _ (prewire ls)). rewrite dts_go_labels; auto; [|lia|rewrite zlen_nil; lia]. cbn [app length plus]. replace (zlen (prewire ls) + (zlen r + 1) - zlen (prewire ls)) with (zlen r + 1) by lia.
  assert (D : zlen (pres_dots ls) <= 4 * zlen (prewire ls)).
  { generalize ls. clear. induction ls as [|a x IH]; [cbn; lia|]. cbn [pres_dots]. rewrite prewire_cons, !zlen_app, !zlen_cons, zlen_app. pose proof (pres_label_len a). lia. }
  apply dts_go_chars_end; lia.
Qed.

(** ** reverse_name *)
Lemma reverse_loop_labels : forall ls f tail done n, raw_labels ls -> zlen (prewire done) + zlen (prewire ls) + 1 <= n ->
  reverse_loop (length ls + f) (prewire ls ++ tail) n (zlen (prewire done)) (n - 1 - zlen (prewire done))
    (repeat 0 (Z.to_nat (n - 1 - zlen (prewire done))) ++ prewire (rev done) ++ [0]) =
  reverse_loop f tail n (zlen (prewire (done ++ ls))) (n - 1 - zlen (prewire (done ++ ls)))
    (repeat 0 (Z.to_nat (n - 1 - zlen (prewire (done ++ ls)))) ++ prewire (rev (done ++ ls)) ++ [0]).
Proof.
  induction ls as [|l ls IH]; intros f tail done n V B.
  - rewrite app_nil_r. reflexivity.
  - apply raw_cons in V as [[V1 V2] V]. rewrite prewire_cons. cbn [length plus reverse_loop app hd_rd bind].
    rewrite zlen_prewire_cons in B. pose proof (zlen_nonneg _ (prewire done)). pose proof (zlen_nonneg _ (prewire ls)).
    replace (zlen l =? 0) with false by lia. replace (_ >? n) with false by lia.
    assert (S : zlen l :: (l ++ prewire ls) ++ tail = (zlen l :: l) ++ (prewire ls ++ tail)) by (cbn [app]; rewrite <- app_assoc; auto).
    rewrite S, take_rd_app by zlia. cbn [bind].
    assert (ED : zlen (prewire (done ++ [l])) = zlen (prewire done) + (zlen l + 1)) by (rewrite prewire_app, zlen_app, zlen_prewire_cons, zlen_prewire_nil; lia).
    set (o := n - 1 - zlen (prewire done)) in *.
    replace (repeat 0 (Z.to_nat o)) with (repeat 0 (Z.to_nat (o - (zlen l + 1))) ++ repeat 0 (Z.to_nat (zlen l + 1))).
    2:{ rewrite <- repeat_plus. f_equal. lia. }
    rewrite <- app_assoc. rewrite blit_ok by (rewrite ?zlen_repeat; zlia). cbn [bind]. rewrite adv_app by zlia.
    specialize (IH f tail (done ++ [l]) n V ltac:(lia)). rewrite <- app_assoc in IH. cbn [app] in IH. rewrite <- IH, ED.
    replace (o - (zlen l + 1)) with (n - 1 - (zlen (prewire done) + (zlen l + 1))) by lia. f_equal. f_equal.
    rewrite rev_app_distr. cbn [rev app]. rewrite prewire_cons. cbn [app]. rewrite <- app_assoc. reflexivity.
Qed.
Lemma reverse_start : forall n f ls tail, raw_labels ls -> zlen (prewire ls) + 1 <= n ->
  reverse_loop (length ls + f) (prewire ls ++ tail) n 0 (n - 1) (repeat 0 (Z.to_nat n)) =
  reverse_loop f tail n (zlen (prewire ls)) (n - 1 - zlen (prewire ls)) (repeat 0 (Z.to_nat (n - 1 - zlen (prewire ls))) ++ prewire (rev ls) ++ [0]).
Proof.
  intros n f ls tail V B. pose proof (zlen_nonneg _ (prewire ls)). pose proof (reverse_loop_labels ls f tail [] n V) as K. rewrite zlen_prewire_nil in K. specialize (K ltac:(lia)). cbn [app rev] in K. rewrite Z.sub_0_r in K.
  change (prewire []) with (@nil Z) in K. cbn [app] in K. rewrite <- K. f_equal. replace [0] with (repeat 0 1) by reflexivity. rewrite <- repeat_plus. f_equal. lia.
Qed.
Lemma reverse_ended : forall src ls r after n, ended src ls r -> zlen (wire ls) <= n ->
  reverse_name (src ++ after) n = Ok (repeat 0 (Z.to_nat (n - zlen (wire ls))) ++ wire (rev ls)).
Proof.
  intros src ls r after n [V ->] N. unfold reverse_name, wire. rewrite zlen_wire in N. rewrite <- !app_assoc. cbn [app]. destruct (fuel_split ls (0 :: r ++ after)) as (k & ->).
  rewrite reverse_start by (auto; lia). cbn [reverse_loop hd_rd bind]. change (0 =? 0) with true. cbv iota. rewrite zlen_app. change (zlen [0]) with 1. f_equal. f_equal. f_equal. lia.
Qed.
Lemma reverse_cut : forall src ls c r after, cut src ls c r -> reverse_name (src ++ after) (zlen src) = Err res_out_of_bounds.
Proof.
  intros src ls c r after (V & C & R & ->). unfold reverse_name. pose proof (zlen_nonneg _ r). rewrite <- app_assoc. cbn [app]. destruct (fuel_split ls (c :: r ++ after)) as (k & ->). rewrite zlen_app, zlen_cons.
  rewrite reverse_start by (auto; lia). cbn [reverse_loop hd_rd bind]. replace (c =? 0) with false by lia. replace (_ >? _) with true by lia. reflexivity.
Qed.
Lemma reverse_open : forall src ls after, open src ls -> ls <> [] -> reverse_name (src ++ after) (zlen src) = UB OobWrite.
Proof.
  intros src ls after [V ->] NE. destruct (exists_last NE) as (a & x & ->). apply Forall_app in V as [V X]. apply raw_cons in X as [[X _] _]. unfold reverse_name. rewrite prewire_app. rewrite <- app_assoc.
  destruct (fuel_split a (prewire [x] ++ after)) as (k & ->). rewrite prewire_cons. rewrite zlen_app, zlen_cons. change (prewire []) with (@nil Z). rewrite app_nil_r. rewrite reverse_start by (auto; lia). cbn [app reverse_loop hd_rd bind].
  replace (zlen x =? 0) with false by lia. replace (_ >? _) with false by lia. change (zlen x :: x ++ after) with ((zlen x :: x) ++ after). rewrite take_rd_app by (rewrite zlen_cons; lia). cbn [bind].
  unfold blit. replace (_ <? 0) with true by lia. reflexivity.
Qed.

(** ** count_labels *)
Lemma count_open_end : forall ls, valid_labels ls -> count_labels (prewire ls) (zlen (prewire ls)) = UB OobRead.
Proof.
  intros ls V. unfold count_labels. destruct (length_prewire_app ls []) as [k K]. rewrite app_nil_r in K. rewrite K.
  pose proof (count_loop_prefix ls (S k) [] 0 (zlen (prewire ls)) 0 V ltac:(lia)) as E. rewrite app_nil_r in E. rewrite E. reflexivity.
Qed.
