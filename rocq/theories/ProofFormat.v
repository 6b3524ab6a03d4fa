(** ProofFormat.v: decimal and hexadecimal text. *)
From Verif Require Import Base Lib ModelName SpecName Libc ModelFormat SpecFormat.

(** ** Decimal text *)
Lemma dec_value_snoc : forall s c, dec_value (s ++ [c]) = dec_value s * 10 + (c - 48).
Proof. intros. unfold dec_value. rewrite fold_left_app. reflexivity. Qed.

Lemma dec_fold : forall s a, fold_left (fun a c => a * 10 + (c - 48)) s a = a * 10 ^ zlen s + dec_value s.
Proof.
  unfold dec_value. induction s as [|c s IH]; intros a; cbn [fold_left].
  - change (zlen (@nil Z)) with 0. rewrite Z.pow_0_r. lia.
  - rewrite IH, (IH (0 * 10 + _)). rewrite zlen_cons, Z.pow_add_r by (pose proof (zlen_nonneg _ s); lia). lia.
Qed.

Lemma dec_value_nonneg : forall s, Forall digit s -> 0 <= dec_value s.
Proof.
  induction s as [|c s IH] using rev_ind; intros H; [unfold dec_value; simpl; lia|].
  rewrite dec_value_snoc. apply Forall_app in H as [H1 H2]. inversion H2; subst. unfold digit in *. specialize (IH H1). lia.
Qed.

Lemma dec_value_bound : forall s, Forall digit s -> dec_value s < 10 ^ zlen s.
Proof.
  induction s as [|c s IH] using rev_ind; intros H; [unfold dec_value; simpl; lia|].
  rewrite dec_value_snoc. apply Forall_app in H as [H1 H2]. inversion H2; subst. unfold digit in *. specialize (IH H1).
  rewrite zlen_app. change (zlen [c]) with 1. rewrite Z.pow_add_r by (pose proof (zlen_nonneg _ s); lia). lia.
Qed.

Lemma decimal_nonneg : forall n s, decimal n s -> 0 <= n.
Proof. intros n s (H & <- & _). apply dec_value_nonneg; auto. Qed.

Lemma decimal_nonempty : forall n s, decimal n s -> s <> [].
Proof. intros n s (_ & _ & [-> | (c & r & -> & _)]); discriminate. Qed.

Lemma decimal_pos : forall n s c r, decimal n s -> s = c :: r -> c <> 48 -> 1 <= n.
Proof.
  intros n s c r (F & V & _) -> Hc. inversion F; subst. unfold dec_value. cbn [fold_left]. rewrite dec_fold.
  assert (0 <= dec_value r) by (apply dec_value_nonneg; auto). unfold digit in *.
  pose proof (zlen_nonneg _ r). pose proof (Z.pow_pos_nonneg 10 (zlen r) ltac:(lia) ltac:(lia)). nia.
Qed.

Lemma decimal_small : forall n, 0 <= n < 10 -> decimal n [48 + n].
Proof.
  intros n H. split; [repeat constructor; unfold digit; lia|]. split; [unfold dec_value; cbn [fold_left]; lia|].
  destruct (Z.eq_dec n 0); [left; subst; reflexivity|right; do 2 eexists; split; eauto; lia].
Qed.

Lemma decimal_snoc : forall n s, 10 <= n -> decimal (n / 10) s -> decimal n (s ++ [48 + n mod 10]).
Proof.
  intros n s H (F & V & L). split; [|split].
  - apply Forall_app; split; auto. repeat constructor; pose proof (Z.mod_pos_bound n 10); unfold digit; lia.
  - rewrite dec_value_snoc, V. pose proof (Z.div_mod n 10). lia.
  - right. destruct L as [-> | (c & r & -> & Hc)].
    + exfalso. change (dec_value [48]) with 0 in V. pose proof (Z.div_mod n 10). pose proof (Z.mod_pos_bound n 10). lia.
    + exists c, (r ++ [48 + n mod 10]). auto.
Qed.

Lemma decimal_cases : forall n s, decimal n s ->
  (n < 10 /\ s = [48 + n]) \/ (10 <= n /\ exists t, s = t ++ [48 + n mod 10] /\ decimal (n / 10) t).
Proof.
  intros n s H. pose proof H as (F & V & L).
  destruct s as [|c s'] using rev_ind; [destruct L as [E | (? & ? & E & _)]; discriminate|]. clear IHs'.
  apply Forall_app in F as [F1 F2]. inversion F2 as [|? ? Dc _]; subst. rewrite dec_value_snoc in *. unfold digit in Dc.
  pose proof (dec_value_nonneg s' F1).
  destruct s' as [|d s'].
  - left. unfold dec_value. cbn [fold_left app]. split; [lia|]. f_equal. lia.
  - destruct L as [E|(c0 & r0 & E & Hc)]; [apply (f_equal (@length Z)) in E; rewrite app_length in E; simpl in E; lia|].
    injection E as <- <-.
    assert (D : decimal (dec_value (d :: s')) (d :: s')) by (split; [auto|split; [auto|right; eauto]]).
    pose proof (decimal_pos _ _ _ _ D eq_refl Hc).
    right. split; [lia|]. exists (d :: s'). 
    replace ((dec_value (d :: s') * 10 + (c - 48)) mod 10) with (c - 48)
      by (rewrite Z.add_comm, Z.mod_add by lia; rewrite Z.mod_small; lia).
    replace ((dec_value (d :: s') * 10 + (c - 48)) / 10) with (dec_value (d :: s'))
      by (rewrite Z.add_comm, Z.div_add by lia; rewrite Z.div_small; lia).
    split; [do 2 f_equal; lia|auto].
Qed.

Lemma decimal_unique : forall s n t, decimal n s -> decimal n t -> s = t.
Proof.
  intros s. remember (length s) as k eqn:E. revert s E.
  induction k as [k IH] using lt_wf_ind. intros s E n t Hs Ht.
  destruct (decimal_cases _ _ Hs) as [[L ->] | (L & s' & -> & Hs')], (decimal_cases _ _ Ht) as [[L' ->] | (L' & t' & -> & Ht')]; try lia; auto.
  f_equal. eapply (IH (length s')); eauto. subst k. rewrite app_length. simpl. lia.
Qed.

Lemma decimal_zlen : forall s n k, 1 <= k -> decimal n s -> n < 10 ^ k -> zlen s <= k.
Proof.
  intros s. induction s as [|c s IH] using rev_ind; intros n k Hk H B; [pose proof (zlen_nil Z); lia|].
  destruct (decimal_cases _ _ H) as [[L E] | (L & s' & E & Hs')].
  - rewrite E. change (zlen [48 + n]) with 1. lia.
  - apply app_inj_tail in E as [-> _]. zl. change (zlen [c]) with 1 in *.
    assert (1 <= k - 1). { destruct (Z.eq_dec k 1); [subst; lia|lia]. }
    assert (zlen s' <= k - 1); [|lia]. apply (IH (n / 10)); auto.
    apply Z.div_lt_upper_bound; [lia|]. replace (10 ^ k) with (10 * 10 ^ (k - 1)) in B; [lia|].
    rewrite <- Z.pow_succ_r by lia. f_equal. lia.
Qed.

(** *** fmt_u *)
Lemma dec_loop_decimal : forall k n acc, 0 <= n < 10 ^ Z.of_nat k -> (0 < k)%nat ->
  exists s, decimal n s /\ dec_loop k n acc = s ++ acc.
Proof.
  induction k as [|k IH]; intros n acc H Hk; [lia|]. cbn [dec_loop].
  destruct (n <? 10) eqn:E.
  - exists [48 + n]. rewrite Z.mod_small by lia. split; [apply decimal_small; lia|reflexivity].
  - assert (k <> 0%nat) by (intros ->; change (10 ^ Z.of_nat 1) with 10 in H; lia).
    destruct (IH (n / 10) ((48 + n mod 10) :: acc)) as (s & D & R).
    + split; [apply Z.div_pos; lia|]. apply Z.div_lt_upper_bound; [lia|].
      rewrite <- Z.pow_succ_r by lia. rewrite Nat2Z.inj_succ in H. lia.
    + lia.
    + exists (s ++ [48 + n mod 10]). split; [apply decimal_snoc; auto; lia|]. rewrite R, <- app_assoc. reflexivity.
Qed.

Lemma fmt_u_decimal : forall n, 0 <= n < 10 ^ 20 -> decimal n (fmt_u n).
Proof.
  intros n H. unfold fmt_u. destruct (dec_loop_decimal 20 n [] H) as (s & D & ->); [lia|]. rewrite app_nil_r. auto.
Qed.

Lemma decimal_fmt_u : forall n s, n < 10 ^ 20 -> decimal n s -> s = fmt_u n.
Proof. intros n s H D. eapply decimal_unique; eauto. apply fmt_u_decimal. split; auto. eapply decimal_nonneg; eauto. Qed.

(** *** Reading digits back *)
Lemma is_digit_spec : forall c, is_digit c = true <-> digit c.
Proof. intros; unfold is_digit, digit; lia. Qed.

Definition no_digit_head (r : bytes) : Prop := match r with c :: _ => ~ digit c | [] => True end.

Lemma scan_digits_app : forall s acc seen r, Forall digit s -> s <> [] -> no_digit_head r ->
  scan_digits (s ++ r) acc seen = (acc * 10 ^ zlen s + dec_value s, true, r).
Proof.
  assert (G : forall s acc seen r, Forall digit s -> no_digit_head r ->
    scan_digits (s ++ r) acc seen = (acc * 10 ^ zlen s + dec_value s, match s with [] => seen | _ => true end, r)).
  { induction s as [|c s IH]; intros acc seen r F N.
    - change (zlen (@nil Z)) with 0. rewrite Z.pow_0_r. unfold dec_value. cbn [fold_left app]. rewrite Z.mul_1_r, Z.add_0_r.
      destruct r as [|c r]; auto. cbn [scan_digits]. simpl in N. rewrite <- is_digit_spec in N. destruct (is_digit c); [tauto|auto].
    - inversion F; subst. cbn [app scan_digits]. replace (is_digit c) with true by (symmetry; apply is_digit_spec; auto).
      rewrite IH by auto. unfold dec_value. cbn [fold_left]. rewrite (dec_fold s (0 * 10 + (c - 48))).
      rewrite zlen_cons, Z.pow_add_r by (pose proof (zlen_nonneg _ s); lia). unfold dec_value.
      f_equal; [f_equal; [lia|destruct s; auto]]. }
  intros s acc seen r F H N. rewrite G by auto. destruct s; [congruence|auto].
Qed.

Lemma digit_not_space : forall c, digit c -> isspace c = false.
Proof. unfold digit, isspace; intros; lia. Qed.

Lemma skip_space_digit : forall n s r, decimal n s -> skip_space (s ++ r) = s ++ r.
Proof.
  intros n [|c s] r H; [exfalso; eapply decimal_nonempty; eauto|]. destruct H as (F & _). inversion F; subst.
  cbn [app skip_space]. rewrite digit_not_space by auto. reflexivity.
Qed.
Lemma scan_sign_digit : forall n s r, decimal n s -> scan_sign (s ++ r) = (false, s ++ r).
Proof.
  intros n [|c s] r H; [exfalso; eapply decimal_nonempty; eauto|]. destruct H as (F & _). inversion F; subst.
  cbn [app scan_sign]. unfold digit in *. replace (c =? 45) with false by lia. replace (c =? 43) with false by lia. reflexivity.
Qed.

Lemma scan_digits_decimal : forall n s r, decimal n s -> no_digit_head r -> scan_digits (s ++ r) 0 false = (n, true, r).
Proof.
  intros n s r D N. pose proof (decimal_nonempty _ _ D). destruct D as (F & V & _). rewrite scan_digits_app by auto.
  rewrite V. f_equal.
Qed.

Lemma strtol_decimal : forall n s r, decimal n s -> n < 2 ^ 63 -> no_digit_head r -> strtol (s ++ r) = (n, r).
Proof.
  intros n s r D B N. unfold strtol. rewrite (skip_space_digit _ _ _ D), (scan_sign_digit _ _ _ D), (scan_digits_decimal _ _ _ D N).
  f_equal. lia.
Qed.
Lemma strtoul_decimal : forall n s r, decimal n s -> n < 2 ^ 64 -> no_digit_head r -> strtoul (s ++ r) = (n, r).
Proof.
  intros n s r D B N. unfold strtoul. rewrite (skip_space_digit _ _ _ D), (scan_sign_digit _ _ _ D), (scan_digits_decimal _ _ _ D N).
  replace (n >? 2 ^ 64 - 1) with false by lia. reflexivity.
Qed.
Lemma scan_u_decimal : forall n s r, decimal n s -> n < 2 ^ 64 -> no_digit_head r -> scan_u (s ++ r) = ScanVal n r.
Proof.
  intros n s r D B N. unfold scan_u. rewrite (skip_space_digit _ _ _ D).
  pose proof (decimal_nonempty _ _ D). destruct (s ++ r) as [|c t] eqn:E; [destruct s; [congruence|discriminate]|].
  rewrite <- E, (scan_sign_digit _ _ _ D), (scan_digits_decimal _ _ _ D N).
  replace (n >? 2 ^ 64 - 1) with false by lia. reflexivity.
Qed.

(** *** my_uint64_to_str *)
Lemma set_at_app : forall a x b y off, zlen a = off -> set_at (a ++ x :: b) off y = Ok (a ++ y :: b).
Proof. intros. unfold set_at. apply (blit_ok a [x] b [y]); auto. Qed.

Lemma u64_loop_spec : forall k num pre x post nd, 0 <= num < 10 ^ (zlen pre + 1) -> zlen pre < Z.of_nat k ->
  exists p1 p2 ds, u64_loop k num (pre ++ x :: post) (zlen pre) nd = Ok (p1 ++ ds ++ post, zlen p1, nd + zlen ds) /\
    pre ++ [x] = p1 ++ p2 /\ zlen p2 = zlen ds /\ decimal num ds.
Proof.
  induction k as [|k IH]; intros num pre x post nd H Hk; [pose proof (zlen_nonneg _ pre); lia|].
  cbn [u64_loop]. pose proof (zlen_nonneg _ pre). replace (zlen pre >=? 0) with true by lia.
  rewrite (set_at_app pre x post (48 + num mod 10) (zlen pre) eq_refl). cbn [bind].
  destruct (num / 10 =? 0) eqn:E1; cbn [orb].
  - exists pre, [x], [48 + num mod 10]. split; [|split; [|split]]; auto.
    apply Z.eqb_eq in E1. pose proof (Z.div_mod num 10 ltac:(lia)). pose proof (Z.mod_pos_bound num 10 ltac:(lia)).
    rewrite Z.mod_small by lia. apply decimal_small; lia.
  - assert (10 <= num). { destruct (Z_lt_dec num 10); [rewrite Z.div_small in E1 by lia; discriminate|lia]. }
    destruct pre as [|y pre] using rev_ind.
    + change (zlen (@nil Z) + 1) with 1 in H. lia.
    + clear IHpre. rewrite zlen_app in *. change (zlen [y]) with 1 in *. replace (zlen pre + 1 =? 0) with false by (pose proof (zlen_nonneg _ pre); lia).
      replace ((pre ++ [y]) ++ (48 + num mod 10) :: post) with (pre ++ y :: (48 + num mod 10) :: post) by (rewrite <- app_assoc; reflexivity).
      replace (zlen pre + 1 - 1) with (zlen pre) by lia.
      destruct (IH (num / 10) pre y ((48 + num mod 10) :: post) (nd + 1)) as (p1 & p2 & ds & R & S & L & D).
      * split; [apply Z.div_pos; lia|]. apply Z.div_lt_upper_bound; [lia|].
        rewrite <- Z.pow_succ_r by (pose proof (zlen_nonneg _ pre); lia). destruct H as [_ H2]. eapply Z.lt_le_trans; [apply H2|]. apply Z.pow_le_mono_r; lia.
      * lia.
      * exists p1, (p2 ++ [x]), (ds ++ [48 + num mod 10]). rewrite R. rewrite !zlen_app. change (zlen [x]) with 1. change (zlen [48 + num mod 10]) with 1.
        split; [|split; [|split]].
        -- rewrite <- !app_assoc. cbn [app]. do 2 f_equal. lia.
        -- rewrite S, app_assoc. reflexivity.
        -- lia.
        -- apply decimal_snoc; auto.
Qed.

Lemma uint64_to_str_spec : forall num buf x z, 0 <= num < 10 ^ (zlen buf + 1) ->
  exists p1 p2 ds, uint64_to_str num (buf ++ [x; z]) = Ok (p1 ++ ds ++ [0], zlen p1, zlen ds) /\
    buf ++ [x] = p1 ++ p2 /\ zlen p2 = zlen ds /\ decimal num ds.
Proof.
  intros num buf x z H. unfold uint64_to_str.
  replace (buf ++ [x; z]) with ((buf ++ [x]) ++ [z]) by (rewrite <- app_assoc; reflexivity).
  rewrite (set_at_app (buf ++ [x]) z [] 0) by zlia. cbn [bind].
  replace ((buf ++ [x]) ++ [0]) with (buf ++ x :: [0]) by (rewrite <- app_assoc; reflexivity).
  replace (zlen ((buf ++ [x]) ++ [z]) - 2) with (zlen buf) by zlia.
  apply u64_loop_spec; auto. unfold zlen. rewrite app_length. simpl. lia.
Qed.
(** Whatever the number and the buffer: the digits written are the low decimal digits, as many as fit. *)
Lemma u64_loop_low : forall k num pre x post nd, 0 <= num -> zlen pre < Z.of_nat k ->
  exists p1 p2 ds, u64_loop k num (pre ++ x :: post) (zlen pre) nd = Ok (p1 ++ ds ++ post, zlen p1, nd + zlen ds) /\
    pre ++ [x] = p1 ++ p2 /\ zlen p2 = zlen ds /\ Forall digit ds /\ dec_value ds = num mod 10 ^ (zlen pre + 1).
Proof.
  induction k as [|k IH]; intros num pre x post nd H Hk; [pose proof (zlen_nonneg _ pre); lia|].
  cbn [u64_loop]. pose proof (zlen_nonneg _ pre). replace (zlen pre >=? 0) with true by lia.
  rewrite (set_at_app pre x post (48 + num mod 10) (zlen pre) eq_refl). cbn [bind].
  pose proof (Z.mod_pos_bound num 10 ltac:(lia)) as MB. pose proof (Z.div_mod num 10 ltac:(lia)) as DM.
  assert (DG : digit (48 + num mod 10)) by (unfold digit; lia).
  destruct (num / 10 =? 0) eqn:E1; cbn [orb].
  - exists pre, [x], [48 + num mod 10]. split; [|split; [|split; [|split]]]; auto.
    apply Z.eqb_eq in E1. rewrite (Z.mod_small num (10 ^ _)).
    + unfold dec_value. cbn [fold_left]. lia.
    + split; [lia|]. apply Z.lt_le_trans with (10 ^ 1); [lia|]. apply Z.pow_le_mono_r; lia.
  - destruct pre as [|y pre] using rev_ind.
    + exists [], [x], [48 + num mod 10]. split; [|split; [|split; [|split]]]; auto.
      change (zlen (@nil Z) + 1) with 1. change (10 ^ 1) with 10. unfold dec_value. cbn [fold_left]. lia.
    + clear IHpre. rewrite zlen_app in *. change (zlen [y]) with 1 in *. pose proof (zlen_nonneg _ pre). replace (zlen pre + 1 =? 0) with false by lia.
      replace ((pre ++ [y]) ++ (48 + num mod 10) :: post) with (pre ++ y :: (48 + num mod 10) :: post) by (rewrite <- app_assoc; reflexivity).
      replace (zlen pre + 1 - 1) with (zlen pre) by lia.
      destruct (IH (num / 10) pre y ((48 + num mod 10) :: post) (nd + 1)) as (p1 & p2 & ds & R & S & L & F & D).
      * apply Z.div_pos; lia.
      * lia.
      * exists p1, (p2 ++ [x]), (ds ++ [48 + num mod 10]). rewrite R. rewrite !zlen_app. change (zlen [x]) with 1. change (zlen [48 + num mod 10]) with 1.
        split; [|split; [|split; [|split]]].
        -- rewrite <- !app_assoc. cbn [app]. do 2 f_equal. lia.
        -- rewrite S, app_assoc. reflexivity.
        -- lia.
        -- apply Forall_app. auto.
        -- unfold dec_value in *. rewrite fold_left_app. cbn [fold_left]. rewrite D. rewrite (Z.pow_add_r 10 (zlen pre + 1) 1) by lia. change (10 ^ 1) with 10.
           rewrite (Z.mul_comm (10 ^ _)), Z.rem_mul_r by lia. lia.
Qed.

Lemma uint64_to_str_low : forall num buf x z, 0 <= num ->
  exists p1 p2 ds, uint64_to_str num (buf ++ [x; z]) = Ok (p1 ++ ds ++ [0], zlen p1, zlen ds) /\
    buf ++ [x] = p1 ++ p2 /\ zlen p2 = zlen ds /\ Forall digit ds /\ dec_value ds = num mod 10 ^ (zlen buf + 1).
Proof.
  intros num buf x z H. unfold uint64_to_str.
  replace (buf ++ [x; z]) with ((buf ++ [x]) ++ [z]) by (rewrite <- app_assoc; reflexivity).
  rewrite (set_at_app (buf ++ [x]) z [] 0) by zlia. cbn [bind].
  replace ((buf ++ [x]) ++ [0]) with (buf ++ x :: [0]) by (rewrite <- app_assoc; reflexivity).
  replace (zlen ((buf ++ [x]) ++ [z]) - 2) with (zlen buf) by zlia.
  apply u64_loop_low; auto. unfold zlen. rewrite app_length. simpl. lia.
Qed.


Lemma repeat_snoc : forall A (a : A) n, repeat a (S n) = repeat a n ++ [a].
Proof. induction n; simpl in *; congruence. Qed.

Lemma u64_text_spec : forall size num, 2 <= size -> 0 <= num < 10 ^ (size - 1) ->
  exists s, u64_text size num = Ok s /\ decimal num s.
Proof.
  intros size num Hs H. unfold u64_text.
  replace (Z.to_nat size) with (S (S (Z.to_nat (size - 2)))) by lia. rewrite !repeat_snoc, <- app_assoc. cbn [app].
  destruct (uint64_to_str_spec num (repeat 0 (Z.to_nat (size - 2))) 0 0) as (p1 & p2 & ds & R & _ & _ & D).
  - rewrite zlen_repeat. replace (Z.of_nat (Z.to_nat (size - 2)) + 1) with (size - 1) by lia. auto.
  - exists ds. split; auto. rewrite R. cbn [bind]. apply rds_ok. split; auto. exists p1, [0]. auto.
Qed.

Lemma u64_text_fmt : forall size num, 2 <= size <= 21 -> 0 <= num < 10 ^ (size - 1) -> u64_text size num = Ok (fmt_u num).
Proof.
  intros size num Hs H. destruct (u64_text_spec size num) as (s & E & D); try lia. rewrite E. f_equal. apply decimal_fmt_u; auto.
  eapply Z.lt_le_trans; [apply H|]. apply Z.pow_le_mono_r; lia.
Qed.

(** A three-digit escape: what rdata_to_str_string_unquoted leaves in tmp. *)
Definition ddd (c : Z) : bytes := [92; 48 + c / 100; 48 + c / 10 mod 10; 48 + c mod 10].

Lemma byte_list : forall c, is_byte c -> In c (map Z.of_nat (seq 0 256)).
Proof.
  intros c H. apply in_map_iff. exists (Z.to_nat c). unfold is_byte in H. split; [lia|]. apply in_seq. lia.
Qed.
Lemma forall_bytes : forall (f : Z -> bool), forallb f (map Z.of_nat (seq 0 256)) = true -> forall c, is_byte c -> f c = true.
Proof. intros f H c Hc. rewrite forallb_forall in H. apply H, byte_list; auto. Qed.

Lemma octal_like_spec : forall c, is_byte c -> octal_like c = Ok (ddd c).
Proof.
  intros c H.
  assert (G : forall c, is_byte c -> (match octal_like c with Ok s => if list_eq_dec Z.eq_dec s (ddd c) then true else false | _ => false end) = true).
  { apply forall_bytes. vm_compute. reflexivity. }
  specialize (G c H). destruct (octal_like c) as [s| | |]; try discriminate. destruct (list_eq_dec Z.eq_dec s (ddd c)); [congruence|discriminate].
Qed.

(** ** Hexadecimal text *)
Definition hexd (upper : bool) (v : Z) : Z := if v <=? 9 then 48 + v else if upper then 55 + v else 87 + v.
Definition hex2 (upper : bool) (b : Z) : bytes := [hexd upper (b / 16); hexd upper (b mod 16)].

Lemma byte_to_hex_eq : forall up b, is_byte b -> byte_to_hex up b = Ok (hex2 up b).
Proof.
  intros up b H.
  assert (G : forall b, is_byte b -> (match byte_to_hex up b with Ok s => if list_eq_dec Z.eq_dec s (hex2 up b) then true else false | _ => false end) = true).
  { apply forall_bytes. destruct up; vm_compute; reflexivity. }
  specialize (G b H). destruct (byte_to_hex up b) as [s| | |]; try discriminate. destruct (list_eq_dec Z.eq_dec s (hex2 up b)); [congruence|discriminate].
Qed.

Lemma bytes_to_hex_one : forall up b r size, is_byte b -> 3 <= size -> bytes_to_hex_str (b :: r) 1 up size = Ok (hex2 up b, 2).
Proof.
  intros up b r size H Hs. unfold bytes_to_hex_str. replace (1 * 2 >? size - 1) with false by lia.
  change (Z.to_nat 1) with 1%nat. cbn [hex_loop hd_rd bind]. rewrite byte_to_hex_eq by auto. cbn [bind].
  rewrite push_ok by (change (zlen (hex2 up b)) with 2; change (zlen (@nil Z)) with 0; lia). cbn [bind app].
  rewrite push_ok by (change (zlen (hex2 up b)) with 2; change (zlen [0]) with 1; lia). reflexivity.
Qed.

Lemma hexd_digit : forall up v, 0 <= v < 16 -> hex_digit (hexd up v) v /\ hex_case up (hexd up v) /\ hexval (hexd up v) = v
  /\ isspace (hexd up v) = false /\ isxdigit (hexd up v) = true.
Proof.
  intros up v H. unfold hexd, hex_case. destruct (v <=? 9) eqn:E.
  - split; [replace v with (48 + v - 48) at 2 by lia; constructor; lia|]. split; [lia|]. unfold isspace, isxdigit, hexval.
    replace ((48 <=? 48 + v) && (48 + v <=? 57)) with true by lia. repeat split; lia.
  - destruct up.
    + split; [replace v with (55 + v - 55) at 2 by lia; apply hd_upp; lia|]. split; [lia|]. unfold isspace, isxdigit, hexval.
      replace ((48 <=? 55 + v) && (55 + v <=? 57)) with false by lia. replace ((65 <=? 55 + v) && (55 + v <=? 70)) with true by lia. repeat split; lia.
    + split; [replace v with (87 + v - 87) at 2 by lia; apply hd_low; lia|]. split; [lia|]. unfold isspace, isxdigit, hexval.
      replace ((48 <=? 87 + v) && (87 + v <=? 57)) with false by lia. replace ((65 <=? 87 + v) && (87 + v <=? 70)) with false by lia.
      replace ((97 <=? 87 + v) && (87 + v <=? 102)) with true by lia. repeat split; lia.
Qed.

Lemma hex2_spec : forall up b, is_byte b -> hex_octet up b (hex2 up b).
Proof.
  intros up b H. unfold is_byte in H. pose proof (Z.mod_pos_bound b 16). pose proof (Z.div_mod b 16).
  assert (0 <= b / 16 < 16) by (split; [apply Z.div_pos|apply Z.div_lt_upper_bound]; lia).
  destruct (hexd_digit up (b / 16)) as (A & B & _); [lia|]. destruct (hexd_digit up (b mod 16)) as (C & D & _); [lia|].
  exists (hexd up (b / 16)), (hexd up (b mod 16)), (b / 16), (b mod 16). repeat split; auto; lia.
Qed.

(** Reading two hexadecimal digits back with sscanf "%02hhx". *)
Lemma scan_hh_hex2 : forall up b r, is_byte b -> scan_hh (hex2 up b ++ r) = ScanVal b r.
Proof.
  intros up b r H. unfold is_byte in H. pose proof (Z.mod_pos_bound b 16). pose proof (Z.div_mod b 16).
  assert (0 <= b / 16 < 16) by (split; [apply Z.div_pos|apply Z.div_lt_upper_bound]; lia).
  destruct (hexd_digit up (b / 16)) as (A1 & A2 & A3 & A4 & A5); [lia|]. destruct (hexd_digit up (b mod 16)) as (B1 & B2 & B3 & B4 & B5); [lia|].
  unfold scan_hh, hex2. cbn [app skip_space]. rewrite A4.
  replace ((hexd up (b / 16) =? 45) || (hexd up (b / 16) =? 43)) with false by (unfold hex_case in A2; destruct up; lia).
  replace (tolower (hexd up (b mod 16)) =? 120) with false by (unfold tolower, hex_case in *; destruct ((65 <=? hexd up (b mod 16)) && (hexd up (b mod 16) <=? 90)) eqn:?; destruct up; lia).
  rewrite andb_false_r. cbn [scan_xdigits]. rewrite A5, B5, A3, B3. f_equal. lia.
Qed.
