(** ProofLibmyCrc2.v: the two CRC-32C implementations, whole. *)
From Verif Require Import Base Lib ModelLibmyIp SpecLibmyIp ProofLibmyIp ModelLibmyCrcTables ModelLibmyCrc SpecLibmyCrc ProofGroup ProofB32 ProofLibmyCrc.

(** ** Slicing *)
Lemma land_255 : forall x k, 0 <= k -> Z.land x (255 * 2 ^ k) = (x / 2 ^ k mod 2 ^ 8) * 2 ^ k.
Proof.
  intros x k K. change 255 with (Z.ones 8). bits. rewrite Z.land_spec. destruct (Z_lt_ge_dec i k).
  - rewrite !Z.mul_pow2_bits_low by lia. apply andb_false_r.
  - rewrite !Z.mul_pow2_bits by lia. destruct (Z_lt_ge_dec (i - k) 8).
    + rewrite Z.ones_spec_low, Z.mod_pow2_bits_low, Z.div_pow2_bits by lia. rewrite andb_true_r. f_equal. lia.
    + rewrite Z.ones_spec_high, Z.mod_pow2_bits_high by lia. apply andb_false_r.
Qed.
Lemma crc_swap_ok : forall c, 0 <= c < 2 ^ 32 -> crc_swap c = swap 4 c.
Proof.
  intros c C. destruct (four c C) as (a & b & d & e & E & F & S). rewrite S. assert (0 <= a < 256 /\ 0 <= b < 256 /\ 0 <= d < 256 /\ 0 <= e < 256) as (A & B & D & X). { inversion F as [|? ? A F1]; subst. inversion F1 as [|? ? B F2]; subst. inversion F2 as [|? ? D F3]; subst. inversion F3 as [|? ? X F4]; subst. auto. }
  unfold crc_swap, u32. cbn [le_val] in *. rewrite !Z.shiftl_mul_pow2, !Z.shiftr_div_pow2 by lia.
  change 0xFF000000 with (255 * 2 ^ 24). change 0x00FF0000 with (255 * 2 ^ 16). change 0x0000FF00 with (255 * 2 ^ 8). change 0x000000FF with (255 * 2 ^ 0). rewrite !land_255 by lia.
  change (2 ^ 0) with 1. change (2 ^ 8) with 256. change (2 ^ 16) with 65536. change (2 ^ 24) with 16777216. change (2 ^ 32) with 4294967296 in *.
  assert (T1 : c * 16777216 mod 4294967296 / 16777216 mod 256 = a) by zdm. assert (T2 : c * 256 mod 4294967296 / 65536 mod 256 = b) by zdm. assert (T3 : c / 256 / 256 mod 256 = d) by zdm. assert (T4 : c / 16777216 / 1 mod 256 = e) by zdm.
  rewrite T1, T2, T3, T4.
  rewrite (Z.lor_comm _ (e * 1)), (Z.lor_comm _ (d * 256)), (Z.lor_comm _ (b * 65536)). rewrite (Z.mul_comm a), (Z.mul_comm b), (Z.mul_comm d). change 16777216 with (2 ^ 24). change 65536 with (2 ^ 16).
  rewrite (lor_add (2 ^ 16 * b) a 24) by lia. replace (2 ^ 16 * b + 2 ^ 24 * a) with (2 ^ 16 * (b + 256 * a)) by lia. rewrite (lor_add (256 * d) (b + 256 * a) 16) by lia. replace (256 * d + 2 ^ 16 * (b + 256 * a)) with (2 ^ 8 * (d + 256 * (b + 256 * a))) by lia. rewrite (lor_add (e * 1) _ 8) by lia. lia.
Qed.
Lemma swap_swap : forall c, 0 <= c < 2 ^ 32 -> swap 4 (swap 4 c) = c.
Proof.
  intros c C. destruct (four c C) as (a & b & d & e & E & F & S). rewrite S. unfold swap. change 4%nat with (length [e; d; b; a]). rewrite bytes_val by (apply octs4; exact F). symmetry. exact E.
Qed.
Lemma lnot_u32 : forall c, 0 <= c < 2 ^ 32 -> u32 (Z.lnot c) = 0xFFFFFFFF - c.
Proof. intros c C. unfold u32, Z.lnot. change (2 ^ 32) with 4294967296 in *. zdm. Qed.
Lemma slicing_ok : forall be addr l rest, octs l -> my_crc32c_slicing be addr (l ++ rest) (zlen l) = Ok (crc32c l).
Proof.
  intros be addr l rest F. unfold my_crc32c_slicing, crc32c. replace (Z.to_nat (zlen l)) with (length l) by (unfold zlen; lia). assert (INI : 0 <= 0xFFFFFFFF < 2 ^ 32) by (change (2 ^ 32) with 4294967296; lia).
  destruct (head_ok be l rest addr 0xFFFFFFFF F INI) as (h & t & E & H & A). rewrite reg_init in H. rewrite H. cbn [bind]. rewrite E in F. apply Forall_app in F. destruct F as [FH FT].
  set (m := (8 * (length t / 8))%nat). pose proof (Nat.div_mod (length t) 8 ltac:(lia)) as DM. pose proof (octets_range h _ FH INI) as C1. set (c1 := fold_left octet_step h 0xFFFFFFFF) in *.
  rewrite <- (firstn_skipn m t) in FT. apply Forall_app in FT. destruct FT as [F1 F2]. pose proof (octets_range _ _ F1 C1) as C2. pose proof (octets_range _ _ F2 C2) as C3.
  assert (L1 : length (firstn m t) = m) by (rewrite firstn_length; unfold m; lia). assert (L2 : length (skipn m t) = (length t mod 8)%nat) by (rewrite skipn_length; unfold m; lia).
  replace (t ++ rest) with (firstn m t ++ skipn m t ++ rest) by (rewrite app_assoc, firstn_skipn; reflexivity).
  rewrite chunks_ok; [|exact F1|exact L1|exact C1|destruct A as [A|A]; [left; rewrite A; reflexivity|right; exact A]]. cbn [bind]. rewrite <- L2, tail_ok by assumption. cbn [bind]. f_equal.
  assert (FL : fold_left octet_step (skipn m t) (fold_left octet_step (firstn m t) c1) = fold_left octet_step l 0xFFFFFFFF). { rewrite <- fold_left_app, firstn_skipn, E, fold_left_app. reflexivity. }
  rewrite FL in *. rewrite <- lnot_u32 by exact C3. f_equal. f_equal. destruct be; [|reflexivity]. unfold R. rewrite crc_swap_ok, swap_swap; [reflexivity|exact C3|].
  pose proof (val_bytes 4 (fold_left octet_step l 0xFFFFFFFF)). unfold swap. pose proof (le_val_range _ (octs_rev _ (le_bytes_octs 4 (fold_left octet_step l 4294967295)))) as RR. unfold zlen in RR. rewrite rev_length, le_bytes_length in RR. exact RR.
Qed.

(** ** The instruction *)
Lemma reflect_bit : forall n x i, 0 <= i -> Z.testbit (reflect n x) i = (i <? Z.of_nat n) && Z.testbit x (Z.of_nat n - 1 - i).
Proof.
  induction n as [|n IH]; intros x i I; cbn [reflect].
  - rewrite Z.bits_0. destruct (Z.ltb_spec i (Z.of_nat 0)); [lia|reflexivity].
  - rewrite Z.lor_spec, IH by exact I. rewrite Z.shiftl_spec by exact I. destruct (Z.ltb_spec i (Z.of_nat (S n))) as [J|J], (Z.ltb_spec i (Z.of_nat n)) as [K|K]; cbn [andb]; try lia.
    + rewrite (Z.testbit_neg_r _ (i - Z.of_nat n)) by lia. cbn [orb]. rewrite Z.shiftr_spec by lia. f_equal. lia.
    + replace (i - Z.of_nat n) with 0 by lia. rewrite orb_false_r, Z.land_spec. change (Z.testbit 1 0) with true. rewrite andb_true_r. f_equal. lia.
    + rewrite orb_false_r, Z.land_spec. replace (Z.testbit 1 (i - Z.of_nat n)) with false; [apply andb_false_r|]. symmetry. apply (Z.bits_above_log2 1); [lia|]. change (Z.log2 1) with 0. lia.
Qed.
Lemma high_zero : forall x n i, 0 <= x < 2 ^ n -> n <= i -> Z.testbit x i = false.
Proof.
  intros x n i X I. destruct (Z_lt_ge_dec n 0); [rewrite Z.pow_neg_r in X by lia; lia|]. rewrite <- (Z.mod_small x (2 ^ n)) by exact X. apply Z.mod_pow2_bits_high. lia.
Qed.
Lemma reflect_reflect : forall n x, 0 <= x < 2 ^ Z.of_nat n -> reflect n (reflect n x) = x.
Proof.
  intros n x X. apply Z.bits_inj'. intros i I. rewrite reflect_bit by exact I. destruct (Z.ltb_spec i (Z.of_nat n)); cbn [andb].
  - rewrite reflect_bit by lia. destruct (Z.ltb_spec (Z.of_nat n - 1 - i) (Z.of_nat n)); [|lia]. cbn [andb]. f_equal. lia.
  - symmetry. apply (high_zero x (Z.of_nat n)); [exact X|lia].
Qed.
(** The polynomial and its reflection. *)
Lemma poly_bits : forall d, 0 <= d < 32 -> Z.testbit 0x11EDC6F41 d = Z.testbit 0x82F63B78 (31 - d).
Proof.
  intros d D. assert (X : forallb (fun d => Bool.eqb (Z.testbit 0x11EDC6F41 d) (Z.testbit 0x82F63B78 (31 - d))) (map Z.of_nat (seq 0 32)) = true) by (vm_compute; reflexivity).
  pose proof (forall_small 32 _ X d D) as Y. apply eqb_prop in Y. exact Y.
Qed.
Lemma mod2_step : forall n w, 0 <= w < 2 ^ (32 + Z.of_nat (S n)) ->
  (let X := reflect (S n + 32) w in if Z.testbit X (32 + Z.of_nat n) then Z.lxor X (Z.shiftl 0x11EDC6F41 (Z.of_nat n)) else X) = reflect (n + 32) (bit_step w).
Proof.
  intros n w W. cbv zeta. assert (T : Z.testbit (reflect (S n + 32) w) (32 + Z.of_nat n) = Z.odd w).
  { rewrite reflect_bit by lia. destruct (Z.ltb_spec (32 + Z.of_nat n) (Z.of_nat (S n + 32))); [|lia]. cbn [andb]. rewrite <- Z.bit0_odd. f_equal. lia. }
  assert (LOW : forall i, 0 <= i < Z.of_nat n + 32 -> Z.testbit (reflect (S n + 32) w) i = Z.testbit (reflect (n + 32) (w / 2)) i).
  { intros i I. rewrite !reflect_bit by lia. destruct (Z.ltb_spec i (Z.of_nat (S n + 32))), (Z.ltb_spec i (Z.of_nat (n + 32))); try lia. cbn [andb]. change 2 with (2 ^ 1). rewrite Z.div_pow2_bits by lia. f_equal. lia. }
  assert (HIGH : forall m x i, Z.of_nat m <= i -> Z.testbit (reflect m x) i = false). { intros m x i I. rewrite reflect_bit by lia. destruct (Z.ltb_spec i (Z.of_nat m)); [lia|reflexivity]. }
  rewrite T. unfold bit_step. destruct (Z.odd w) eqn:OD; apply Z.bits_inj'; intros i I.
  - rewrite Z.lxor_spec, Z.shiftl_spec by exact I. destruct (Z_lt_ge_dec i (Z.of_nat n + 32)) as [J|J].
    + rewrite LOW by lia. rewrite !reflect_bit by exact I. destruct (Z.ltb_spec i (Z.of_nat (n + 32))); [|lia]. cbn [andb]. rewrite Z.lxor_spec. f_equal. destruct (Z_lt_ge_dec i (Z.of_nat n)) as [K|K].
      * rewrite Z.testbit_neg_r by lia. symmetry. apply (high_zero _ 32); [change (2 ^ 32) with 4294967296; lia|lia].
      * rewrite poly_bits by lia. f_equal. lia.
    + rewrite (HIGH (n + 32)%nat) by lia. destruct (Z.eq_dec i (Z.of_nat n + 32)) as [->|N].
      * rewrite (Z.add_comm (Z.of_nat n) 32), T. replace (32 + Z.of_nat n - Z.of_nat n) with 32 by lia. reflexivity.
      * rewrite (HIGH (S n + 32)%nat) by lia. rewrite (high_zero _ 33) by (try lia; change (2 ^ 33) with 8589934592; lia). reflexivity.
  - destruct (Z_lt_ge_dec i (Z.of_nat n + 32)) as [J|J]; [apply LOW; lia|]. rewrite (HIGH (n + 32)%nat) by lia. destruct (Z.eq_dec i (Z.of_nat n + 32)) as [->|N]; [rewrite (Z.add_comm (Z.of_nat n) 32); exact T|apply HIGH; lia].
Qed.
Lemma mod2_ok : forall n w, 0 <= w < 2 ^ (32 + Z.of_nat n) -> mod2 n (reflect (n + 32) w) = reflect 32 (stepn n w).
Proof.
  induction n as [|n IH]; intros w W; [reflexivity|]. cbn [mod2]. pose proof (mod2_step n w W) as M. cbv zeta in M. rewrite M. rewrite IH; [rewrite stepn_succ_r; reflexivity|]. apply step_shrink; [lia|]. replace (32 + Z.of_nat n + 1) with (32 + Z.of_nat (S n)) by lia. exact W.
Qed.
Lemma insn_ok : forall n dst src, 0 <= dst < 2 ^ 32 -> 0 <= src < 2 ^ Z.of_nat n -> crc32_insn n dst src = stepn n (Z.lxor dst src).
Proof.
  intros n dst src D S. unfold crc32_insn.
  assert (W : 0 <= Z.lxor dst src < 2 ^ (32 + Z.of_nat n)). { apply (f_range Z.lxor xorb Z.lxor_spec eq_refl); [lia| |]; [assert (2 ^ 32 <= 2 ^ (32 + Z.of_nat n)) by (apply Z.pow_le_mono_r; lia); lia|assert (2 ^ Z.of_nat n <= 2 ^ (32 + Z.of_nat n)) by (apply Z.pow_le_mono_r; lia); lia]. }
  replace (Z.lxor (Z.shiftl (reflect n src) 32) (Z.shiftl (reflect 32 dst) (Z.of_nat n))) with (reflect (n + 32) (Z.lxor dst src)).
  - rewrite mod2_ok by exact W. apply (reflect_reflect 32). apply stepn_shrink. exact W.
  - apply Z.bits_inj'. intros i I. rewrite Z.lxor_spec, !Z.shiftl_spec, reflect_bit, Z.lxor_spec by exact I.
    assert (A : (i <? Z.of_nat (n + 32)) && Z.testbit src (Z.of_nat (n + 32) - 1 - i) = Z.testbit (reflect n src) (i - 32)).
    { destruct (Z_lt_ge_dec i 32) as [J|J].
      - rewrite (Z.testbit_neg_r (reflect n src)) by lia. rewrite (high_zero src (Z.of_nat n)) by (try lia; exact S). apply andb_false_r.
      - rewrite reflect_bit by lia. f_equal; [|f_equal; lia]. destruct (Z.ltb_spec i (Z.of_nat (n + 32))), (Z.ltb_spec (i - 32) (Z.of_nat n)); try lia; reflexivity. }
    assert (B : (i <? Z.of_nat (n + 32)) && Z.testbit dst (Z.of_nat (n + 32) - 1 - i) = Z.testbit (reflect 32 dst) (i - Z.of_nat n)).
    { destruct (Z_lt_ge_dec i (Z.of_nat n)) as [J|J].
      - rewrite (Z.testbit_neg_r (reflect 32 dst)) by lia. rewrite (high_zero dst 32) by (try lia; exact D). apply andb_false_r.
      - rewrite reflect_bit by lia. f_equal; [|f_equal; lia]. destruct (Z.ltb_spec i (Z.of_nat (n + 32))), (Z.ltb_spec (i - Z.of_nat n) (Z.of_nat 32)); try lia; reflexivity. }
    rewrite <- A, <- B. destruct (i <? Z.of_nat (n + 32)); cbn [andb]; [apply xorb_comm|reflexivity].
Qed.

(** ** SSE 4.2 *)
Local Opaque Z.lxor bit_step octet_step Nat.iter crc32_insn.
Lemma load_le_ok : forall strict l rest addr, octs l -> strict = false \/ addr mod zlen l = 0 -> load_le strict (length l) addr (l ++ rest) = Ok (le_val l).
Proof.
  intros strict l rest addr F A. unfold load_le. assert (G : strict && negb (addr mod Z.of_nat (length l) =? 0) = false). { destruct A as [->|A]; [reflexivity|]. unfold zlen in A. rewrite A. apply andb_false_r. }
  rewrite G. rewrite load_ok by reflexivity. reflexivity.
Qed.
Lemma insn_octets : forall l c, octs l -> 0 <= c < 2 ^ 32 -> crc32_insn (8 * length l) c (le_val l) = fold_left octet_step l c.
Proof.
  intros l c F C. rewrite octets_word by exact F. apply insn_ok; [exact C|]. pose proof (le_val_range _ F) as RR. rewrite Nat2Z.inj_mul, Z.pow_mul_r by lia. change (2 ^ Z.of_nat 8) with 256. exact RR.
Qed.
Lemma feed_ok : forall strict n l rest addr c, octs l -> length l = n -> 0 <= c < 2 ^ 32 -> strict = false \/ addr mod Z.of_nat n = 0 ->
  sse_feed strict n (c, addr, l ++ rest) = Ok (fold_left octet_step l c, addr + Z.of_nat n, rest).
Proof.
  intros strict n l rest addr c F L C A. subst n. unfold sse_feed. rewrite load_le_ok by assumption. cbn [bind]. rewrite insn_octets by assumption. rewrite skipn_app, skipn_all, Nat.sub_diag. reflexivity.
Qed.
Lemma sse_chunks_ok : forall strict n l rest addr c, octs l -> length l = (8 * n)%nat -> 0 <= c < 2 ^ 32 -> strict = false \/ addr mod 8 = 0 ->
  sse_chunks strict n addr (l ++ rest) c = Ok (fold_left octet_step l c, addr + zlen l, rest).
Proof.
  intros strict. induction n as [|n IH]; intros l rest addr c F L C A.
  - destruct l; [|discriminate]. cbn. rewrite Z.add_0_r. reflexivity.
  - cbn [sse_chunks]. set (h := firstn 8 l). set (t := skipn 8 l). assert (E : l = h ++ t) by (symmetry; apply firstn_skipn). assert (LH : length h = 8%nat) by (unfold h; rewrite firstn_length; lia). assert (LT : length t = (8 * n)%nat) by (unfold t; rewrite skipn_length; lia).
    clearbody h t. subst l. apply Forall_app in F. destruct F as [FH FT]. rewrite <- app_assoc. assert (AL : strict = false \/ addr mod zlen h = 0) by (unfold zlen; rewrite LH; exact A). pose proof (load_le_ok strict h (t ++ rest) addr FH AL) as LO. rewrite LH in LO. rewrite LO. cbn [bind].
    pose proof (insn_octets h c FH C) as IO. rewrite LH in IO. change (8 * 8)%nat with 64%nat in IO. rewrite IO. replace (skipn 8 (h ++ t ++ rest)) with (t ++ rest) by (rewrite <- LH, skipn_app, skipn_all, Nat.sub_diag; reflexivity).
    rewrite IH; [|exact FT|exact LT|apply octets_range; assumption|destruct A as [A|A]; [left; exact A|right; rewrite <- A, <- (Z.mod_add addr 1 8) by lia; f_equal; lia]]. rewrite fold_left_app, zlen_app. unfold zlen. rewrite LH. do 3 f_equal. lia.
Qed.
Lemma tail_lens : forall strict l rest addr c, octs l -> (length l < 8)%nat -> 0 <= c < 2 ^ 32 -> strict = false \/ (addr mod 8 = 0 /\ In (zlen l) [0; 1; 2; 4; 5]) ->
  exists a, sse_tail strict (length l) (c, addr, l ++ rest) = Ok (fold_left octet_step l c, a, rest).
Proof.
  intros strict l rest addr c F L C A. pose proof (fun l' F' => octets_range l' c F' C) as RG. assert (ONE : addr mod Z.of_nat 1 = 0) by apply Z.mod_1_r.
  assert (A2 : addr mod 8 = 0 -> addr mod Z.of_nat 2 = 0 /\ addr mod Z.of_nat 4 = 0 /\ (addr + Z.of_nat 4) mod Z.of_nat 1 = 0) by (change (Z.of_nat 2) with 2; change (Z.of_nat 4) with 4; change (Z.of_nat 1) with 1; intros; split; [zdm|split; [zdm|apply Z.mod_1_r]]).
  destruct l as [|m0 [|m1 [|m2 [|m3 [|m4 [|m5 [|m6 [|m7 l]]]]]]]]; try (cbn [length] in L; lia); cbn [length sse_tail].
  - eexists. reflexivity.
  - eexists. rewrite (feed_ok strict 1 [m0]); auto.
  - eexists. rewrite (feed_ok strict 2 [m0; m1]); auto. destruct A as [A|[A _]]; [auto|right; apply A2; exact A].
  - destruct A as [->|[_ A]]; [|cbn in A; lia]. eexists. change ([m0; m1; m2] ++ rest) with ([m0] ++ [m1; m2] ++ rest). change [m0; m1; m2] with ([m0] ++ [m1; m2]) in F |- *. apply Forall_app in F. destruct F as [P Q]. rewrite (feed_ok false 1 [m0]) by auto. cbn [bind]. rewrite (feed_ok false 2 [m1; m2] rest _ _ Q eq_refl (RG _ P) (or_introl eq_refl)). rewrite fold_left_app. reflexivity.
  - eexists. rewrite (feed_ok strict 4 [m0; m1; m2; m3]); auto. destruct A as [A|[A _]]; [auto|right; apply A2; exact A].
  - eexists. change ([m0; m1; m2; m3; m4] ++ rest) with ([m0; m1; m2; m3] ++ [m4] ++ rest). change [m0; m1; m2; m3; m4] with ([m0; m1; m2; m3] ++ [m4]) in F |- *. apply Forall_app in F. destruct F as [P Q]. rewrite (feed_ok strict 4 [m0; m1; m2; m3]) by (solve [auto | destruct A as [A|[A _]]; [auto|right; apply A2; exact A]]). cbn [bind].
    rewrite (feed_ok strict 1 [m4] rest _ _ Q eq_refl (RG _ P) (or_intror (Z.mod_1_r _))). rewrite fold_left_app. reflexivity.
  - destruct A as [->|[_ A]]; [|cbn in A; lia]. eexists. change ([m0; m1; m2; m3; m4; m5] ++ rest) with ([m0; m1] ++ [m2; m3; m4; m5] ++ rest). change [m0; m1; m2; m3; m4; m5] with ([m0; m1] ++ [m2; m3; m4; m5]) in F |- *. apply Forall_app in F. destruct F as [P Q]. rewrite (feed_ok false 2 [m0; m1]) by auto. cbn [bind]. rewrite (feed_ok false 4 [m2; m3; m4; m5] rest _ _ Q eq_refl (RG _ P) (or_introl eq_refl)). rewrite fold_left_app. reflexivity.
  - destruct A as [->|[_ A]]; [|cbn in A; lia]. eexists. change ([m0; m1; m2; m3; m4; m5; m6] ++ rest) with ([m0] ++ [m1; m2] ++ [m3; m4; m5; m6] ++ rest). change [m0; m1; m2; m3; m4; m5; m6] with ([m0] ++ [m1; m2] ++ [m3; m4; m5; m6]) in F |- *. apply Forall_app in F. destruct F as [P Q]. apply Forall_app in Q. destruct Q as [Q S].
    rewrite (feed_ok false 1 [m0]) by auto. cbn [bind]. rewrite (feed_ok false 2 [m1; m2] _ _ _ Q eq_refl (RG _ P) (or_introl eq_refl)). cbn [bind]. rewrite (feed_ok false 4 [m3; m4; m5; m6] rest _ _ S eq_refl (octets_range _ _ Q (RG _ P)) (or_introl eq_refl)). rewrite !fold_left_app. reflexivity.
Qed.
Lemma sse_ok : forall strict addr l rest, octs l -> strict = false \/ (addr mod 8 = 0 /\ In (zlen l mod 8) [0; 1; 2; 4; 5]) -> my_crc32c_sse42 strict addr (l ++ rest) (zlen l) = Ok (crc32c l).
Proof.
  intros strict addr l rest F A. unfold my_crc32c_sse42, crc32c. replace (Z.to_nat (zlen l)) with (length l) by (unfold zlen; lia). assert (INI : 0 <= 0xFFFFFFFF < 2 ^ 32) by (change (2 ^ 32) with 4294967296; lia).
  set (m := (8 * (length l / 8))%nat). pose proof (Nat.div_mod (length l) 8 ltac:(lia)) as DM. pose proof (Nat.mod_upper_bound (length l) 8 ltac:(lia)) as MB.
  set (h := firstn m l). set (t := skipn m l). assert (E : l = h ++ t) by (symmetry; apply firstn_skipn). assert (LH : length h = m) by (unfold h; rewrite firstn_length; unfold m; lia). assert (LT : length t = (length l mod 8)%nat) by (unfold t; rewrite skipn_length; unfold m; lia).
  clearbody h t. assert (A' : strict = false \/ ((addr + zlen h) mod 8 = 0 /\ In (zlen t) [0; 1; 2; 4; 5])).
  { destruct A as [A|[A A0]]; [left; exact A|right]. split; [unfold zlen; rewrite LH; unfold m; rewrite Nat2Z.inj_mul; rewrite <- A; rewrite Z.mul_comm; apply Z.mod_add; lia|]. unfold zlen in *. rewrite LT, Nat2Z.inj_mod. exact A0. }
  rewrite E in F. apply Forall_app in F. destruct F as [FH FT]. pose proof (octets_range _ _ FH INI) as C1. replace (l ++ rest) with (h ++ t ++ rest) by (rewrite E, app_assoc; reflexivity).
  rewrite sse_chunks_ok; [|exact FH|rewrite LH; reflexivity|exact INI|destruct A as [A|[A _]]; auto]. cbn [bind].
  replace (u32 (fold_left octet_step h 0xFFFFFFFF)) with (fold_left octet_step h 0xFFFFFFFF) by (symmetry; unfold u32; apply Z.mod_small; exact C1). rewrite <- LT.
  destruct (tail_lens strict t rest (addr + zlen h) (fold_left octet_step h 0xFFFFFFFF) FT ltac:(lia) C1 A') as (a & ->). cbn [bind]. rewrite lnot_u32 by (apply octets_range; assumption). rewrite E, fold_left_app. reflexivity.
Qed.
(** Under the alignment rule of the language. *)
Lemma load_bad : forall n addr mem, addr mod Z.of_nat n <> 0 -> load_le true n addr mem = UB Misaligned.
Proof. intros n addr mem A. unfold load_le. destruct (Z.eqb_spec (addr mod Z.of_nat n) 0); [contradiction|reflexivity]. Qed.
Lemma feed_bad : forall n c addr mem, addr mod Z.of_nat n <> 0 -> sse_feed true n (c, addr, mem) = UB Misaligned.
Proof. intros n c addr mem A. unfold sse_feed. rewrite load_bad by exact A. reflexivity. Qed.
Lemma sse_start_bad : forall addr mem len, 8 <= len -> addr mod 8 <> 0 -> my_crc32c_sse42 true addr mem len = UB Misaligned.
Proof.
  intros addr mem len L A. unfold my_crc32c_sse42. assert (D : (1 <= Z.to_nat len / 8)%nat) by (apply Nat.div_le_lower_bound; lia). destruct (Z.to_nat len / 8)%nat as [|n]; [lia|]. cbn [sse_chunks]. rewrite load_bad by exact A. reflexivity.
Qed.
Lemma tail_bad : forall l rest addr c, octs l -> (length l < 8)%nat -> 0 <= c < 2 ^ 32 -> addr mod 8 = 0 -> ~ In (zlen l) [0; 1; 2; 4; 5] -> sse_tail true (length l) (c, addr, l ++ rest) = UB Misaligned.
Proof.
  intros l rest addr c F L C A N. assert (B1 : (addr + Z.of_nat 1) mod Z.of_nat 2 <> 0) by (change (Z.of_nat 1) with 1; change (Z.of_nat 2) with 2; zdm). assert (B2 : (addr + Z.of_nat 2) mod Z.of_nat 4 <> 0) by (change (Z.of_nat 2) with 2; change (Z.of_nat 4) with 4; zdm). assert (G2 : addr mod Z.of_nat 2 = 0) by (change (Z.of_nat 2) with 2; zdm).
  destruct l as [|m0 [|m1 [|m2 [|m3 [|m4 [|m5 [|m6 [|m7 l]]]]]]]]; try (cbn [length] in L; lia); try (exfalso; apply N; unfold zlen; cbn; tauto); cbn [length sse_tail].
  - change ([m0; m1; m2] ++ rest) with ([m0] ++ [m1; m2] ++ rest). change [m0; m1; m2] with ([m0] ++ [m1; m2]) in F. apply Forall_app in F. destruct F as [P Q]. rewrite (feed_ok true 1 [m0] _ _ _ P eq_refl C (or_intror (Z.mod_1_r _))). cbn [bind]. apply feed_bad. exact B1.
  - change ([m0; m1; m2; m3; m4; m5] ++ rest) with ([m0; m1] ++ [m2; m3; m4; m5] ++ rest). change [m0; m1; m2; m3; m4; m5] with ([m0; m1] ++ [m2; m3; m4; m5]) in F. apply Forall_app in F. destruct F as [P Q]. rewrite (feed_ok true 2 [m0; m1] _ _ _ P eq_refl C (or_intror G2)). cbn [bind]. apply feed_bad. exact B2.
  - change ([m0; m1; m2; m3; m4; m5; m6] ++ rest) with ([m0] ++ [m1; m2] ++ [m3; m4; m5; m6] ++ rest). change [m0; m1; m2; m3; m4; m5; m6] with ([m0] ++ [m1; m2; m3; m4; m5; m6]) in F. apply Forall_app in F. destruct F as [P Q]. rewrite (feed_ok true 1 [m0] _ _ _ P eq_refl C (or_intror (Z.mod_1_r _))). cbn [bind]. rewrite feed_bad by exact B1. reflexivity.
Qed.
Lemma sse_tail_bad : forall addr l rest, octs l -> addr mod 8 = 0 -> ~ In (zlen l mod 8) [0; 1; 2; 4; 5] -> my_crc32c_sse42 true addr (l ++ rest) (zlen l) = UB Misaligned.
Proof.
  intros addr l rest F A N. unfold my_crc32c_sse42. replace (Z.to_nat (zlen l)) with (length l) by (unfold zlen; lia). assert (INI : 0 <= 0xFFFFFFFF < 2 ^ 32) by (change (2 ^ 32) with 4294967296; lia).
  set (m := (8 * (length l / 8))%nat). pose proof (Nat.div_mod (length l) 8 ltac:(lia)) as DM. pose proof (Nat.mod_upper_bound (length l) 8 ltac:(lia)) as MB.
  set (h := firstn m l). set (t := skipn m l). assert (E : l = h ++ t) by (symmetry; apply firstn_skipn). assert (LH : length h = m) by (unfold h; rewrite firstn_length; unfold m; lia). assert (LT : length t = (length l mod 8)%nat) by (unfold t; rewrite skipn_length; unfold m; lia).
  clearbody h t. assert (AH : (addr + zlen h) mod 8 = 0) by (unfold zlen; rewrite LH; unfold m; rewrite Nat2Z.inj_mul; rewrite <- A; rewrite Z.mul_comm; apply Z.mod_add; lia).
  assert (NT : ~ In (zlen t) [0; 1; 2; 4; 5]) by (unfold zlen in *; rewrite LT, Nat2Z.inj_mod; exact N).
  rewrite E in F. apply Forall_app in F. destruct F as [FH FT]. pose proof (octets_range _ _ FH INI) as C1. replace (l ++ rest) with (h ++ t ++ rest) by (rewrite E, app_assoc; reflexivity).
  rewrite sse_chunks_ok; [|exact FH|rewrite LH; reflexivity|exact INI|right; exact A]. cbn [bind].
  replace (u32 (fold_left octet_step h 0xFFFFFFFF)) with (fold_left octet_step h 0xFFFFFFFF) by (symmetry; unfold u32; apply Z.mod_small; exact C1). rewrite <- LT. rewrite tail_bad; [reflexivity|exact FT|lia|exact C1|exact AH|exact NT].
Qed.

(** ** Error detection *)
Local Transparent bit_step octet_step.
Lemma step_inj : forall a b, 0 <= a < 2 ^ 32 -> 0 <= b < 2 ^ 32 -> bit_step a = bit_step b -> a = b.
Proof.
  assert (T : forall a, 0 <= a < 2 ^ 32 -> Z.testbit (bit_step a) 31 = Z.odd a).
  { intros a A. assert (H : Z.testbit (a / 2) 31 = false) by (apply (high_zero _ 31); [change (2 ^ 32) with (2 ^ 31 * 2) in A; split; [apply Z.div_pos; lia|apply Z.div_lt_upper_bound; lia]|lia]). unfold bit_step. destruct (Z.odd a); [rewrite Z.lxor_spec, H; reflexivity|exact H]. }
  intros a b A B E. assert (OD : Z.odd a = Z.odd b) by (rewrite <- (T a A), <- (T b B), E; reflexivity). assert (D : a / 2 = b / 2).
  { unfold bit_step in E. rewrite OD in E. destruct (Z.odd b); [|exact E]. apply (f_equal (fun x => Z.lxor x 0x82F63B78)) in E. rewrite !Z.lxor_assoc, Z.lxor_nilpotent, !Z.lxor_0_r in E. exact E. }
  rewrite (Z.div_mod a 2), (Z.div_mod b 2) by lia. rewrite D, !Zmod_odd, OD. reflexivity.
Qed.
Lemma stepn_inj : forall n a b, 0 <= a < 2 ^ 32 -> 0 <= b < 2 ^ 32 -> stepn n a = stepn n b -> a = b.
Proof.
  induction n as [|n IH]; intros a b A B E; [exact E|]. rewrite !stepn_succ in E. apply step_inj in E; [|apply stepn_range; assumption|apply stepn_range; assumption]. apply IH; assumption.
Qed.
Lemma lxor_range32 : forall a b, 0 <= a < 2 ^ 32 -> 0 <= b < 2 ^ 32 -> 0 <= Z.lxor a b < 2 ^ 32.
Proof. intros a b A B. apply (f_range Z.lxor xorb Z.lxor_spec eq_refl); [lia|exact A|exact B]. Qed.
Lemma fold_inj : forall l a b, octs l -> 0 <= a < 2 ^ 32 -> 0 <= b < 2 ^ 32 -> fold_left octet_step l a = fold_left octet_step l b -> a = b.
Proof.
  induction l as [|x l IH]; intros a b F A B E; [exact E|]. cbn [fold_left] in E. pose proof (Forall_inv F) as X. cbv beta in X. assert (X' : 0 <= x < 2 ^ 32) by (change (2 ^ 32) with 4294967296; lia).
  apply IH in E; [|apply (Forall_inv_tail F)|apply stepn_range, lxor_range32; assumption|apply stepn_range, lxor_range32; assumption]. unfold octet_step in E. apply stepn_inj in E; [|apply lxor_range32; assumption|apply lxor_range32; assumption].
  apply (f_equal (fun y => Z.lxor y x)) in E. rewrite !Z.lxor_assoc, Z.lxor_nilpotent, !Z.lxor_0_r in E. exact E.
Qed.
Lemma le_val_inj : forall a b, octs a -> octs b -> length a = length b -> le_val a = le_val b -> a = b.
Proof. intros a b A B L E. rewrite <- (bytes_val a A), <- (bytes_val b B), E, L. reflexivity. Qed.
Lemma burst_ok : forall p a b s, octs p -> octs a -> octs b -> octs s -> zlen a <= 4 -> zlen b = zlen a -> crc32c (p ++ a ++ s) = crc32c (p ++ b ++ s) -> a = b.
Proof.
  intros p a b s P A B S L L' E. unfold crc32c in E. rewrite !fold_left_app in E. assert (INI : 0 <= 0xFFFFFFFF < 2 ^ 32) by (change (2 ^ 32) with 4294967296; lia). pose proof (octets_range p _ P INI) as C. set (c := fold_left octet_step p 0xFFFFFFFF) in *. clearbody c.
  assert (E' : fold_left octet_step s (fold_left octet_step a c) = fold_left octet_step s (fold_left octet_step b c)) by lia. clear E.
  apply fold_inj in E'; [|exact S|apply octets_range; assumption|apply octets_range; assumption]. rewrite !octets_word in E' by assumption. assert (LL : length b = length a) by (unfold zlen in L'; lia). rewrite LL in E'.
  assert (VR : forall x, octs x -> zlen x <= 4 -> 0 <= le_val x < 2 ^ 32). { intros x FX LX. pose proof (le_val_range _ FX) as RR. assert (256 ^ zlen x <= 256 ^ 4) by (apply Z.pow_le_mono_r; lia). change (256 ^ 4) with (2 ^ 32) in *. lia. }
  apply stepn_inj in E'; [|apply lxor_range32; auto|apply lxor_range32; [exact C|apply VR; [exact B|lia]]]. apply (f_equal (Z.lxor c)) in E'. rewrite <- !Z.lxor_assoc, Z.lxor_nilpotent, !Z.lxor_0_l in E'. apply le_val_inj; auto.
Qed.
