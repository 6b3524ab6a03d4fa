(** ProofLibmyIp.v: prefix arithmetic. *)
From Verif Require Import Base Lib ModelLibmyIp SpecLibmyIp ProofGroup.

Notation octs := (Forall (fun b => 0 <= b < 256)).
Lemma p256 : forall n, 256 ^ Z.of_nat (S n) = 256 * 256 ^ Z.of_nat n.
Proof. intros n. rewrite Nat2Z.inj_succ, Z.pow_succ_r by lia. reflexivity. Qed.
Lemma p256_pos : forall n, 0 < 256 ^ Z.of_nat n. Proof. intros. apply Z.pow_pos_nonneg; lia. Qed.
Lemma le_val_range : forall l, octs l -> 0 <= le_val l < 256 ^ zlen l.
Proof.
  unfold zlen. induction l as [|b l IH]; intros F; [cbn; lia|]. pose proof (Forall_inv F) as B. cbv beta in B. specialize (IH (Forall_inv_tail F)). cbn [le_val length]. rewrite p256. lia.
Qed.
Lemma le_bytes_length : forall n v, length (le_bytes n v) = n.
Proof. induction n; intros; cbn [le_bytes length]; auto. Qed.
Lemma le_bytes_octs : forall n v, octs (le_bytes n v).
Proof. induction n; intros; cbn [le_bytes]; constructor; auto. apply Z.mod_pos_bound. lia. Qed.
Lemma val_bytes : forall n v, le_val (le_bytes n v) = v mod 256 ^ Z.of_nat n.
Proof.
  induction n as [|n IH]; intros v; [cbn [le_bytes le_val]; change (256 ^ Z.of_nat 0) with 1; rewrite Z.mod_1_r; reflexivity|].
  cbn [le_bytes le_val]. rewrite IH, p256. pose proof (p256_pos n). rewrite Z.rem_mul_r by lia. reflexivity.
Qed.
Lemma bytes_val : forall l, octs l -> le_bytes (length l) (le_val l) = l.
Proof.
  induction l as [|b l IH]; intros F; [reflexivity|]. pose proof (Forall_inv F) as B. cbv beta in B. cbn [length le_bytes le_val].
  replace ((b + 256 * le_val l) mod 256) with b by (apply Z.mod_unique with (le_val l); lia). replace ((b + 256 * le_val l) / 256) with (le_val l) by (apply Z.div_unique with b; lia).
  rewrite IH by (apply (Forall_inv_tail F)). reflexivity.
Qed.
Lemma le_val_app : forall a b, le_val (a ++ b) = le_val a + 256 ^ zlen a * le_val b.
Proof.
  induction a as [|x a IH]; intros b; cbn [app le_val]; [change (zlen (@nil Z)) with 0; lia|]. rewrite IH. unfold zlen. cbn [length]. rewrite p256. ring.
Qed.
Lemma be_le : forall l, be_val l = le_val (rev l).
Proof.
  intros l. unfold be_val. enough (E : forall l a, fold_left (fun a b => 256 * a + b) l a = le_val (rev l) + 256 ^ zlen l * a) by (rewrite E; lia).
  clear l. induction l as [|b l IH]; intros a; cbn [fold_left rev]; [change (zlen (@nil Z)) with 0; cbn [rev le_val fold_left]; rewrite ?Z.pow_0_r; lia|]. rewrite IH, le_val_app. unfold zlen in *. rewrite rev_length. cbn [length le_val]. rewrite p256. ring.
Qed.
Lemma octs_rev : forall l, octs l -> octs (rev l). Proof. intros l F. apply Forall_rev. exact F. Qed.
Lemma be_range : forall n l, is_addr n l -> 0 <= be_val l < 256 ^ n.
Proof. intros n l [<- F]. rewrite be_le. pose proof (le_val_range (rev l) (octs_rev _ F)) as R. unfold zlen in *. rewrite rev_length in R. exact R. Qed.
Lemma be_app : forall a b, be_val (a ++ b) = 256 ^ zlen b * be_val a + be_val b.
Proof. intros a b. rewrite !be_le, rev_app_distr, le_val_app. unfold zlen. rewrite rev_length. lia. Qed.

(** ** Byte order *)
Definition ord (le : bool) (l : bytes) : bytes := if le then l else rev l.
Lemma ord_octs : forall le l, octs l -> octs (ord le l). Proof. intros [|] l F; [exact F|apply octs_rev; exact F]. Qed.
Lemma ord_length : forall le l, length (ord le l) = length l. Proof. intros [|] l; [reflexivity|apply rev_length]. Qed.
Lemma ord_ord : forall le l, ord le (ord le l) = l. Proof. intros [|] l; [reflexivity|apply rev_involutive]. Qed.
Lemma store_ord : forall le l, octs l -> store le (length l) (le_val (ord le l)) = l.
Proof.
  intros le l F. unfold store. rewrite <- (ord_length le l), bytes_val by (apply ord_octs; exact F). destruct le; [reflexivity|apply rev_involutive].
Qed.
Lemma load_ok : forall le n a rest, length a = n -> load le n (a ++ rest) = Ok (le_val (ord le a)).
Proof.
  intros le n a rest L. unfold load. replace (zlen (a ++ rest) <? Z.of_nat n) with false by (unfold zlen; rewrite app_length; lia).
  rewrite firstn_app, L, Nat.sub_diag, firstn_O, app_nil_r, firstn_all2 by lia. destruct le; reflexivity.
Qed.
Lemma htobe_ord : forall le n v, 0 <= v < 256 ^ Z.of_nat n -> htobe le n v = le_val (ord le (rev (le_bytes n v))).
Proof. intros [|] n v V; unfold htobe, ord, swap; [reflexivity|]. rewrite rev_involutive, val_bytes, Z.mod_small by exact V. reflexivity. Qed.
Lemma htobe_load : forall le a, octs a -> htobe le (length a) (le_val (ord le a)) = be_val a.
Proof.
  intros [|] a F; unfold htobe, ord, swap; rewrite be_le; [|reflexivity]. rewrite bytes_val by exact F. reflexivity.
Qed.
Lemma be_of_val : forall n v, 0 <= v < 256 ^ Z.of_nat n -> is_addr (Z.of_nat n) (rev (le_bytes n v)) /\ be_val (rev (le_bytes n v)) = v.
Proof.
  intros n v V. split; [split; [unfold zlen; rewrite rev_length, le_bytes_length; reflexivity|apply octs_rev, le_bytes_octs]|]. rewrite be_le, rev_involutive, val_bytes. apply Z.mod_small. exact V.
Qed.
Lemma store_htobe : forall le n v, 0 <= v < 256 ^ Z.of_nat n -> store le n (htobe le n v) = rev (le_bytes n v).
Proof.
  intros le n v V. rewrite htobe_ord by exact V. pose proof (store_ord le (rev (le_bytes n v)) (octs_rev _ (le_bytes_octs n v))) as X. rewrite rev_length, le_bytes_length in X. exact X.
Qed.

(** ** Bitwise operations octet by octet *)
Section Bitwise.
Variable f : Z -> Z -> Z.
Variable g : bool -> bool -> bool.
Hypothesis SPEC : forall a b i, Z.testbit (f a b) i = g (Z.testbit a i) (Z.testbit b i).
Hypothesis G0 : g false false = false.

Lemma f_mod : forall k x y, 0 <= k -> f x y mod 2 ^ k = f (x mod 2 ^ k) (y mod 2 ^ k).
Proof.
  intros k x y K. apply Z.bits_inj'. intros i I. rewrite SPEC. destruct (Z_lt_ge_dec i k).
  - rewrite !Z.mod_pow2_bits_low by lia. apply SPEC.
  - rewrite !Z.mod_pow2_bits_high by lia. auto.
Qed.
Lemma f_div : forall k x y, 0 <= k -> f x y / 2 ^ k = f (x / 2 ^ k) (y / 2 ^ k).
Proof. intros k x y K. apply Z.bits_inj'. intros i I. rewrite SPEC, !Z.div_pow2_bits by lia. apply SPEC. Qed.
Lemma f_range : forall k x y, 0 <= k -> 0 <= x < 2 ^ k -> 0 <= y < 2 ^ k -> 0 <= f x y < 2 ^ k.
Proof.
  intros k x y K X Y. pose proof (f_mod k x y K) as M. rewrite (Z.mod_small x), (Z.mod_small y) in M by lia. rewrite <- M. apply Z.mod_pos_bound. lia.
Qed.
Fixpoint zip (a b : bytes) : bytes := match a, b with x :: a, y :: b => f x y :: zip a b | _, _ => [] end.
Lemma zip_length : forall a b, length a = length b -> length (zip a b) = length a.
Proof. induction a as [|x a IH]; intros [|y b] E; try discriminate; cbn [zip length] in *; auto. Qed.
Lemma zip_octs : forall a b, octs a -> octs b -> octs (zip a b).
Proof.
  induction a as [|x a IH]; intros [|y b] A B; cbn [zip]; try constructor.
  - apply (f_range 8); [lia|exact (Forall_inv A)|exact (Forall_inv B)].
  - apply IH; [exact (Forall_inv_tail A)|exact (Forall_inv_tail B)].
Qed.
Lemma zip_app : forall a b c d, length a = length b -> zip (a ++ c) (b ++ d) = zip a b ++ zip c d.
Proof. induction a as [|x a IH]; intros [|y b] c d E; try discriminate; cbn [zip app]; [reflexivity|]. rewrite IH by (injection E; auto). reflexivity. Qed.
Lemma zip_rev : forall a b, length a = length b -> rev (zip a b) = zip (rev a) (rev b).
Proof.
  induction a as [|x a IH]; intros [|y b] E; try discriminate; cbn [zip rev]; [reflexivity|]. injection E as E. rewrite zip_app by (rewrite !rev_length; exact E). rewrite IH by exact E. reflexivity.
Qed.
Lemma zip_ord : forall le a b, length a = length b -> ord le (zip a b) = zip (ord le a) (ord le b).
Proof. intros [|] a b E; [reflexivity|apply zip_rev; exact E]. Qed.
Lemma zip_val : forall a b, length a = length b -> octs a -> octs b -> le_val (zip a b) = f (le_val a) (le_val b).
Proof.
  induction a as [|x a IH]; intros [|y b] E A B; try discriminate; cbn [zip le_val].
  - apply Z.bits_inj'. intros i I. rewrite SPEC, Z.bits_0. auto.
  - pose proof (Forall_inv A) as X. pose proof (Forall_inv B) as Y. cbv beta in X, Y. rewrite IH; [|injection E; auto|exact (Forall_inv_tail A)|exact (Forall_inv_tail B)].
    set (p := x + 256 * le_val a). set (q := y + 256 * le_val b). rewrite (Z.div_mod (f p q) (2 ^ 8)) by lia. rewrite f_mod, f_div by lia. change (2 ^ 8) with 256. subst p q.
    replace ((x + 256 * le_val a) mod 256) with x by (apply Z.mod_unique with (le_val a); lia). replace ((x + 256 * le_val a) / 256) with (le_val a) by (apply Z.div_unique with x; lia).
    replace ((y + 256 * le_val b) mod 256) with y by (apply Z.mod_unique with (le_val b); lia). replace ((y + 256 * le_val b) / 256) with (le_val b) by (apply Z.div_unique with y; lia). lia.
Qed.
(** Combining an address in host order with a mask converted to host order. *)
Lemma combine_mask : forall le n a m, is_addr (Z.of_nat n) a -> 0 <= m < 256 ^ Z.of_nat n ->
  exists out, store le n (f (le_val (ord le a)) (htobe le n m)) = out /\ is_addr (Z.of_nat n) out /\ be_val out = f (be_val a) m.
Proof.
  intros le n a m [L A] M. assert (L' : length a = n) by (unfold zlen in L; lia). set (b := rev (le_bytes n m)). assert (Lb : length b = n) by (unfold b; rewrite rev_length; apply le_bytes_length).
  assert (B : octs b) by apply octs_rev, le_bytes_octs. exists (zip a b). rewrite htobe_ord by exact M. fold b.
  rewrite <- zip_val, <- zip_ord by (rewrite ?ord_length; try lia; apply ord_octs; auto).
  assert (Z0 : length (zip a b) = n) by (rewrite zip_length; lia). assert (ZO : octs (zip a b)) by (apply zip_octs; auto).
  split; [rewrite <- Z0; apply store_ord; exact ZO|]. split; [split; [unfold zlen; lia|exact ZO]|].
  rewrite !be_le, zip_rev, zip_val by (rewrite ?rev_length; try lia; apply octs_rev; auto). f_equal. unfold b. rewrite rev_involutive, val_bytes, Z.mod_small by exact M. reflexivity.
Qed.
End Bitwise.
Definition and_mask := combine_mask Z.land andb Z.land_spec eq_refl.
Definition or_mask := combine_mask Z.lor orb Z.lor_spec eq_refl.

(** ** Masks *)
Lemma ones_eq : forall h, 0 <= h -> 2 ^ h - 1 = Z.ones h. Proof. intros h H. rewrite Z.ones_equiv. lia. Qed.
Lemma net_mask : forall w h a, 0 <= h <= w -> 0 <= a < 2 ^ w -> Z.land a (Z.lnot (2 ^ h - 1) mod 2 ^ w) = 2 ^ h * (a / 2 ^ h).
Proof.
  intros w h a H A. transitivity (Z.ldiff a (Z.ones h)).
  - rewrite ones_eq by lia. apply Z.bits_inj'. intros i I. rewrite Z.land_spec, Z.ldiff_spec. destruct (Z_lt_ge_dec i w).
    + rewrite Z.mod_pow2_bits_low, Z.lnot_spec by lia. reflexivity.
    + replace (Z.testbit a i) with false; [reflexivity|]. symmetry. rewrite <- (Z.mod_small a (2 ^ w)) by lia. apply Z.mod_pow2_bits_high. lia.
  - rewrite Z.ldiff_ones_r, Z.shiftl_mul_pow2, Z.shiftr_div_pow2 by lia. lia.
Qed.
Lemma host_mask : forall h a, 0 <= h -> 0 <= a -> Z.lor a (2 ^ h - 1) = 2 ^ h * (a / 2 ^ h) + (2 ^ h - 1).
Proof.
  intros h a H A. assert (0 < 2 ^ h) by (apply Z.pow_pos_nonneg; lia). transitivity (Z.lor (2 ^ h - 1) (2 ^ h * (a / 2 ^ h))).
  - rewrite ones_eq by lia. apply Z.bits_inj'. intros i I. rewrite !Z.lor_spec, (Z.mul_comm (2 ^ h)). destruct (Z_lt_ge_dec i h).
    + rewrite Z.ones_spec_low by lia. rewrite orb_true_r. reflexivity.
    + rewrite Z.ones_spec_high by lia. rewrite Z.mul_pow2_bits, Z.div_pow2_bits by lia. replace (i - h + h) with i by lia. rewrite orb_false_r. reflexivity.
  - rewrite lor_add; [lia|lia|lia|apply Z.div_pos; lia].
Qed.
Lemma lowest_intro : forall n p a x, is_addr n x -> 0 <= p <= 8 * n -> be_val x = 2 ^ (8 * n - p) * (be_val a / 2 ^ (8 * n - p)) -> lowest n p a x.
Proof.
  intros n p a x X P E. assert (P0 : 0 < 2 ^ (8 * n - p)) by (apply Z.pow_pos_nonneg; lia). split; [exact X|]. unfold same_prefix. split.
  - rewrite E. rewrite (Z.mul_comm (2 ^ (8 * n - p))), Z.div_mul by lia. reflexivity.
  - intros y Y S0. rewrite E, S0. apply Z.mul_div_le. lia.
Qed.
Lemma highest_intro : forall n p a x, is_addr n x -> 0 <= p <= 8 * n -> be_val x = 2 ^ (8 * n - p) * (be_val a / 2 ^ (8 * n - p)) + (2 ^ (8 * n - p) - 1) -> highest n p a x.
Proof.
  intros n p a x X P E. assert (P0 : 0 < 2 ^ (8 * n - p)) by (apply Z.pow_pos_nonneg; lia). split; [exact X|]. unfold same_prefix. split.
  - rewrite E. rewrite (Z.mul_comm (2 ^ (8 * n - p))), Z.div_add_l by lia. rewrite (Z.div_small (_ - 1)) by lia. lia.
  - intros y Y S0. rewrite E, S0. pose proof (Z.mul_succ_div_gt (be_val y) (2 ^ (8 * n - p)) ltac:(lia)). lia.
Qed.

(** ** IPv4 *)
Lemma host_ok : forall p, 2 <= p <= 32 -> ip4_host p = Ok (2 ^ (32 - p) - 1).
Proof.
  intros p P. unfold ip4_host, u32. rewrite Z.mod_small by lia. replace (32 - p >=? 32) with false by lia. replace (32 - p =? 31) with false by lia. rewrite Z.shiftl_1_l.
  assert (0 < 2 ^ (32 - p)) by (apply Z.pow_pos_nonneg; lia). replace (2 ^ (32 - p) - 1 <? - 2147483648) with false by lia. reflexivity.
Qed.
Lemma lower4 : forall le a p rest, is_addr 4 a -> 2 <= p <= 32 -> exists out, ip4_lower le (a ++ rest) p = Ok out /\ lowest 4 p a out.
Proof.
  intros le a p rest A P. pose proof (be_range 4 a A) as R. change (256 ^ 4) with (2 ^ 32) in R. unfold ip4_lower. rewrite load_ok by (destruct A as [A _]; unfold zlen in A; lia). cbn [bind]. rewrite host_ok by exact P. cbn [bind].
  destruct (and_mask le 4 a (u32 (Z.lnot (2 ^ (32 - p) - 1)))) as (out & E1 & E2 & E3); [exact A|unfold u32; apply (Z.mod_pos_bound _ 4294967296); lia|].
  rewrite E1. exists out. split; [reflexivity|]. apply lowest_intro; [exact E2|lia|]. rewrite E3. apply (net_mask 32); lia.
Qed.
Lemma upper4 : forall le a p rest, is_addr 4 a -> 2 <= p <= 32 -> exists out, ip4_upper le (a ++ rest) p = Ok out /\ highest 4 p a out.
Proof.
  intros le a p rest A P. pose proof (be_range 4 a A) as R. unfold ip4_upper. rewrite load_ok by (destruct A as [A _]; unfold zlen in A; lia). cbn [bind]. rewrite host_ok by exact P. cbn [bind].
  assert (X : 0 <= 2 ^ (32 - p) - 1 < 4294967296). { assert (0 < 2 ^ (32 - p)) by (apply Z.pow_pos_nonneg; lia). assert (2 ^ (32 - p) <= 2 ^ 32) by (apply Z.pow_le_mono_r; lia). change (2 ^ 32) with 4294967296 in *. lia. }
  destruct (or_mask le 4 a (u32 (2 ^ (32 - p) - 1))) as (out & E1 & E2 & E3); [exact A|unfold u32; apply (Z.mod_pos_bound _ 4294967296); lia|].
  rewrite E1. exists out. split; [reflexivity|]. apply highest_intro; [exact E2|lia|]. rewrite E3. unfold u32. rewrite Z.mod_small by exact X. apply host_mask; lia.
Qed.
Lemma incr4 : forall le a rest, is_addr 4 a -> exists out, ip4_incr le (a ++ rest) = Ok out /\ is_addr 4 out /\ be_val out = (be_val a + 1) mod 2 ^ 32.
Proof.
  intros le a rest A. destruct A as [L A]. assert (L' : length a = 4%nat) by (unfold zlen in L; lia). unfold ip4_incr. rewrite load_ok by exact L'. cbn [bind].
  pose proof (htobe_load le a A) as H. rewrite L' in H. rewrite H. assert (V : 0 <= u32 (be_val a + 1) < 256 ^ Z.of_nat 4) by (unfold u32; apply (Z.mod_pos_bound _ 4294967296); lia).
  rewrite store_htobe by exact V. destruct (be_of_val 4 _ V) as [X Y]. eexists. split; [reflexivity|]. split; [exact X|exact Y].
Qed.

(** ** IPv6 *)
Lemma mask64_ok : forall p, 1 <= p <= 63 -> mask64 p = Ok (Z.lnot (2 ^ (64 - p) - 1) mod 2 ^ 64).
Proof.
  intros p P. unfold mask64, shl64, u64. replace (p >=? 64) with false by lia. cbn [bind]. rewrite Z.shiftl_1_l.
  assert (Q : 0 < 2 ^ p) by (apply Z.pow_pos_nonneg; lia). assert (Q1 : 2 ^ p <= 2 ^ 63) by (apply Z.pow_le_mono_r; lia). change (2 ^ 63) with 9223372036854775808 in Q1.
  rewrite (Z.mod_small (2 ^ p)) by lia. rewrite (Z.mod_small (2 ^ p - 1)) by lia. rewrite (Z.mod_small (64 - p)) by lia. replace (64 - p >=? 64) with false by lia.
  f_equal. change 18446744073709551616 with (2 ^ 64). rewrite Z.shiftl_mul_pow2 by lia. replace (Z.lnot (2 ^ (64 - p) - 1)) with (- 2 ^ (64 - p)) by (unfold Z.lnot; lia).
  assert (E : 2 ^ 64 = 2 ^ p * 2 ^ (64 - p)) by (rewrite <- Z.pow_add_r by lia; f_equal; lia). symmetry. rewrite <- (Z.mod_add (- _) 1) by lia. f_equal. rewrite E. ring.
Qed.
Lemma split16 : forall a, is_addr 16 a -> exists h l, a = h ++ l /\ is_addr 8 h /\ is_addr 8 l.
Proof.
  intros a [L A]. exists (firstn 8 a), (skipn 8 a). split; [symmetry; apply firstn_skipn|]. rewrite <- (firstn_skipn 8 a) in A. apply Forall_app in A. unfold zlen in L.
  split; split; try tauto; unfold zlen; rewrite ?firstn_length, ?skipn_length; lia.
Qed.
Lemma addr_app : forall h l, is_addr 8 h -> is_addr 8 l -> is_addr 16 (h ++ l) /\ be_val (h ++ l) = 2 ^ 64 * be_val h + be_val l.
Proof. intros h l [Lh H] [Ll L]. split; [split; [rewrite zlen_app; lia|apply Forall_app; auto]|]. rewrite be_app, Ll. reflexivity. Qed.
Lemma div_hi : forall h l k, 0 <= l < 2 ^ 64 -> 0 <= k -> (2 ^ 64 * h + l) / 2 ^ (64 + k) = h / 2 ^ k.
Proof. intros h l k L K. rewrite Z.pow_add_r by lia. rewrite <- Z.div_div by (try (apply Z.pow_nonzero; lia); apply Z.pow_pos_nonneg; lia). f_equal. symmetry. apply Z.div_unique with l; [left; exact L|reflexivity]. Qed.
Lemma div_lo : forall h l k, 0 <= k <= 64 -> (2 ^ 64 * h + l) / 2 ^ k = 2 ^ (64 - k) * h + l / 2 ^ k.
Proof.
  intros h l k K. replace (2 ^ 64) with (2 ^ (64 - k) * 2 ^ k) by (rewrite <- Z.pow_add_r by lia; f_equal; lia). replace (2 ^ (64 - k) * 2 ^ k * h + l) with ((2 ^ (64 - k) * h) * 2 ^ k + l) by ring. apply Z.div_add_l. apply Z.pow_nonzero; lia.
Qed.
Lemma loads16 : forall le h l rest, is_addr 8 h -> is_addr 8 l -> load le 8 ((h ++ l) ++ rest) = Ok (le_val (ord le h)) /\ load le 8 (skipn 8 ((h ++ l) ++ rest)) = Ok (le_val (ord le l)).
Proof.
  intros le h l rest [Lh H] [Ll L]. unfold zlen in *. assert (length h = 8%nat) by lia. assert (length l = 8%nat) by lia. rewrite <- !app_assoc. split; [apply load_ok; assumption|].
  rewrite skipn_app, skipn_all2 by lia. replace (8 - length h)%nat with 0%nat by lia. apply (load_ok le 8 l). assumption.
Qed.
Lemma all64 : 0 <= 18446744073709551615 < 256 ^ Z.of_nat 8. Proof. split; [discriminate|reflexivity]. Qed.
Lemma land_all : forall a, 0 <= a < 2 ^ 64 -> Z.land a 18446744073709551615 = a.
Proof. intros a A. change 18446744073709551615 with (Z.ones 64). rewrite Z.land_ones by lia. apply Z.mod_small. exact A. Qed.
Lemma swap_all : forall le, htobe le 8 18446744073709551615 = 18446744073709551615. Proof. intros [|]; vm_compute; reflexivity. Qed.
Lemma swap_0 : forall le, htobe le 8 0 = 0. Proof. intros [|]; vm_compute; reflexivity. Qed.
Lemma m64_range : forall x, 0 <= x mod 2 ^ 64 < 256 ^ Z.of_nat 8. Proof. intros. apply Z.mod_pos_bound. reflexivity. Qed.

Lemma lower6 : forall le a p rest, is_addr 16 a -> 0 < p <= 128 -> p <> 64 -> exists out, ip6_lower le (a ++ rest) p = Ok out /\ lowest 16 p a out.
Proof.
  intros le a p rest A P N. destruct (split16 a A) as (h & l & -> & H & L). pose proof (be_range _ _ H) as Rh. pose proof (be_range _ _ L) as Rl. change (256 ^ 8) with (2 ^ 64) in *.
  destruct (loads16 le h l rest H L) as [LD0 LD1]. destruct (addr_app h l H L) as [_ VA]. unfold ip6_lower.
  assert (Q : forall m0 m1 k, 0 <= m0 < 256 ^ Z.of_nat 8 -> 0 <= m1 < 256 ^ Z.of_nat 8 -> k = 128 - p -> 2 ^ 64 * Z.land (be_val h) m0 + Z.land (be_val l) m1 = 2 ^ k * (be_val (h ++ l) / 2 ^ k) ->
    exists out, ('(mask0, mask1) <- Ok (htobe le 8 m0, htobe le 8 m1) ;; addr0 <- load le 8 ((h ++ l) ++ rest) ;; addr1 <- load le 8 (skipn 8 ((h ++ l) ++ rest)) ;; Ok (store le 8 (Z.land addr0 mask0) ++ store le 8 (Z.land addr1 mask1))) = Ok out /\ lowest 16 p (h ++ l) out).
  { intros m0 m1 k M0 M1 -> E. cbn [bind]. rewrite LD0. cbn [bind]. rewrite LD1. cbn [bind]. destruct (and_mask le 8 h m0 H M0) as (o0 & -> & A0 & V0). destruct (and_mask le 8 l m1 L M1) as (o1 & -> & A1 & V1).
    exists (o0 ++ o1). split; [reflexivity|]. destruct (addr_app o0 o1 A0 A1) as [AA VV]. apply lowest_intro; [exact AA|lia|]. rewrite VV, V0, V1. exact E. }
  destruct (p <? 64) eqn:C; [|destruct (p <? 128) eqn:C1].
  - rewrite mask64_ok by lia. cbn [bind]. apply (Q _ 0 (64 + (64 - p))); [apply m64_range|split; [lia|reflexivity]|lia|]. rewrite net_mask, Z.land_0_r, VA, div_hi, Z.pow_add_r by lia. ring.
  - rewrite mask64_ok by lia. cbn [bind]. apply (Q _ _ (64 - (p - 64))); [apply all64|apply m64_range|lia|]. rewrite land_all, net_mask, VA, div_lo by lia.
    set (k := 64 - (p - 64)). replace (2 ^ 64) with (2 ^ (64 - k) * 2 ^ k) by (rewrite <- Z.pow_add_r by lia; f_equal; lia). ring.
  - rewrite <- (swap_all le). apply (Q _ _ 0); [rewrite ?swap_all; apply all64|rewrite ?swap_all; apply all64|lia|]. rewrite ?swap_all, !land_all, VA by lia. change (2 ^ 0) with 1. rewrite Z.div_1_r. ring.
Qed.
Lemma lnot_host : forall k, 0 <= k <= 64 -> u64 (Z.lnot (Z.lnot (2 ^ k - 1) mod 2 ^ 64)) = 2 ^ k - 1.
Proof.
  intros k K. assert (0 < 2 ^ k) by (apply Z.pow_pos_nonneg; lia). assert (2 ^ k <= 2 ^ 64) by (apply Z.pow_le_mono_r; lia). unfold u64. change 18446744073709551616 with (2 ^ 64).
  replace (Z.lnot (2 ^ k - 1)) with (- 2 ^ k) by (unfold Z.lnot; lia). destruct (Z.eq_dec (2 ^ k) (2 ^ 64)) as [E|E].
  - rewrite E. replace ((- 2 ^ 64) mod 2 ^ 64) with 0 by reflexivity. reflexivity.
  - rewrite <- (Z.mod_add (- 2 ^ k) 1) by lia. rewrite (Z.mod_small (- 2 ^ k + 1 * 2 ^ 64)) by lia. unfold Z.lnot. replace (Z.pred (- (- 2 ^ k + 1 * 2 ^ 64))) with (2 ^ k - 1 + (-1) * 2 ^ 64) by lia. rewrite Z.mod_add by lia. apply Z.mod_small. lia.
Qed.
Lemma upper6 : forall le a p rest, is_addr 16 a -> 0 < p <= 128 -> p <> 64 -> exists out, ip6_upper le (a ++ rest) p = Ok out /\ highest 16 p a out.
Proof.
  intros le a p rest A P N. destruct (split16 a A) as (h & l & -> & H & L). pose proof (be_range _ _ H) as Rh. pose proof (be_range _ _ L) as Rl. change (256 ^ 8) with (2 ^ 64) in *.
  destruct (loads16 le h l rest H L) as [LD0 LD1]. destruct (addr_app h l H L) as [_ VA]. unfold ip6_upper.
  assert (Q : forall m0 m1 k, 0 <= m0 < 256 ^ Z.of_nat 8 -> 0 <= m1 < 256 ^ Z.of_nat 8 -> k = 128 - p -> 2 ^ 64 * Z.lor (be_val h) m0 + Z.lor (be_val l) m1 = 2 ^ k * (be_val (h ++ l) / 2 ^ k) + (2 ^ k - 1) ->
    exists out, ('(mask0, mask1) <- Ok (htobe le 8 m0, htobe le 8 m1) ;; addr0 <- load le 8 ((h ++ l) ++ rest) ;; addr1 <- load le 8 (skipn 8 ((h ++ l) ++ rest)) ;; Ok (store le 8 (Z.lor addr0 mask0) ++ store le 8 (Z.lor addr1 mask1))) = Ok out /\ highest 16 p (h ++ l) out).
  { intros m0 m1 k M0 M1 -> E. cbn [bind]. rewrite LD0. cbn [bind]. rewrite LD1. cbn [bind]. destruct (or_mask le 8 h m0 H M0) as (o0 & -> & A0 & V0). destruct (or_mask le 8 l m1 L M1) as (o1 & -> & A1 & V1).
    exists (o0 ++ o1). split; [reflexivity|]. destruct (addr_app o0 o1 A0 A1) as [AA VV]. apply highest_intro; [exact AA|lia|]. rewrite VV, V0, V1. exact E. }
  assert (PK : forall k, 0 <= k <= 64 -> 0 <= 2 ^ k - 1 < 256 ^ Z.of_nat 8). { intros k K. change (256 ^ Z.of_nat 8) with (2 ^ 64). assert (0 < 2 ^ k) by (apply Z.pow_pos_nonneg; lia). assert (2 ^ k <= 2 ^ 64) by (apply Z.pow_le_mono_r; lia). lia. }
  destruct (p <? 64) eqn:C; [|destruct (p <? 128) eqn:C1].
  - rewrite mask64_ok by lia. cbn [bind]. rewrite lnot_host by lia. apply (Q _ _ (64 + (64 - p))); [apply PK; lia|apply all64|lia|].
    rewrite host_mask by lia. change 18446744073709551615 with (2 ^ 64 - 1). rewrite host_mask by lia. rewrite (Z.div_small (be_val l)) by lia. rewrite VA, div_hi, Z.pow_add_r by lia. ring.
  - rewrite mask64_ok by lia. cbn [bind]. rewrite lnot_host by lia. apply (Q _ _ (64 - (p - 64))); [split; [lia|reflexivity]|apply PK; lia|lia|]. rewrite host_mask by lia. rewrite Z.lor_0_r. rewrite VA, div_lo by lia.
    set (k := 64 - (p - 64)). replace (2 ^ 64) with (2 ^ (64 - k) * 2 ^ k) by (rewrite <- Z.pow_add_r by lia; f_equal; lia). ring.
  - rewrite <- (swap_0 le). apply (Q _ _ 0); [rewrite ?swap_0; split; [lia|reflexivity]|rewrite ?swap_0; split; [lia|reflexivity]|lia|]. rewrite ?swap_0, !Z.lor_0_r, VA by lia. change (2 ^ 0) with 1. rewrite Z.div_1_r. ring.
Qed.
Lemma incr6 : forall le a rest, is_addr 16 a -> exists out, ip6_incr le (a ++ rest) = Ok out /\ is_addr 16 out /\ be_val out = (be_val a + 1) mod 2 ^ 128.
Proof.
  intros le a rest A. destruct (split16 a A) as (h & l & -> & H & L). pose proof (be_range _ _ H) as Rh. pose proof (be_range _ _ L) as Rl. change (256 ^ 8) with (2 ^ 64) in *.
  destruct (loads16 le h l rest H L) as [LD0 LD1]. destruct (addr_app h l H L) as [_ VA]. unfold ip6_incr. rewrite LD0. cbn [bind]. rewrite LD1. cbn [bind].
  assert (Lh : length h = 8%nat) by (destruct H as [X _]; unfold zlen in X; lia). assert (Ll : length l = 8%nat) by (destruct L as [X _]; unfold zlen in X; lia).
  pose proof (htobe_load le h (proj2 H)) as E0. pose proof (htobe_load le l (proj2 L)) as E1. rewrite Lh in E0. rewrite Ll in E1. rewrite E0, E1. rewrite VA. change (2 ^ 128) with (2 ^ 64 * 2 ^ 64).
  assert (Q : forall x y, 0 <= x < 256 ^ Z.of_nat 8 -> 0 <= y < 256 ^ Z.of_nat 8 -> 2 ^ 64 * x + y = (2 ^ 64 * be_val h + be_val l + 1) mod (2 ^ 64 * 2 ^ 64) -> exists out, Ok (store le 8 (htobe le 8 x) ++ store le 8 (htobe le 8 y)) = Ok out /\ is_addr 16 out /\ be_val out = (2 ^ 64 * be_val h + be_val l + 1) mod (2 ^ 64 * 2 ^ 64)).
  { intros x y X Y E. rewrite !store_htobe by assumption. destruct (be_of_val 8 x X) as [A0 V0]. destruct (be_of_val 8 y Y) as [A1 V1]. destruct (addr_app _ _ A0 A1) as [AA VV]. eexists. split; [reflexivity|]. split; [exact AA|]. rewrite VV, V0, V1. exact E. }
  unfold u64. change (256 ^ Z.of_nat 8) with (2 ^ 64) in Q. change 18446744073709551616 with (2 ^ 64). change 18446744073709551615 with (2 ^ 64 - 1). destruct (be_val l =? 2 ^ 64 - 1) eqn:C.
  - apply Q; [apply Z.mod_pos_bound; lia|lia|]. replace (2 ^ 64 * be_val h + be_val l + 1) with (2 ^ 64 * (be_val h + 1)) by lia. rewrite Z.mul_mod_distr_l by lia. lia.
  - rewrite Z.mod_small by lia. apply Q; [lia|lia|]. rewrite Z.add_assoc. symmetry. apply (Z.mod_small (2 ^ 64 * be_val h + be_val l + 1)). split; [lia|]. nia.
Qed.
