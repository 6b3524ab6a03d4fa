(** ProofVarint.v: varint encoding and decoding. *)
From Verif Require Import Base Lib ModelVarint SpecVarint ProofB32 ProofGroup.

Lemma land127 : forall b, Z.land b 127 = b mod 128. Proof. intros b. apply (Z.land_ones b 7). lia. Qed.
Lemma land128 : forall b, 0 <= b < 256 -> (Z.land b 128 =? 0) = (b <? 128).
Proof. intros b B. apply Bool.eqb_prop. apply (forall_small 256 (fun b => Bool.eqb (Z.land b 128 =? 0) (b <? 128))); [vm_compute; reflexivity|exact B]. Qed.
Lemma shl_mul : forall x n, 0 <= n -> Z.shiftl x n = 2 ^ n * x. Proof. intros. rewrite Z.shiftl_mul_pow2 by lia. lia. Qed.
Lemma shr7 : forall v, Z.shiftr v 7 = v / 128. Proof. intros. rewrite Z.shiftr_div_pow2 by lia. reflexivity. Qed.
Lemma low8 : forall v, 0 <= v -> u8 (Z.lor v 128) = 128 + v mod 128.
Proof.
  intros v V. unfold u8. change 256 with (2 ^ 8). rewrite <- Z.land_ones by lia.
  replace (Z.land (Z.lor v 128) (Z.ones 8)) with (Z.lor (Z.land v (Z.ones 7)) 128).
  - rewrite Z.land_ones by lia. change 128 with (2 ^ 7 * 1) at 1. rewrite lor_add by (try lia; apply Z.mod_pos_bound; lia). change (2 ^ 7) with 128. lia.
  - apply Z.bits_inj'. intros i I. rewrite !Z.land_spec, !Z.lor_spec, !Z.land_spec.
    destruct (Z_lt_ge_dec i 7) as [L|L]; [rewrite !Z.ones_spec_low by lia; destruct (Z.testbit v i), (Z.testbit 128 i); reflexivity|].
    rewrite (Z.ones_spec_high 7) by lia. destruct (Z.eq_dec i 7) as [->|N]; [rewrite (Z.ones_spec_low 8) by lia; destruct (Z.testbit v 7); reflexivity|].
    rewrite Z.ones_spec_high by lia. replace (Z.testbit 128 i) with false; [rewrite !andb_false_r; reflexivity|]. symmetry. apply Z.bits_above_log2; [lia|]. change (Z.log2 128) with 7. lia.
Qed.

(** ** The grammar *)
Lemma whole_one : forall b, 0 <= b < 128 -> whole [b].
Proof. intros b B. exists [], b. repeat split; try lia. constructor. Qed.
Lemma whole_cons : forall b l, 128 <= b < 256 -> whole l -> whole (b :: l).
Proof. intros b l B (i & x & -> & F & X). exists (b :: i), x. split; [reflexivity|]. split; [constructor; auto|exact X]. Qed.
Lemma whole_inv : forall b l, whole (b :: l) -> (l = [] /\ 0 <= b < 128) \/ (128 <= b < 256 /\ whole l).
Proof.
  intros b l ([|c i] & x & E & F & X); cbn [app] in E; injection E as -> ->; [left; auto|]. right. inversion F; subst. split; [assumption|]. exists i, x. auto.
Qed.
Lemma whole_nil : ~ whole []. Proof. intros ([|] & x & E & _); discriminate. Qed.
Lemma groups_nonneg : forall l, 0 <= groups l.
Proof. induction l as [|b l IH]; cbn [groups]; [lia|]. pose proof (Z.mod_pos_bound b 128 ltac:(lia)). lia. Qed.

(** ** Length of packed data *)
Lemma packed_whole : forall l rest n i pre, whole l -> zlen l <= Z.of_nat n -> i = zlen pre -> i + zlen l < 2 ^ 32 ->
  packed_loop n (pre ++ l ++ rest) i = Ok (i + zlen l - 1).
Proof.
  induction l as [|b l IH]; intros rest n i pre W N E B; [destruct (whole_nil W)|].
  rewrite zlen_cons in *. pose proof (zlen_nonneg _ l). pose proof (zlen_nonneg _ pre).
  destruct n as [|n]; [lia|]. cbn [packed_loop].
  assert (R : rd (pre ++ (b :: l) ++ rest) i = Ok b). { unfold rd. replace (i <? 0) with false by lia. replace (Z.to_nat i) with (length pre) by (unfold zlen in *; lia). rewrite nth_error_app2 by lia. rewrite Nat.sub_diag. reflexivity. }
  rewrite R. cbn [bind]. destruct (whole_inv _ _ W) as [[-> B0]|[B0 W']].
  - rewrite land128 by lia. replace (b <? 128) with true by lia. change (zlen (@nil Z)) with 0. f_equal. lia.
  - rewrite land128 by lia. replace (b <? 128) with false by lia.
    change (2 ^ 32) with 4294967296 in B. unfold u32. rewrite Z.mod_small by lia.
    replace (pre ++ (b :: l) ++ rest) with ((pre ++ [b]) ++ l ++ rest) by (rewrite <- app_assoc; reflexivity).
    rewrite IH; [f_equal; lia|exact W'|lia|rewrite zlen_app; change (zlen [b]) with 1; lia|change (2 ^ 32) with 4294967296; lia].
Qed.
Lemma packed_none : forall l rest i pre, Forall (fun b => 128 <= b < 256) l -> i = zlen pre -> i + zlen l < 2 ^ 32 ->
  packed_loop (length l) (pre ++ l ++ rest) i = Ok (i + zlen l).
Proof.
  induction l as [|b l IH]; intros rest i pre F E B; [change (zlen (@nil Z)) with 0; cbn; f_equal; lia|].
  rewrite zlen_cons in *. pose proof (zlen_nonneg _ l). pose proof (zlen_nonneg _ pre). pose proof (Forall_inv F) as B0. pose proof (Forall_inv_tail F) as F'. cbv beta in B0. cbn [length packed_loop].
  assert (R : rd (pre ++ (b :: l) ++ rest) i = Ok b). { unfold rd. replace (i <? 0) with false by lia. replace (Z.to_nat i) with (length pre) by (unfold zlen in *; lia). rewrite nth_error_app2 by lia. rewrite Nat.sub_diag. reflexivity. }
  rewrite R. cbn [bind]. rewrite land128 by lia. replace (b <? 128) with false by lia.
  change (2 ^ 32) with 4294967296 in B. unfold u32. rewrite Z.mod_small by lia.
  replace (pre ++ (b :: l) ++ rest) with ((pre ++ [b]) ++ l ++ rest) by (rewrite <- app_assoc; reflexivity).
  rewrite IH; [f_equal; lia|exact F'|rewrite zlen_app; change (zlen [b]) with 1; lia|change (2 ^ 32) with 4294967296; lia].
Qed.
Lemma length_packed_whole : forall l rest n, whole l -> zlen l <= n < 2 ^ 32 -> varint_length_packed (l ++ rest) n = Ok (zlen l).
Proof.
  intros l rest n W N. change (2 ^ 32) with 4294967296 in N. unfold varint_length_packed. pose proof (zlen_nonneg _ l).
  assert (0 < zlen l) by (destruct l; [destruct (whole_nil W)|rewrite zlen_cons; pose proof (zlen_nonneg _ l); lia]).
  change (l ++ rest) with ([] ++ l ++ rest). rewrite packed_whole; [|exact W|lia|reflexivity|change (2 ^ 32) with 4294967296; lia].
  cbn [bind]. replace (0 + zlen l - 1 =? n) with false by lia. unfold u32. rewrite Z.mod_small by lia. f_equal. lia.
Qed.
Lemma length_packed_none : forall l rest, Forall (fun b => 128 <= b < 256) l -> zlen l < 2 ^ 32 -> varint_length_packed (l ++ rest) (zlen l) = Ok 0.
Proof.
  intros l rest F N. unfold varint_length_packed. replace (Z.to_nat (zlen l)) with (length l) by (unfold zlen; lia).
  change (l ++ rest) with ([] ++ l ++ rest). rewrite packed_none; [|exact F|reflexivity|cbn; lia]. cbn [bind]. replace (0 + zlen l =? zlen l) with true by lia. reflexivity.
Qed.

(** ** Encoding *)
Lemma encode64_loop_ok : forall k v len, 0 <= v < 128 ^ Z.of_nat (S k) -> 0 <= len -> len + Z.of_nat k < 2 ^ 32 ->
  exists l, varint_encode64_loop k v = Ok l /\ whole l /\ shortest l /\ groups l = v /\ varint_length_loop k v len = Ok (len + zlen l - 1) /\ (l = [0] -> v = 0).
Proof.
  induction k as [|k IH]; intros v len V L B.
  - change (128 ^ Z.of_nat 1) with 128 in V. exists [v]. cbn [varint_encode64_loop varint_length_loop]. replace (v >=? 128) with false by lia.
    assert (u8 v = v) by (unfold u8; apply Z.mod_small; lia). rewrite H. split; [reflexivity|]. split; [apply whole_one; lia|]. split; [intros i E; destruct i as [|? [|]]; [reflexivity|discriminate|discriminate]|]. split; [cbn [groups]; rewrite Z.mod_small by lia; lia|]. split; [change (zlen [v]) with 1; f_equal; lia|congruence].
  - cbn [varint_encode64_loop varint_length_loop]. destruct (v >=? 128) eqn:C.
    + rewrite shr7. change (2 ^ 32) with 4294967296 in B. unfold u32. rewrite Z.mod_small by lia.
      assert (V' : 0 <= v / 128 < 128 ^ Z.of_nat (S k)). { replace (Z.of_nat (S (S k))) with (Z.of_nat (S k) + 1) in V by lia. rewrite Z.pow_add_r in V by lia. change (128 ^ 1) with 128 in V. split; [apply Z.div_pos; lia|apply Z.div_lt_upper_bound; lia]. }
      destruct (IH (v / 128) (len + 1) V' ltac:(lia) ltac:(change (2 ^ 32) with 4294967296; lia)) as (l & E1 & E2 & E3 & E4 & E5 & E6).
      rewrite E1. cbn [bind]. exists (u8 (Z.lor (Z.land v 127) 128) :: l). rewrite land127, low8 by (apply Z.mod_pos_bound; lia). rewrite Z.mod_mod by lia. pose proof (Z.mod_pos_bound v 128 ltac:(lia)) as M.
      split; [reflexivity|]. split; [apply whole_cons; [lia|exact E2]|]. split.
      * intros i E. destruct i as [|c i]; [reflexivity|]. cbn [app] in E. injection E as <- E. specialize (E3 i E). subst i. rewrite app_nil_l in E. specialize (E6 E). assert (1 <= v / 128) by (apply Z.div_le_lower_bound; lia). lia.
      * split; [cbn [groups]; rewrite E4; replace (128 + v mod 128) with (v mod 128 + 1 * 128) by lia; rewrite Z.mod_add, Z.mod_mod by lia; pose proof (Z.div_mod v 128 ltac:(lia)); lia|].
        split; [rewrite E5, zlen_cons; f_equal; lia|]. intros E. assert (X : 128 + v mod 128 = 0) by congruence. clear - M X. lia.
    + assert (u8 v = v) by (unfold u8; apply Z.mod_small; lia). rewrite H. exists [v]. split; [reflexivity|]. split; [apply whole_one; lia|]. split; [intros i E; destruct i as [|? [|]]; [reflexivity|discriminate|discriminate]|]. split; [cbn [groups]; rewrite Z.mod_small by lia; lia|]. split; [change (zlen [v]) with 1; f_equal; lia|congruence].
Qed.
(** The number of octets is the number of 7-bit groups. *)
Lemma groups_size : forall l, whole l -> shortest l -> (zlen l = 1 /\ groups l < 128) \/ (1 < zlen l /\ 128 ^ (zlen l - 1) <= groups l < 128 ^ zlen l).
Proof.
  induction l as [|b l IH]; intros W S0; [destruct (whole_nil W)|]. rewrite zlen_cons. cbn [groups]. pose proof (Z.mod_pos_bound b 128 ltac:(lia)) as M.
  destruct (whole_inv _ _ W) as [[-> B]|[B W']]; [left; cbn [groups]; change (zlen (@nil Z)) with 0; lia|right].
  assert (S1 : shortest l) by (intros i E; subst l; specialize (S0 (b :: i) eq_refl); discriminate).
  assert (L : 0 < zlen l) by (destruct l; [destruct (whole_nil W')|rewrite zlen_cons; pose proof (zlen_nonneg _ l); lia]). split; [lia|].
  destruct (IH W' S1) as [[E G]|[E G]].
  - rewrite E. change (128 ^ (1 + 1 - 1)) with 128. change (128 ^ (1 + 1)) with (128 * 128). assert (groups l <> 0). { destruct l as [|c [|d l]]; [discriminate| |rewrite !zlen_cons in E; pose proof (zlen_nonneg _ l); lia]. cbn [groups]. destruct (whole_inv _ _ W') as [[_ C]|[_ C]]; [|destruct (whole_nil C)]. rewrite Z.mod_small by lia. intros Q. replace c with 0 in * by lia. specialize (S0 [b] eq_refl). discriminate. } pose proof (groups_nonneg l). lia.
  - replace (zlen l + 1 - 1) with ((zlen l - 1) + 1) by lia. rewrite !Z.pow_add_r by lia. change (128 ^ 1) with 128.
    revert G M. generalize (128 ^ (zlen l - 1)), (128 ^ zlen l), (groups l), (b mod 128). intros. lia.
Qed.

(** ** Decoding *)
Lemma rd_nth : forall (l : bytes) rest k b, nth_error l k = Some b -> rd (l ++ rest) (Z.of_nat k) = Ok b.
Proof. intros l rest k b E. unfold rd. replace (Z.of_nat k <? 0) with false by lia. rewrite Nat2Z.id. rewrite nth_error_app1; [rewrite E; reflexivity|apply nth_error_Some; congruence]. Qed.
Lemma decode64_loop_ok : forall l rest pre s val i, i = zlen pre -> 0 <= s -> l <> [] -> s + 7 * (zlen l - 1) <= 63 -> 0 <= val < 2 ^ s ->
  decode64_loop (length l) (pre ++ l ++ rest) i s val = Ok ((val + 2 ^ s * groups l) mod 2 ^ 64).
Proof.
  induction l as [|b l IH]; intros rest pre s val i I0 S0 N S1 V; [congruence|]. rewrite zlen_cons in S1. pose proof (zlen_nonneg _ l) as ZL.
  cbn [length decode64_loop].
  assert (R : rd (pre ++ (b :: l) ++ rest) i = Ok b). { pose proof (zlen_nonneg _ pre). unfold rd. replace (i <? 0) with false by lia. replace (Z.to_nat i) with (length pre) by (unfold zlen in *; lia). rewrite nth_error_app2 by lia. rewrite Nat.sub_diag. reflexivity. }
  rewrite R. cbn [bind]. rewrite land127, shl_mul by lia. pose proof (Z.mod_pos_bound b 128 ltac:(lia)) as M. unfold u64. change 18446744073709551616 with (2 ^ 64).
  assert (P : 2 ^ 64 = 2 ^ s * 2 ^ (64 - s)) by (rewrite <- Z.pow_add_r by lia; f_equal; lia).
  assert (P1 : 0 < 2 ^ s) by (apply Z.pow_pos_nonneg; lia). assert (P2 : 0 < 2 ^ (64 - s)) by (apply Z.pow_pos_nonneg; lia).
  assert (Q : (2 ^ s * (b mod 128)) mod 2 ^ 64 = 2 ^ s * ((b mod 128) mod 2 ^ (64 - s))) by (rewrite P, Z.mul_mod_distr_l by lia; reflexivity).
  rewrite Q. rewrite lor_add by (try lia; apply Z.mod_pos_bound; lia). cbn [groups]. destruct l as [|c l'].
  - cbn [length decode64_loop groups]. f_equal. rewrite Z.mul_0_r, Z.add_0_r. rewrite P. symmetry. rewrite Zplus_mod. rewrite Z.mul_mod_distr_l by lia. rewrite <- P.
    pose proof (Z.mod_pos_bound (b mod 128) (2 ^ (64 - s)) ltac:(lia)) as X. rewrite (Z.mod_small val) by nia. apply Z.mod_small. rewrite P. nia.
  - rewrite zlen_cons in *. pose proof (zlen_nonneg _ l'). assert (S7 : 2 ^ 7 <= 2 ^ (64 - s)) by (apply Z.pow_le_mono_r; lia). change (2 ^ 7) with 128 in S7. rewrite (Z.mod_small (b mod 128)) by lia.
    assert (P7 : 2 ^ (s + 7) = 2 ^ s * 128) by (rewrite Z.pow_add_r by lia; reflexivity).
    replace (pre ++ (b :: c :: l') ++ rest) with ((pre ++ [b]) ++ (c :: l') ++ rest) by (rewrite <- app_assoc; reflexivity).
    rewrite IH; [|rewrite zlen_app; change (zlen [b]) with 1; lia|lia|discriminate|lia|rewrite P7; nia].
    rewrite P7. f_equal. f_equal. ring.
Qed.
Lemma shl_ok : forall strict x n, 0 <= n -> 0 <= x -> 2 ^ n * x <= 2147483647 -> shl_int strict x n = Ok (2 ^ n * x).
Proof. intros strict x n N X L. unfold shl_int. rewrite shl_mul by lia. replace (2 ^ n * x <=? 2147483647) with true by lia. reflexivity. Qed.
Lemma lors : forall a b c d, 0 <= a < 128 -> 0 <= b < 128 -> 0 <= c < 128 -> 0 <= d < 128 ->
  Z.lor a (2 ^ 7 * b) = a + 128 * b /\ Z.lor (a + 128 * b) (2 ^ 14 * c) = a + 128 * b + 16384 * c /\
  Z.lor (a + 128 * b + 16384 * c) (2 ^ 21 * d) = a + 128 * b + 16384 * c + 2097152 * d.
Proof. intros. repeat split; rewrite lor_add by (try lia); lia. Qed.
Lemma decode32_ok : forall strict l rest, whole l -> zlen l <= 5 -> varint_decode32 strict (l ++ rest) =
  if strict && (2 ^ 31 <=? groups l) then UB BadShift else Ok (zlen l, groups l mod 2 ^ 32).
Proof.
  intros strict l rest W L. unfold varint_decode32. rewrite length_packed_whole by (auto; change (2 ^ 32) with 4294967296; lia). cbn [bind].
  change (2 ^ 31) with 2147483648. change (2 ^ 32) with 4294967296.
  destruct l as [|a l]; [destruct (whole_nil W)|]. pose proof (Z.mod_pos_bound a 128 ltac:(lia)) as Ma.
  change (rd ((a :: l) ++ rest) 0) with (Ok a). cbn [bind]. rewrite land127.
  destruct (whole_inv _ _ W) as [[-> Ba]|[Ba W1]]; [change (zlen [a]) with 1; cbn [groups]; change (1 >? 1) with false; cbv iota; cbn [bind]; rewrite (Z.mod_small (_ + _)) by lia; replace (2147483648 <=? _) with false by lia; rewrite andb_false_r; do 2 f_equal; lia|].
  destruct l as [|b l]; [destruct (whole_nil W1)|]. pose proof (Z.mod_pos_bound b 128 ltac:(lia)) as Mb.
  change (rd ((a :: b :: l) ++ rest) 1) with (Ok b). rewrite !zlen_cons in *. pose proof (zlen_nonneg _ l) as ZL. replace (zlen l + 1 + 1 >? 1) with true by lia. cbn [bind]. rewrite land127, shl_ok by lia. cbn [bind].
  destruct (whole_inv _ _ W1) as [[-> Bb]|[Bb W2]]; [change (zlen (@nil Z)) with 0; cbn [groups]; change (0 + 1 + 1 >? 2) with false; cbv iota; destruct (lors (a mod 128) (b mod 128) 0 0) as (-> & _); try lia; cbn [bind]; rewrite (Z.mod_small (_ + _)) by lia; replace (2147483648 <=? _) with false by lia; rewrite andb_false_r; do 2 f_equal; lia|].
  destruct l as [|c l]; [destruct (whole_nil W2)|]. pose proof (Z.mod_pos_bound c 128 ltac:(lia)) as Mc.
  change (rd ((a :: b :: c :: l) ++ rest) 2) with (Ok c). rewrite !zlen_cons in *. pose proof (zlen_nonneg _ l) as ZL1. replace (zlen l + 1 + 1 + 1 >? 2) with true by lia. cbn [bind]. rewrite land127, shl_ok by lia. cbn [bind].
  destruct (whole_inv _ _ W2) as [[-> Bc]|[Bc W3]]; [change (zlen (@nil Z)) with 0; cbn [groups]; change (0 + 1 + 1 + 1 >? 3) with false; cbv iota; destruct (lors (a mod 128) (b mod 128) (c mod 128) 0) as (-> & -> & _); try lia; cbn [bind]; rewrite (Z.mod_small (_ + _)) by lia; replace (2147483648 <=? _) with false by lia; rewrite andb_false_r; do 2 f_equal; lia|].
  destruct l as [|d l]; [destruct (whole_nil W3)|]. pose proof (Z.mod_pos_bound d 128 ltac:(lia)) as Md.
  change (rd ((a :: b :: c :: d :: l) ++ rest) 3) with (Ok d). rewrite !zlen_cons in *. pose proof (zlen_nonneg _ l) as ZL2. replace (zlen l + 1 + 1 + 1 + 1 >? 3) with true by lia. cbn [bind]. rewrite land127, shl_ok by lia. cbn [bind].
  destruct (lors (a mod 128) (b mod 128) (c mod 128) (d mod 128)) as (-> & -> & ->); try lia.
  destruct (whole_inv _ _ W3) as [[-> Bd]|[Bd W4]]; [change (zlen (@nil Z)) with 0; cbn [groups]; change (0 + 1 + 1 + 1 + 1 >? 4) with false; cbv iota; cbn [bind]; rewrite (Z.mod_small (_ + _)) by lia; replace (2147483648 <=? _) with false by lia; rewrite andb_false_r; do 2 f_equal; lia|].
  destruct l as [|e l]; [destruct (whole_nil W4)|]. change (rd ((a :: b :: c :: d :: e :: l) ++ rest) 4) with (Ok e). rewrite !zlen_cons in *. pose proof (zlen_nonneg _ l) as ZL3. replace (zlen l + 1 + 1 + 1 + 1 + 1 >? 4) with true by lia. cbn [bind].
  destruct (whole_inv _ _ W4) as [[-> Be]|[_ W5]]; [|destruct l; [destruct (whole_nil W5)|rewrite zlen_cons in L; pose proof (zlen_nonneg _ l); lia]].
  cbn [groups]. change (zlen (@nil Z)) with 0. rewrite (Z.mod_small e) by lia. set (low := a mod 128 + 128 * (b mod 128) + 16384 * (c mod 128) + 2097152 * (d mod 128)).
  assert (LOW : 0 <= low < 2 ^ 28) by (subst low; change (2 ^ 28) with 268435456; lia).
  replace (a mod 128 + 128 * (b mod 128 + 128 * (c mod 128 + 128 * (d mod 128 + 128 * (e + 128 * 0))))) with (low + 2 ^ 28 * e) by (subst low; change (2 ^ 28) with 268435456; lia).
  unfold shl_int. rewrite shl_mul by lia. clearbody low. change (2 ^ 28) with 268435456 in *.
  destruct (268435456 * e <=? 2147483647) eqn:C.
  - cbn [bind]. rewrite andb_comm. replace (2147483648 <=? low + 268435456 * e) with false by lia. cbn [andb]. change 268435456 with (2 ^ 28). rewrite lor_add by (change (2 ^ 28) with 268435456; lia). change (2 ^ 28) with 268435456. rewrite Z.mod_small by lia. reflexivity.
  - replace (2147483648 <=? low + 268435456 * e) with true by lia. destruct strict; [reflexivity|]. cbn [andb bind]. unfold u32.
    change 4294967296 with (268435456 * 16). rewrite Z.mul_mod_distr_l by lia. pose proof (Z.mod_pos_bound e 16 ltac:(lia)) as M16. assert (LA : Z.lor low (2 ^ 28 * (e mod 16)) = low + 2 ^ 28 * (e mod 16)) by (apply lor_add; change (2 ^ 28) with 268435456; lia). change (2 ^ 28) with 268435456 in LA. rewrite LA.
    do 2 f_equal. rewrite Zplus_mod. rewrite Z.mul_mod_distr_l by lia. pose proof (Z.mod_pos_bound e 16 ltac:(lia)). rewrite (Z.mod_small low) by lia. symmetry. apply Z.mod_small. lia.
Qed.
Lemma decode32_none : forall strict l rest, Forall (fun b => 128 <= b < 256) l -> zlen l = 5 -> exists v, varint_decode32 strict (l ++ rest) = Ok (0, v).
Proof.
  intros strict l rest F L. unfold varint_decode32. rewrite <- L, length_packed_none by (auto; rewrite L; reflexivity). cbn [bind].
  destruct l as [|a l]; [discriminate|]. change (rd ((a :: l) ++ rest) 0) with (Ok a). cbn [bind]. eexists. reflexivity.
Qed.
Lemma decode64_none : forall strict l rest, Forall (fun b => 128 <= b < 256) l -> zlen l = 10 -> exists v, varint_decode64 strict (l ++ rest) = Ok (0, v).
Proof.
  intros strict l rest F L. unfold varint_decode64. assert (X : varint_length_packed (l ++ rest) 10 = Ok 0) by (rewrite <- L; apply length_packed_none; [exact F|rewrite L; reflexivity]). rewrite X. cbn [bind]. change (0 <? 5) with true. cbv iota.
  assert (S5 : l = firstn 5 l ++ skipn 5 l) by (symmetry; apply firstn_skipn). rewrite S5, <- app_assoc. apply decode32_none.
  - rewrite S5 in F. apply Forall_app in F. tauto.
  - unfold zlen in *. rewrite firstn_length. lia.
Qed.
Lemma decode64_ok : forall strict l rest, whole l -> zlen l <= 10 -> varint_decode64 strict (l ++ rest) = Ok (zlen l, groups l mod 2 ^ 64).
Proof.
  intros strict l rest W L. unfold varint_decode64. rewrite length_packed_whole by (auto; change (2 ^ 32) with 4294967296; lia). cbn [bind].
  destruct (zlen l <? 5) eqn:C.
  - rewrite decode32_ok by (auto; lia). assert (G : forall l, zlen l <= 4 -> groups l < 2 ^ 28).
    { clear. intros l. change (2 ^ 28) with 268435456. intros L. destruct l as [|a [|b [|c [|d [|e l]]]]]; rewrite ?zlen_cons in L; cbn [groups]; try lia; repeat match goal with |- context [?x mod 128] => let M := fresh in pose proof (Z.mod_pos_bound x 128 ltac:(lia)) as M; revert M; generalize (x mod 128); intros end; try lia. pose proof (zlen_nonneg _ l). lia. }
    specialize (G l ltac:(lia)). pose proof (groups_nonneg l). change (2 ^ 28) with 268435456 in G. replace (2 ^ 31 <=? groups l) with false by (change (2 ^ 31) with 2147483648; lia). rewrite andb_false_r. rewrite !Z.mod_small by (try change (2 ^ 64) with 18446744073709551616; try change (2 ^ 32) with 4294967296; lia). reflexivity.
  - destruct l as [|a [|b [|c [|d l]]]]; try discriminate. rewrite !zlen_cons in *.
    cbn [app rd]. change (rd (a :: b :: c :: d :: l ++ rest) 0) with (Ok a). change (rd (a :: b :: c :: d :: l ++ rest) 1) with (Ok b). change (rd (a :: b :: c :: d :: l ++ rest) 2) with (Ok c). change (rd (a :: b :: c :: d :: l ++ rest) 3) with (Ok d). cbn [bind].
    pose proof (Z.mod_pos_bound a 128 ltac:(lia)) as Ma. pose proof (Z.mod_pos_bound b 128 ltac:(lia)) as Mb. pose proof (Z.mod_pos_bound c 128 ltac:(lia)) as Mc. pose proof (Z.mod_pos_bound d 128 ltac:(lia)) as Md.
    rewrite !land127. rewrite !shl_ok by lia. cbn [bind]. destruct (lors (a mod 128) (b mod 128) (c mod 128) (d mod 128)) as (-> & -> & ->); try lia.
    replace (Z.to_nat (zlen l + 1 + 1 + 1 + 1 - 4)) with (length l) by (unfold zlen; lia).
    change (a :: b :: c :: d :: l ++ rest) with ([a; b; c; d] ++ l ++ rest). rewrite decode64_loop_ok; [|reflexivity|lia|intros ->; discriminate|lia|change (2 ^ 28) with 268435456; lia].
    cbn [bind groups]. do 3 f_equal. change (2 ^ 28) with (128 * (128 * (128 * 128))). ring.
Qed.
Lemma encode32_64 : forall v, 0 <= v < 2 ^ 32 -> varint_encode64 v = Ok (varint_encode32 v).
Proof.
  intros v V. unfold varint_encode64, varint_encode32. change (2 ^ 7) with 128. change (2 ^ 14) with 16384. change (2 ^ 21) with 2097152. change (2 ^ 28) with 268435456. change (2 ^ 32) with 4294967296 in V.
  assert (SH : forall a b, 0 <= a -> 0 <= b -> Z.shiftr (Z.shiftr v a) b = Z.shiftr v (a + b)) by (intros; apply Z.shiftr_shiftr; lia).
  assert (D : forall k, 0 <= k -> Z.shiftr v k = v / 2 ^ k) by (intros; apply Z.shiftr_div_pow2; lia).
  assert (LO : forall w, 0 <= w -> u8 (Z.lor (Z.land w 127) 128) = u8 (Z.lor w 128)) by (intros w P; rewrite !low8, land127, Z.mod_mod; try lia; rewrite ?land127; apply Z.mod_pos_bound; lia).
  assert (P : forall k, 0 <= k -> 0 <= Z.shiftr v k) by (intros; apply Z.shiftr_nonneg; lia).
  cbn [varint_encode64_loop]. rewrite !SH by lia. change (7 + 7) with 14. change (14 + 7) with 21. change (21 + 7) with 28. change (28 + 7) with 35. 
  pose proof (D 7 ltac:(lia)) as D7. pose proof (D 14 ltac:(lia)) as D14. pose proof (D 21 ltac:(lia)) as D21. pose proof (D 28 ltac:(lia)) as D28.
  change (2 ^ 7) with 128 in D7. change (2 ^ 14) with 16384 in D14. change (2 ^ 21) with 2097152 in D21. change (2 ^ 28) with 268435456 in D28.
  assert (C1 : (Z.shiftr v 7 >=? 128) = negb (v <? 16384)) by (rewrite D7; pose proof (Z.div_mod v 128 ltac:(lia)); pose proof (Z.mod_pos_bound v 128 ltac:(lia)); lia).
  assert (C2 : (Z.shiftr v 14 >=? 128) = negb (v <? 2097152)) by (rewrite D14; pose proof (Z.div_mod v 16384 ltac:(lia)); pose proof (Z.mod_pos_bound v 16384 ltac:(lia)); lia).
  assert (C3 : (Z.shiftr v 21 >=? 128) = negb (v <? 268435456)) by (rewrite D21; pose proof (Z.div_mod v 2097152 ltac:(lia)); pose proof (Z.mod_pos_bound v 2097152 ltac:(lia)); lia).
  assert (C4 : (Z.shiftr v 28 >=? 128) = false) by (rewrite D28; pose proof (Z.div_mod v 268435456 ltac:(lia)); pose proof (Z.mod_pos_bound v 268435456 ltac:(lia)); lia).
  rewrite C1, C2, C3, C4. rewrite !LO by (try lia; apply P; lia).
  destruct (v <? 128) eqn:E0; [replace (v >=? 128) with false by lia; reflexivity|]. replace (v >=? 128) with true by lia.
  destruct (v <? 16384); [reflexivity|]. destruct (v <? 2097152); [reflexivity|]. destruct (v <? 268435456); reflexivity.
Qed.
