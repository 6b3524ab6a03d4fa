(** ProofLibmyCrc.v: slicing-by-8, and the crc32 instruction, against the bitwise CRC. *)
From Verif Require Import Base Lib ModelLibmyIp SpecLibmyIp ProofLibmyIp ModelLibmyCrcTables ModelLibmyCrc SpecLibmyCrc ProofGroup ProofB32.

Notation stepn n x := (Nat.iter n bit_step x).
Ltac bits := apply Z.bits_inj'; intros ?i ?I; rewrite ?Z.lxor_spec.

(** ** The register is linear *)
Lemma step_lxor : forall a b, bit_step (Z.lxor a b) = Z.lxor (bit_step a) (bit_step b).
Proof.
  intros a b. unfold bit_step. replace (Z.odd (Z.lxor a b)) with (xorb (Z.odd a) (Z.odd b)) by (rewrite <- !Z.bit0_odd, Z.lxor_spec; reflexivity).
  assert (D : forall x, x / 2 = Z.shiftr x 1) by (intros; rewrite Z.shiftr_div_pow2 by lia; reflexivity). rewrite !D, Z.shiftr_lxor.
  destruct (Z.odd a), (Z.odd b); cbn [xorb]; bits; destruct (Z.testbit (Z.shiftr a 1) i), (Z.testbit (Z.shiftr b 1) i), (Z.testbit 0x82F63B78 i); reflexivity.
Qed.
Lemma step_double : forall x, bit_step (2 * x) = x.
Proof. intros x. unfold bit_step. rewrite Z.odd_mul. cbn [Z.odd andb]. rewrite Z.mul_comm. apply Z.div_mul. lia. Qed.
Lemma stepn_lxor : forall n a b, stepn n (Z.lxor a b) = Z.lxor (stepn n a) (stepn n b).
Proof. induction n as [|n IH]; intros a b; [reflexivity|]. cbn [Nat.iter nat_rect]. change (nat_rect _ ?x _ n) with (Nat.iter n bit_step x) in *. unfold Nat.iter in *. cbn [nat_rect]. rewrite IH, step_lxor. reflexivity. Qed.
Lemma stepn_plus : forall n m x, stepn (n + m) x = stepn n (stepn m x).
Proof. induction n as [|n IH]; intros m x; [reflexivity|]. cbn [Nat.add]. unfold Nat.iter in *. cbn [nat_rect]. rewrite IH. reflexivity. Qed.
Lemma stepn_succ : forall n x, stepn (S n) x = bit_step (stepn n x). Proof. reflexivity. Qed.
Lemma stepn_succ_r : forall n x, stepn (S n) x = stepn n (bit_step x).
Proof. intros n x. replace (S n) with (n + 1)%nat by lia. rewrite stepn_plus. reflexivity. Qed.
Lemma stepn_shift : forall n x, stepn n (2 ^ Z.of_nat n * x) = x.
Proof.
  induction n as [|n IH]; intros x; [change (stepn 0 (2 ^ Z.of_nat 0 * x)) with (1 * x); lia|]. rewrite stepn_succ_r. replace (2 ^ Z.of_nat (S n) * x) with (2 * (2 ^ Z.of_nat n * x)) by (rewrite Nat2Z.inj_succ, Z.pow_succ_r by lia; ring). rewrite step_double. apply IH.
Qed.
Lemma stepn_0 : forall n, stepn n 0 = 0. Proof. induction n; [reflexivity|]. rewrite stepn_succ, IHn. reflexivity. Qed.
Lemma step_range : forall m c, 32 <= m -> 0 <= c < 2 ^ m -> 0 <= bit_step c < 2 ^ m.
Proof.
  intros m c M C. assert (D : 0 <= c / 2 < 2 ^ m) by (split; [apply Z.div_pos; lia|apply Z.div_lt_upper_bound; lia]). unfold bit_step. destruct (Z.odd c); [|exact D].
  apply (f_range Z.lxor xorb Z.lxor_spec eq_refl); [lia|exact D|]. assert (2 ^ 32 <= 2 ^ m) by (apply Z.pow_le_mono_r; lia). change (2 ^ 32) with 4294967296 in *. lia.
Qed.
Lemma stepn_range : forall n c, 0 <= c < 2 ^ 32 -> 0 <= stepn n c < 2 ^ 32.
Proof. induction n as [|n IH]; intros c C; [exact C|]. rewrite stepn_succ. apply step_range; [lia|apply IH; exact C]. Qed.
(** A longer register shrinks. *)
Lemma step_shrink : forall m c, 32 <= m -> 0 <= c < 2 ^ (m + 1) -> 0 <= bit_step c < 2 ^ m.
Proof.
  intros m c M C. rewrite Z.pow_add_r in C by lia. change (2 ^ 1) with 2 in C. assert (D : 0 <= c / 2 < 2 ^ m) by (split; [apply Z.div_pos; lia|apply Z.div_lt_upper_bound; lia]). unfold bit_step. destruct (Z.odd c); [|exact D].
  apply (f_range Z.lxor xorb Z.lxor_spec eq_refl); [lia|exact D|]. assert (2 ^ 32 <= 2 ^ m) by (apply Z.pow_le_mono_r; lia). change (2 ^ 32) with 4294967296 in *. lia.
Qed.
Lemma stepn_shrink : forall n c, 0 <= c < 2 ^ (32 + Z.of_nat n) -> 0 <= stepn n c < 2 ^ 32.
Proof.
  induction n as [|n IH]; intros c C; [replace (32 + Z.of_nat 0) with 32 in C by lia; exact C|]. rewrite stepn_succ_r. apply IH. apply step_shrink; [lia|]. replace (32 + Z.of_nat n + 1) with (32 + Z.of_nat (S n)) by lia. exact C.
Qed.

(** ** Octets at a time *)
Lemma lxor_add : forall a b n, 0 <= n -> 0 <= a < 2 ^ n -> 0 <= b -> Z.lxor a (2 ^ n * b) = a + 2 ^ n * b.
Proof.
  intros a b n N A B. rewrite <- lor_add by assumption. apply Z.lxor_lor. bits. rewrite Z.land_spec, Z.bits_0, (Z.mul_comm (2 ^ n)). destruct (Z_lt_ge_dec i n).
  - rewrite Z.mul_pow2_bits_low by lia. apply andb_false_r.
  - rewrite <- (Z.mod_small a (2 ^ n)) by lia. rewrite Z.mod_pow2_bits_high by lia. reflexivity.
Qed.
Lemma lxor_add8 : forall a b, 0 <= a < 256 -> 0 <= b -> Z.lxor a (256 * b) = a + 256 * b. Proof. intros a b A B. apply (lxor_add a b 8); [lia|exact A|exact B]. Qed.
Lemma stepn_shift8 : forall x, stepn 8 (256 * x) = x. Proof. exact (stepn_shift 8). Qed.
Lemma le_val_nonneg : forall l, octs l -> 0 <= le_val l. Proof. intros l F. apply le_val_range in F. lia. Qed.
Lemma octets_word : forall l c, octs l -> fold_left octet_step l c = stepn (8 * length l) (Z.lxor c (le_val l)).
Proof.
  induction l as [|b l IH]; intros c F; cbn [fold_left length le_val]; [rewrite Z.lxor_0_r; reflexivity|]. pose proof (Forall_inv F) as B. cbv beta in B. rewrite IH by (apply (Forall_inv_tail F)).
  replace (8 * S (length l))%nat with (8 * length l + 8)%nat by lia. rewrite stepn_plus. f_equal. unfold octet_step. rewrite <- (lxor_add8 b (le_val l)) by (try lia; apply le_val_nonneg, (Forall_inv_tail F)).
  rewrite <- Z.lxor_assoc, (stepn_lxor 8 (Z.lxor c b)). f_equal. symmetry. apply stepn_shift8.
Qed.
Lemma octets_range : forall l c, octs l -> 0 <= c < 2 ^ 32 -> 0 <= fold_left octet_step l c < 2 ^ 32.
Proof.
  induction l as [|b l IH]; intros c F C; [exact C|]. cbn [fold_left]. apply IH; [apply (Forall_inv_tail F)|]. apply stepn_range. apply (f_range Z.lxor xorb Z.lxor_spec eq_refl); [lia|exact C|]. pose proof (Forall_inv F) as B. cbv beta in B. change (2 ^ 32) with 4294967296. lia.
Qed.
Fixpoint xs (l : bytes) : Z := match l with [] => 0 | b :: l' => Z.lxor (stepn (8 * length l) b) (xs l') end.
Lemma word_xs : forall l, octs l -> stepn (8 * length l) (le_val l) = xs l.
Proof.
  induction l as [|b l IH]; intros F; [reflexivity|]. pose proof (Forall_inv F) as B. cbv beta in B. cbn [xs le_val]. rewrite <- (lxor_add8 b (le_val l)) by (try lia; apply le_val_nonneg, (Forall_inv_tail F)).
  rewrite stepn_lxor. f_equal. rewrite <- IH by (apply (Forall_inv_tail F)). cbn [length]. replace (8 * S (length l))%nat with (8 * length l + 8)%nat by lia. rewrite stepn_plus, stepn_shift8. reflexivity.
Qed.

(** ** The tables *)
Definition R (be : bool) (c : Z) : Z := if be then swap 4 c else c.
Definition table_ok (be : bool) (k : nat) : bool := forallb (fun i => match tab be k i with Ok t => t =? R be (stepn (8 * S k) i) | _ => false end) (map Z.of_nat (seq 0 256)).
Lemma tables_ok : forallb (fun k => table_ok true k && table_ok false k) (seq 0 8) = true.
Proof. vm_compute. reflexivity. Qed.
Lemma tab_ok : forall be k i, (k < 8)%nat -> 0 <= i < 256 -> tab be k i = Ok (R be (stepn (8 * S k) i)).
Proof.
  intros be k i K I. pose proof tables_ok as T. rewrite forallb_forall in T. specialize (T k). rewrite in_seq in T. specialize (T ltac:(lia)). apply andb_prop in T. assert (T' : table_ok be k = true) by (destruct be; tauto). clear T.
  unfold table_ok in T'. pose proof (forall_small 256 _ T' i I) as X. cbv beta in X. destruct (tab be k i); try discriminate. f_equal. lia.
Qed.

(** ** Byte order of the register *)
Lemma le_bytes_zip : forall n x y, le_bytes n (Z.lxor x y) = zip Z.lxor (le_bytes n x) (le_bytes n y).
Proof.
  induction n as [|n IH]; intros x y; [reflexivity|]. cbn [le_bytes zip]. f_equal; [apply (f_mod Z.lxor xorb Z.lxor_spec eq_refl 8); lia|]. rewrite <- IH. f_equal. apply (f_div Z.lxor xorb Z.lxor_spec eq_refl 8). lia.
Qed.
Lemma swap_lxor : forall n x y, swap n (Z.lxor x y) = Z.lxor (swap n x) (swap n y).
Proof.
  intros n x y. unfold swap. rewrite le_bytes_zip, (zip_rev Z.lxor) by (rewrite !le_bytes_length; reflexivity).
  apply (zip_val Z.lxor xorb Z.lxor_spec eq_refl); [rewrite !rev_length, !le_bytes_length; reflexivity|apply octs_rev, le_bytes_octs|apply octs_rev, le_bytes_octs].
Qed.
Lemma R_lxor : forall be x y, R be (Z.lxor x y) = Z.lxor (R be x) (R be y).
Proof. intros [|] x y; [apply swap_lxor|reflexivity]. Qed.
Lemma four : forall c, 0 <= c < 2 ^ 32 -> exists a b d e, c = le_val [a; b; d; e] /\ octs [a; b; d; e] /\ swap 4 c = le_val [e; d; b; a].
Proof.
  intros c C. pose proof (le_bytes_octs 4 c) as F. pose proof (val_bytes 4 c) as V. rewrite Z.mod_small in V by exact C. unfold swap. cbn [le_bytes] in *. do 4 eexists. split; [symmetry; exact V|]. split; [exact F|reflexivity].
Qed.
Lemma four_parts : forall a b d e, octs [a; b; d; e] -> let c := le_val [a; b; d; e] in
  Z.land c 255 = a /\ Z.land (Z.shiftr c 8) 255 = b /\ Z.land (Z.shiftr c 16) 255 = d /\ Z.shiftr c 24 = e /\ Z.shiftr c 8 = le_val [b; d; e; 0] /\ u32 (Z.shiftl c 8) = le_val [0; a; b; d] /\ 0 <= c < 2 ^ 32.
Proof.
  intros a b d e F. assert (0 <= a < 256 /\ 0 <= b < 256 /\ 0 <= d < 256 /\ 0 <= e < 256) as (A & B & D & E). { inversion F as [|? ? A F1]; subst. inversion F1 as [|? ? B F2]; subst. inversion F2 as [|? ? D F3]; subst. inversion F3 as [|? ? E F4]; subst. auto. }
  cbv zeta. cbn [le_val]. change 255 with (Z.ones 8). rewrite !Z.land_ones by lia. rewrite !Z.shiftr_div_pow2, Z.shiftl_mul_pow2 by lia. change (2 ^ 8) with 256. change (2 ^ 16) with 65536. change (2 ^ 24) with 16777216. change (2 ^ 32) with 4294967296. unfold u32.
  set (c := a + 256 * (b + 256 * (d + 256 * (e + 256 * 0)))).
  assert (D8 : c / 256 = b + 256 * (d + 256 * e)) by (symmetry; apply Z.div_unique with a; lia). assert (D16 : c / 65536 = d + 256 * e) by (symmetry; apply Z.div_unique with (a + 256 * b); lia). assert (D24 : c / 16777216 = e) by (symmetry; apply Z.div_unique with (a + 256 * b + 65536 * d); lia).
  rewrite D8, D16, D24.
  split; [symmetry; apply Z.mod_unique with (b + 256 * (d + 256 * e)); lia|]. split; [symmetry; apply Z.mod_unique with (d + 256 * e); lia|]. split; [symmetry; apply Z.mod_unique with e; lia|]. split; [reflexivity|]. split; [lia|]. split; [symmetry; apply Z.mod_unique with e; lia|lia].
Qed.
Lemma octs4 : forall a b d e, octs [a; b; d; e] -> octs [e; d; b; a].
Proof. intros a b d e F. apply (octs_rev [a; b; d; e]). exact F. Qed.
Lemma R_parts : forall be c, 0 <= c < 2 ^ 32 -> exists w0 w1 w2 w3, c = le_val [w0; w1; w2; w3] /\ octs [w0; w1; w2; w3] /\
  Z.land (R be c) 255 = (if be then w3 else w0) /\ Z.land (Z.shiftr (R be c) 8) 255 = (if be then w2 else w1) /\ Z.land (Z.shiftr (R be c) 16) 255 = (if be then w1 else w2) /\ Z.shiftr (R be c) 24 = (if be then w0 else w3).
Proof.
  intros be c C. destruct (four c C) as (a & b & d & e & E & F & S). exists a, b, d, e. split; [exact E|]. split; [exact F|]. destruct be; unfold R.
  - rewrite S. destruct (four_parts _ _ _ _ (octs4 _ _ _ _ F)) as (P1 & P2 & P3 & P4 & _). auto.
  - rewrite E. destruct (four_parts _ _ _ _ F) as (P1 & P2 & P3 & P4 & _). auto.
Qed.

(** ** One octet *)
Lemma step8_parts : forall c, 0 <= c -> stepn 8 c = Z.lxor (stepn 8 (Z.land c 255)) (Z.shiftr c 8).
Proof.
  intros c C. change 255 with (Z.ones 8). rewrite Z.land_ones, Z.shiftr_div_pow2 by lia. pose proof (Z.mod_pos_bound c (2 ^ 8)). assert (0 <= c / 2 ^ 8) by (apply Z.div_pos; lia). rewrite (Z.div_mod c (2 ^ 8)) at 1 by lia. rewrite Z.add_comm, <- lxor_add by lia.
  rewrite stepn_lxor. f_equal. apply (stepn_shift 8).
Qed.
Lemma lxor_byte : forall c b, 0 <= c < 2 ^ 32 -> 0 <= b < 256 -> Z.land (Z.lxor c b) 255 = Z.lxor (Z.land c 255) b /\ Z.shiftr (Z.lxor c b) 8 = Z.shiftr c 8 /\ 0 <= Z.lxor (Z.land c 255) b < 256 /\ 0 <= Z.lxor c b.
Proof.
  intros c b C B. assert (B1 : Z.land b 255 = b) by (change 255 with (Z.ones 8); rewrite Z.land_ones by lia; apply Z.mod_small; lia).
  assert (M : 0 <= Z.land c 255 < 2 ^ 8) by (change 255 with (Z.ones 8); rewrite Z.land_ones by lia; apply Z.mod_pos_bound; lia).
  split; [rewrite <- B1 at 2; bits; rewrite !Z.land_spec, Z.lxor_spec; destruct (Z.testbit c i), (Z.testbit b i), (Z.testbit 255 i); reflexivity|].
  split; [rewrite Z.shiftr_lxor; replace (Z.shiftr b 8) with 0; [apply Z.lxor_0_r|]; rewrite Z.shiftr_div_pow2 by lia; symmetry; apply Z.div_small; lia|].
  split; [apply (f_range Z.lxor xorb Z.lxor_spec eq_refl 8); lia|apply Z.lxor_nonneg; lia].
Qed.
Lemma octet_ok : forall be c b, 0 <= c < 2 ^ 32 -> 0 <= b < 256 -> crc_octet be (R be c) b = Ok (R be (octet_step c b)).
Proof.
  intros be c b C B. destruct (lxor_byte c b C B) as (L1 & L2 & L3 & L4). unfold octet_step. rewrite (step8_parts (Z.lxor c b)) by exact L4. rewrite L1, L2, R_lxor. unfold crc_octet.
  destruct be.
  - destruct (four c C) as (a0 & a1 & a2 & a3 & E & F & S). pose proof (octs4 _ _ _ _ F) as F'. destruct (four_parts _ _ _ _ F) as (P1 & _ & _ & _ & P5 & _). destruct (four_parts _ _ _ _ F') as (_ & _ & _ & Q4 & _ & Q6 & _). unfold R at 1 2. rewrite S, Q4, Q6.
    replace (Z.land (Z.lxor a0 b) 255) with (Z.lxor (Z.land c 255) b).
    + rewrite tab_ok by (try lia; exact L3). cbn [bind]. do 2 f_equal. unfold R. rewrite E, P5. pose proof (Forall_inv_tail F) as F1.
      assert (F0 : octs [a1; a2; a3; 0]) by (apply (proj2 (Forall_app _ [a1; a2; a3] [0])); split; [exact F1|constructor; [lia|constructor]]). unfold swap.
      change 4%nat with (length [a1; a2; a3; 0]). rewrite (bytes_val [a1; a2; a3; 0]) by exact F0. reflexivity.
    + assert (A0 : 0 <= a0 < 2 ^ 8) by (pose proof (Forall_inv F) as X; exact X). rewrite E, P1. symmetry. change 255 with (Z.ones 8). rewrite Z.land_ones by lia. apply Z.mod_small. apply (f_range Z.lxor xorb Z.lxor_spec eq_refl 8); [lia|exact A0|exact B].
  - unfold R at 1 2. rewrite L1. rewrite tab_ok by (try lia; exact L3). reflexivity.
Qed.
Lemma R_0 : forall be, R be 0 = 0. Proof. intros [|]; vm_compute; reflexivity. Qed.
Lemma reg_init : forall be, R be 0xffffffff = 0xffffffff. Proof. intros [|]; vm_compute; reflexivity. Qed.
Lemma tail_ok : forall be l rest c, octs l -> 0 <= c < 2 ^ 32 -> crc_tail be (length l) (l ++ rest) (R be c) = Ok (R be (fold_left octet_step l c)).
Proof.
  induction l as [|b l IH]; intros rest c F C; [reflexivity|]. pose proof (Forall_inv F) as B. cbv beta in B. cbn [length crc_tail app octet_at bind tl fold_left]. rewrite octet_ok by assumption. cbn [bind]. apply IH; [apply (Forall_inv_tail F)|]. apply (octets_range [b] c); [constructor; [exact B|constructor]|exact C].
Qed.
Lemma head_ok : forall be l rest addr c, octs l -> 0 <= c < 2 ^ 32 ->
  exists h t, l = h ++ t /\ crc_head be (length l) addr (l ++ rest) (R be c) = Ok (R be (fold_left octet_step h c), addr + zlen h, t ++ rest, length t) /\ (t = [] \/ Z.land (addr + zlen h) 3 = 0).
Proof.
  induction l as [|b l IH]; intros rest addr c F C.
  - exists [], []. split; [reflexivity|]. cbn. rewrite Z.add_0_r. auto.
  - cbn [length crc_head]. destruct (Z.land addr 3 =? 0) eqn:A; cbn [negb].
    + exists [], (b :: l). change (zlen (@nil Z)) with 0. rewrite Z.add_0_r. split; [reflexivity|]. split; [reflexivity|]. right. lia.
    + pose proof (Forall_inv F) as B. cbv beta in B. cbn [app octet_at bind tl]. rewrite octet_ok by assumption. cbn [bind].
      destruct (IH rest (addr + 1) (octet_step c b)) as (h & t & E1 & E2 & E3); [apply (Forall_inv_tail F)|apply (octets_range [b] c); [constructor; [exact B|constructor]|exact C]|].
      exists (b :: h), t. rewrite zlen_cons. replace (addr + (zlen h + 1)) with (addr + 1 + zlen h) by lia. split; [rewrite E1; reflexivity|]. split; [exact E2|exact E3].
Qed.

(** ** Eight octets *)
Local Opaque Z.lxor bit_step octet_step Nat.iter Z.testbit R.
Lemma load_R : forall be l rest, octs l -> length l = 4%nat -> load (negb be) 4 (l ++ rest) = Ok (R be (le_val l)).
Proof.
  Local Transparent R.
  intros be l rest F L. rewrite load_ok by exact L. f_equal. unfold ord, R, swap. destruct be; cbn [negb]; [|reflexivity]. rewrite <- L, bytes_val by exact F. reflexivity.
Qed.
Local Opaque R.
Lemma chunk_value : forall c w0 w1 w2 w3 l, 0 <= c < 2 ^ 32 -> octs l -> length l = 8%nat -> octs [w0; w1; w2; w3] -> le_val [w0; w1; w2; w3] = Z.lxor c (le_val (firstn 4 l)) ->
  fold_left octet_step l c = xs ([w0; w1; w2; w3] ++ skipn 4 l).
Proof.
  intros c w0 w1 w2 w3 l C F L FW E. rewrite octets_word by exact F. rewrite L. set (l' := [w0; w1; w2; w3] ++ skipn 4 l). assert (L' : length l' = 8%nat) by (unfold l'; rewrite app_length, skipn_length, L; reflexivity).
  assert (F' : octs l') by (apply Forall_app; split; [exact FW|]; rewrite <- (firstn_skipn 4 l) in F; apply Forall_app in F; tauto). rewrite <- (word_xs l' F'), L'. f_equal.
  unfold l'. rewrite le_val_app, E. change (zlen [w0; w1; w2; w3]) with 4. change (256 ^ 4) with (2 ^ 32). rewrite <- (firstn_skipn 4 l) at 1. rewrite le_val_app. replace (zlen (firstn 4 l)) with 4 by (unfold zlen; rewrite firstn_length, L; reflexivity). change (256 ^ 4) with (2 ^ 32).
  assert (FA : octs (firstn 4 l) /\ octs (skipn 4 l)) by (rewrite <- (firstn_skipn 4 l) in F; apply Forall_app in F; exact F). destruct FA as [FA FB]. pose proof (le_val_range _ FA) as RA. replace (zlen (firstn 4 l)) with 4 in RA by (unfold zlen; rewrite firstn_length, L; reflexivity). change (256 ^ 4) with (2 ^ 32) in RA.
  pose proof (le_val_nonneg _ FB). rewrite <- !lxor_add by (try lia; apply (f_range Z.lxor xorb Z.lxor_spec eq_refl); lia). rewrite Z.lxor_assoc. reflexivity.
Qed.
Lemma chunks_ok : forall be n l rest addr c, octs l -> length l = (8 * n)%nat -> 0 <= c < 2 ^ 32 -> (n = 0%nat \/ Z.land addr 3 = 0) ->
  crc_chunks be n addr (l ++ rest) (R be c) = Ok (R be (fold_left octet_step l c), rest).
Proof.
  intros be. induction n as [|n IH]; intros l rest addr c F L C A.
  - destruct l; [|discriminate]. reflexivity.
  - destruct A as [A|A]; [discriminate|]. assert (LM : forall x, Z.land x 3 = x mod 4) by (intros x; apply (Z.land_ones x 2); lia). assert (A4 : Z.land (addr + 4) 3 = 0 /\ Z.land (addr + 4 + 4) 3 = 0) by (rewrite LM in A; rewrite !LM; zdm). destruct A4 as [A4 A8].
    destruct l as [|m0 [|m1 [|m2 [|m3 [|m4 [|m5 [|m6 [|m7 l]]]]]]]]; try (cbn [length] in L; lia). set (hd := [m0; m1; m2; m3]). set (nx := [m4; m5; m6; m7]).
    assert (FF : octs hd /\ octs nx /\ octs l). { change (m0 :: m1 :: m2 :: m3 :: m4 :: m5 :: m6 :: m7 :: l) with (hd ++ nx ++ l) in F. apply Forall_app in F. destruct F as [F1 F2]. apply Forall_app in F2. tauto. } destruct FF as (FH & FN & FL).
    cbn [crc_chunks]. unfold load32. rewrite A, A4. change (0 =? 0) with true. cbv iota. change ((m0 :: m1 :: m2 :: m3 :: m4 :: m5 :: m6 :: m7 :: l) ++ rest) with (hd ++ nx ++ l ++ rest).
    rewrite load_R by (auto; reflexivity). cbn [bind]. change (skipn 4 (hd ++ nx ++ l ++ rest)) with (nx ++ l ++ rest). rewrite load_R by (auto; reflexivity). cbn [bind]. change (skipn 4 (nx ++ l ++ rest)) with (l ++ rest).
    rewrite <- R_lxor. pose proof (le_val_range _ FH) as RH. change (256 ^ zlen hd) with (2 ^ 32) in RH. pose proof (le_val_range _ FN) as RN. change (256 ^ zlen nx) with (2 ^ 32) in RN.
    assert (CX : 0 <= Z.lxor c (le_val hd) < 2 ^ 32) by (apply (f_range Z.lxor xorb Z.lxor_spec eq_refl); lia).
    destruct (R_parts be _ CX) as (w0 & w1 & w2 & w3 & E & FW & P0 & P1 & P2 & P3). destruct (R_parts be _ RN) as (n0 & n1 & n2 & n3 & E' & FN' & N0 & N1 & N2 & N3).
    rewrite P0, P1, P2, P3, N0, N1, N2, N3.
    assert (EN : [n0; n1; n2; n3] = nx) by (rewrite <- (bytes_val nx FN), <- (bytes_val _ FN'), <- E'; reflexivity).
    assert (W : (0 <= w0 < 256) /\ (0 <= w1 < 256) /\ (0 <= w2 < 256) /\ (0 <= w3 < 256)) by (inversion FW as [|? ? X0 Y0]; subst; inversion Y0 as [|? ? X1 Y1]; subst; inversion Y1 as [|? ? X2 Y2]; subst; inversion Y2; subst; auto).
    assert (N : (0 <= n0 < 256) /\ (0 <= n1 < 256) /\ (0 <= n2 < 256) /\ (0 <= n3 < 256)) by (inversion FN' as [|? ? X0 Y0]; subst; inversion Y0 as [|? ? X1 Y1]; subst; inversion Y1 as [|? ? X2 Y2]; subst; inversion Y2; subst; auto).
    destruct W as (W0 & W1 & W2 & W3), N as (I0 & I1 & I2 & I3).
    assert (CV : fold_left octet_step (hd ++ nx) c = xs ([w0; w1; w2; w3] ++ [n0; n1; n2; n3])). { rewrite EN. rewrite (chunk_value c w0 w1 w2 w3 (hd ++ nx)); [reflexivity|exact C|apply Forall_app; auto|reflexivity|exact FW|symmetry; exact E]. }
    assert (GOAL : forall x, x = R be (fold_left octet_step (hd ++ nx) c) -> crc_chunks be n (addr + 4 + 4) (l ++ rest) x = Ok (R be (fold_left octet_step (m0 :: m1 :: m2 :: m3 :: m4 :: m5 :: m6 :: m7 :: l) c), rest)).
    { intros x ->. rewrite IH; [|exact FL|cbn [length] in L; lia|apply octets_range; [apply Forall_app; auto|exact C]|right; exact A8]. change (m0 :: m1 :: m2 :: m3 :: m4 :: m5 :: m6 :: m7 :: l) with ((hd ++ nx) ++ l). rewrite (fold_left_app octet_step (hd ++ nx) l c). reflexivity. }
    cbn [app xs length] in CV.
    destruct be; rewrite !tab_ok by (try lia; assumption); cbn [bind]; apply GOAL; rewrite CV, !R_lxor; rewrite ?R_0; bits; rewrite ?Z.bits_0;
      repeat match goal with |- context [Z.testbit (R ?b ?x) ?j] => destruct (Z.testbit (R b x) j) end; reflexivity.
Qed.
