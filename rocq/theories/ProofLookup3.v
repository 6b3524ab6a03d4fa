(** ProofLookup3.v: lemmas for C125-C127. *)
From Verif Require Import Base Lib ModelLookup3 SpecLookup3 ProofInet.

Lemma w32_word : forall x, is_word (w32 x). Proof. intros. apply Z.mod_pos_bound. reflexivity. Qed.
Lemma mod_word : forall x, is_word (x mod 2 ^ 32). Proof. exact w32_word. Qed.
Lemma word_mod : forall x, is_word x -> x mod 2 ^ 32 = x. Proof. intros x H. apply Z.mod_small. exact H. Qed.
Lemma lxor_word : forall x y, is_word x -> is_word y -> is_word (Z.lxor x y).
Proof.
  intros x y X Y. rewrite <- (word_mod x X), <- (word_mod y Y). rewrite <- !Z.land_ones by lia.
  replace (Z.lxor (Z.land x (Z.ones 32)) (Z.land y (Z.ones 32))) with (Z.land (Z.lxor x y) (Z.ones 32)).
  - rewrite Z.land_ones by lia. apply mod_word.
  - apply Z.bits_inj'. intros n N. rewrite !Z.lxor_spec, !Z.land_spec, !Z.lxor_spec. destruct (Z.testbit x n), (Z.testbit y n), (Z.testbit (Z.ones 32) n); reflexivity.
Qed.
Lemma rot_rotate : forall x k, is_word x -> 0 < k < 32 -> rot x k = rotate x k.
Proof.
  intros x k X K. unfold rot, rotate, w32. rewrite Z.shiftl_mul_pow2, Z.shiftr_div_pow2 by lia.
  assert (E : (x * 2 ^ k) mod 2 ^ 32 = (x mod 2 ^ (32 - k)) * 2 ^ k). { replace (2 ^ 32) with (2 ^ (32 - k) * 2 ^ k) by (rewrite <- Z.pow_add_r by lia; f_equal; lia). apply Z.mul_mod_distr_r; apply Z.pow_nonzero; lia. }
  rewrite E. apply lor_add; [lia|]. split; [apply Z.div_pos; [apply X|apply Z.pow_pos_nonneg; lia]|]. apply Z.div_lt_upper_bound; [apply Z.pow_pos_nonneg; lia|]. rewrite <- Z.pow_add_r by lia. replace (32 - k + k) with 32 by lia. apply X.
Qed.
Lemma rotate_word : forall x k, is_word x -> 0 < k < 32 -> is_word (rotate x k).
Proof.
  intros x k X K. unfold rotate. assert (E : (x * 2 ^ k) mod 2 ^ 32 = (x mod 2 ^ (32 - k)) * 2 ^ k). { replace (2 ^ 32) with (2 ^ (32 - k) * 2 ^ k) by (rewrite <- Z.pow_add_r by lia; f_equal; lia). apply Z.mul_mod_distr_r; apply Z.pow_nonzero; lia. }
  rewrite E. assert (P : 0 < 2 ^ (32 - k)) by (apply Z.pow_pos_nonneg; lia). assert (Q : 0 < 2 ^ k) by (apply Z.pow_pos_nonneg; lia).
  assert (PQ : 2 ^ 32 = 2 ^ (32 - k) * 2 ^ k) by (rewrite <- Z.pow_add_r by lia; f_equal; lia). unfold is_word in *. pose proof (Z.mod_pos_bound x _ P).
  assert (0 <= x / 2 ^ (32 - k) < 2 ^ k) by (split; [apply Z.div_pos; lia|apply Z.div_lt_upper_bound; lia]). nia.
Qed.

Definition words (s : Z * Z * Z) : Prop := let '(a, b, c) := s in is_word a /\ is_word b /\ is_word c.
Definition mix_line' (s : Z * Z * Z) (k : Z) : Z * Z * Z := let '(x, y, z) := s in (y, w32 (z + y), Z.lxor (w32 (x - z)) (rot z k)).
Definition final_line' (s : Z * Z * Z) (k : Z) : Z * Z * Z := let '(x, y, z) := s in (y, w32 (Z.lxor z y - rot y k), x).
Lemma mix_unfold : forall s, mix s = fold_left mix_line' [4; 6; 8; 16; 19; 4] s. Proof. intros [[a b] c]. reflexivity. Qed.
Lemma final_unfold : forall a b c, (let '(a, b, c) := final (a, b, c) in (b, c, a)) = fold_left final_line' [14; 11; 25; 16; 4; 14; 24] (a, b, c).
Proof. reflexivity. Qed.
Lemma mix_line_words : forall s k, words s -> 0 < k < 32 -> words (mix_line s k).
Proof. intros [[x y] z] k (X & Y & Q) K. cbn [mix_line words]. repeat split; try apply Y; try apply mod_word; apply lxor_word; auto using mod_word, rotate_word. Qed.
Lemma final_line_words : forall s k, words s -> 0 < k < 32 -> words (final_line s k).
Proof. intros [[x y] z] k (X & Y & Q) K. cbn [final_line words]. auto using mod_word. Qed.
Lemma mix_fold : forall l s, Forall (fun k => 0 < k < 32) l -> words s -> fold_left mix_line' l s = fold_left mix_line l s /\ words (fold_left mix_line l s).
Proof.
  induction l as [|k l IH]; intros s F W; [auto|]. inversion F; subst. cbn [fold_left]. replace (mix_line' s k) with (mix_line s k); [apply IH; auto using mix_line_words|].
  destruct s as [[x y] z], W as (X & Y & Q). unfold mix_line, mix_line', w32. rewrite rot_rotate by auto. reflexivity.
Qed.
Lemma final_fold : forall l s, Forall (fun k => 0 < k < 32) l -> words s -> fold_left final_line' l s = fold_left final_line l s /\ words (fold_left final_line l s).
Proof.
  induction l as [|k l IH]; intros s F W; [auto|]. inversion F; subst. cbn [fold_left]. replace (final_line' s k) with (final_line s k); [apply IH; auto using final_line_words|].
  destruct s as [[x y] z], W as (X & Y & Q). unfold final_line, final_line', w32. rewrite rot_rotate by auto. reflexivity.
Qed.
Lemma mix_ok : forall s, words s -> mix s = spec_mix s.
Proof. intros s W. rewrite mix_unfold. apply mix_fold; auto. repeat (constructor; [lia|]). constructor. Qed.
Lemma spec_mix_words : forall s, words s -> words (spec_mix s).
Proof. intros s W. apply mix_fold; auto. repeat (constructor; [lia|]). constructor. Qed.
Lemma final_ok : forall s, words s -> (let '(a, b, c) := final s in (b, c)) = spec_final s.
Proof.
  intros [[a b] c] W. unfold spec_final. pose proof (final_unfold a b c) as U. destruct (final_fold [14; 11; 25; 16; 4; 14; 24] (a, b, c)) as [E _]; auto.
  - repeat (constructor; [lia|]). constructor.
  - rewrite E in U. rewrite <- U. destruct (final (a, b, c)) as [[x y] z]. reflexivity.
Qed.
Lemma add3_words : forall s x y z, words (add3 s x y z). Proof. intros [[a b] c] x y z. cbn [add3 words]. auto using mod_word. Qed.
Lemma mixed_words : forall word s j, words s -> words (mixed word s j).
Proof. intros word s j W. destruct j; [exact W|]. cbn [mixed]. apply spec_mix_words, add3_words. Qed.
Lemma addabc : forall s x y z, addc z (addb y (adda x s)) = add3 s x y z. Proof. intros [[a b] c] x y z. reflexivity. Qed.

(** A loop that takes [per] units at a time. *)
Section Loop.
Variables (per : Z) (word : Z -> Z) (N : Z) (mem : list Z) (s : Z * Z * Z) (F : nat -> list Z -> Z -> Z * Z * Z -> outcome (list Z * Z * (Z * Z * Z))).
Hypothesis P : 0 < per.
Hypothesis N0 : 0 <= N.
Hypothesis Stop : forall f k len st, len <= per -> F (S f) k len st = Ok (k, len, st).
Hypothesis Step : forall f j, per * Z.of_nat j + per < N ->
  F (S f) (skipn (Z.to_nat (per * Z.of_nat j)) mem) (N - per * Z.of_nat j) (mixed word s j) =
  F f (skipn (Z.to_nat (per * Z.of_nat (S j))) mem) (N - per * Z.of_nat (S j)) (mixed word s (S j)).
Definition rounds : Z := if N =? 0 then 0 else (N - 1) / per.
Lemma rounds_ok : 0 <= rounds /\ N - per * rounds <= per /\ (0 < N -> 0 < N - per * rounds) /\ (N = 0 -> rounds = 0).
Proof.
  unfold rounds. destruct (N =? 0) eqn:E; [lia|]. pose proof (Z.div_mod (N - 1) per ltac:(lia)). pose proof (Z.mod_pos_bound (N - 1) per ltac:(lia)). pose proof (Z.div_pos (N - 1) per ltac:(lia) ltac:(lia)). nia.
Qed.
Lemma loop_from : forall d f j, rounds = Z.of_nat j + Z.of_nat d -> (d < f)%nat ->
  F f (skipn (Z.to_nat (per * Z.of_nat j)) mem) (N - per * Z.of_nat j) (mixed word s j) = Ok (skipn (Z.to_nat (per * rounds)) mem, N - per * rounds, mixed word s (Z.to_nat rounds)).
Proof.
  destruct rounds_ok as (R0 & R1 & R2 & R3). induction d as [|d IH]; intros f j E L; (destruct f as [|f]; [lia|]).
  - replace (Z.of_nat j) with rounds by lia. rewrite Stop by lia. replace j with (Z.to_nat rounds) by lia. reflexivity.
  - rewrite Step by nia. apply IH; lia.
Qed.
Lemma loop_ok : F (S (Z.to_nat N)) mem N s = Ok (skipn (Z.to_nat (per * rounds)) mem, N - per * rounds, mixed word s (Z.to_nat rounds)).
Proof.
  destruct rounds_ok as (R0 & R1 & R2 & R3). assert (RN : rounds <= N) by (destruct (Z.eq_dec N 0); [lia|specialize (R2 ltac:(lia)); nia]).
  pose proof (loop_from (Z.to_nat rounds) (S (Z.to_nat N)) O ltac:(lia) ltac:(lia)) as Q. rewrite Z.mul_0_r, Z.sub_0_r in Q. exact Q.
Qed.
End Loop.

Lemma rd_skip : forall m d i, 0 <= d -> 0 <= i -> rd (skipn (Z.to_nat d) m) i = rd m (d + i).
Proof.
  intros m d i D I. unfold rd. replace (i <? 0) with false by lia. replace (d + i <? 0) with false by lia. rewrite Z2Nat.inj_add by lia.
  assert (Q : forall n (l : list Z) k, nth_error (skipn n l) k = nth_error l (n + k)).
  { induction n as [|n IH]; intros l k; [reflexivity|]. destruct l as [|x l]; [cbn; destruct k; reflexivity|]. cbn. apply IH. }
  rewrite Q. reflexivity.
Qed.
Lemma rd_key : forall key rest i, 0 <= i < zlen key -> rd (key ++ rest) i = Ok (octet key i).
Proof.
  intros key rest i I. unfold rd, octet. replace (i <? 0) with false by lia. rewrite nth_error_app1 by (unfold zlen in I; lia). rewrite (nth_error_nth' key 0) by (unfold zlen in I; lia). reflexivity.
Qed.
Lemma octet_byte : forall k i, bytes_ok k -> 0 <= octet k i < 256.
Proof. intros k i B. unfold octet. destruct (nth_in_or_default (Z.to_nat i) k 0) as [I| ->]; [|lia]. unfold bytes_ok in B. rewrite Forall_forall in B. apply B. auto. Qed.
Lemma octet_behind : forall k i, zlen k <= i -> octet k i = 0.
Proof. intros k i I. unfold octet. apply nth_overflow. unfold zlen in I. lia. Qed.
(** Whatever is readable behind the key. *)
Lemma rd_mem : forall key rest i, bytes_ok key -> bytes_ok rest -> 0 <= i < zlen (key ++ rest) -> rd (key ++ rest) i = Ok (octet (key ++ rest) i).
Proof. intros key rest i B C I. rewrite <- (app_nil_r (key ++ rest)) at 1. apply rd_key. exact I. Qed.
Lemma octet_app : forall key rest i, 0 <= i < zlen key -> octet (key ++ rest) i = octet key i.
Proof. intros key rest i I. unfold octet. apply app_nth1. unfold zlen in I. lia. Qed.

(** A word of four octets. *)
Definition wd (g : Z -> Z) (i : Z) : Z := g (4 * i) + 2 ^ 8 * g (4 * i + 1) + 2 ^ 16 * g (4 * i + 2) + 2 ^ 24 * g (4 * i + 3).
Definition bwd (g : Z -> Z) (i : Z) : Z := 2 ^ 24 * g (4 * i) + 2 ^ 16 * g (4 * i + 1) + 2 ^ 8 * g (4 * i + 2) + g (4 * i + 3).
Lemma wd_key : forall key j i, wd (fun x => octet key (12 * j + x)) i = le_word key (3 * j + i).
Proof.
  intros. unfold wd, le_word. replace (12 * j + 4 * i) with (4 * (3 * j + i)) by ring. replace (12 * j + (4 * i + 1)) with (4 * (3 * j + i) + 1) by ring.
  replace (12 * j + (4 * i + 2)) with (4 * (3 * j + i) + 2) by ring. replace (12 * j + (4 * i + 3)) with (4 * (3 * j + i) + 3) by ring. reflexivity.
Qed.
Lemma bwd_key : forall key j i, bwd (fun x => octet key (12 * j + x)) i = be_word key (3 * j + i).
Proof.
  intros. unfold bwd, be_word. replace (12 * j + 4 * i) with (4 * (3 * j + i)) by ring. replace (12 * j + (4 * i + 1)) with (4 * (3 * j + i) + 1) by ring.
  replace (12 * j + (4 * i + 2)) with (4 * (3 * j + i) + 2) by ring. replace (12 * j + (4 * i + 3)) with (4 * (3 * j + i) + 3) by ring. reflexivity.
Qed.
Lemma block_key : forall key s j, add_block (le_word key) s j = add3 s (wd (fun x => octet key (12 * j + x)) 0) (wd (fun x => octet key (12 * j + x)) 1) (wd (fun x => octet key (12 * j + x)) 2).
Proof. intros. unfold add_block. rewrite !wd_key. rewrite Z.add_0_r. reflexivity. Qed.
Lemma bblock_key : forall key s j, add_block (be_word key) s j = add3 s (bwd (fun x => octet key (12 * j + x)) 0) (bwd (fun x => octet key (12 * j + x)) 1) (bwd (fun x => octet key (12 * j + x)) 2).
Proof. intros. unfold add_block. rewrite !bwd_key. rewrite Z.add_0_r. reflexivity. Qed.

(** Reads at a pointer where the first [L] octets are [g]. *)
Definition reads (k : list Z) (L : Z) (g : Z -> Z) : Prop := (forall i, 0 <= i < L -> rd k i = Ok (g i)) /\ forall i, 0 <= g i < 256.
Lemma ld32_ok : forall k L g i, reads k L g -> 0 <= i -> 4 * i + 3 < L -> ld32 k i = Ok (wd g i).
Proof. intros k L g i [R B] I H. unfold ld32. rewrite !R by lia. cbn [bind]. unfold wd. f_equal. Qed.
Lemma sh_byte : forall x n, 0 <= x < 256 -> 0 <= n <= 24 -> sh x n = x * 2 ^ n.
Proof.
  intros x n X K. unfold sh, w32. rewrite Z.shiftl_mul_pow2 by lia. apply Z.mod_small. assert (2 ^ n <= 2 ^ 24) by (apply Z.pow_le_mono_r; lia). assert (0 < 2 ^ n) by (apply Z.pow_pos_nonneg; lia).
  change (2 ^ 32) with 4294967296. change (2 ^ 24) with 16777216 in *. nia.
Qed.
Lemma ld16_ok : forall k L g i, reads k L g -> 0 <= i -> 2 * i + 1 < L -> ld16 k i = Ok (g (2 * i) + 2 ^ 8 * g (2 * i + 1)).
Proof. intros k L g i [R B] I H. unfold ld16. rewrite !R by lia. reflexivity. Qed.
Lemma two_ok : forall k L g i, reads k L g -> 0 <= i -> 4 * i + 3 < L -> two k (2 * i) = Ok (wd g i).
Proof.
  intros k L g i R I H. unfold two. rewrite (ld16_ok k L g (2 * i) R), (ld16_ok k L g (2 * i + 1) R) by lia. cbn [bind]. f_equal. destruct R as [_ B].
  replace (2 * (2 * i)) with (4 * i) by ring. replace (2 * (2 * i + 1)) with (4 * i + 2) by ring. replace (4 * i + 2 + 1) with (4 * i + 3) by ring.
  pose proof (B (4 * i)). pose proof (B (4 * i + 1)). pose proof (B (4 * i + 2)). pose proof (B (4 * i + 3)). unfold sh, w32. rewrite Z.shiftl_mul_pow2 by lia. rewrite Zplus_mod_idemp_r. unfold wd.
  rewrite Z.mod_small; change (2 ^ 32) with 4294967296; change (2 ^ 24) with 16777216; change (2 ^ 16) with 65536; change (2 ^ 8) with 256; lia.
Qed.
Lemma w32_add : forall x y, w32 (w32 x + y) = w32 (x + y). Proof. intros. unfold w32. apply Zplus_mod_idemp_l. Qed.

Lemma w32_add2 : forall x y z, w32 (w32 x + y + z) = w32 (x + y + z). Proof. intros. rewrite <- !Z.add_assoc. apply w32_add. Qed.
Lemma w32_add3 : forall x y z v, w32 (w32 x + y + z + v) = w32 (x + y + z + v). Proof. intros. rewrite <- !Z.add_assoc. apply w32_add. Qed.
Ltac flat := repeat first [rewrite w32_add | rewrite w32_add2 | rewrite w32_add3].

(** The first [L] octets of [g], then zeros. *)
Definition upto (L : Z) (g : Z -> Z) (i : Z) : Z := if i <? L then g i else 0.
Ltac norm g := repeat match goal with
  | |- context [if ?a <? ?b then _ else _] => let c := eval vm_compute in (a <? b) in change (a <? b) with c; cbv iota
  | |- context [g ?t] => let t' := eval vm_compute in t in progress change (g t) with (g t')
  end.
Ltac twelve L H := assert (Cases : L = 1 \/ L = 2 \/ L = 3 \/ L = 4 \/ L = 5 \/ L = 6 \/ L = 7 \/ L = 8 \/ L = 9 \/ L = 10 \/ L = 11 \/ L = 12) by lia;
  repeat (destruct Cases as [->|Cases]; [|]); [..|subst L].
Lemma add3_eq : forall a b c x y z x' y' z', w32 (a + x) = w32 (a + x') -> w32 (b + y) = w32 (b + y') -> w32 (c + z) = w32 (c + z') -> add3 (a, b, c) x y z = add3 (a, b, c) x' y' z'.
Proof. intros. unfold add3. unfold w32 in *. congruence. Qed.

Lemma adds_little : forall k g s, reads k 12 g -> adds k little_block s = Ok (add3 s (wd g 0) (wd g 1) (wd g 2)).
Proof.
  intros k g [[a b] c] [R B]. unfold little_block. cbn [adds]. rewrite !R by lia. cbn [bind add_reg adda addb addc]. rewrite !sh_byte by (try apply B; lia). flat.
  unfold add3, w32, wd. norm g. f_equal. f_equal; [f_equal|]; f_equal; ring.
Qed.
Lemma adds_big : forall k g s, reads k 12 g -> adds k big_block s = Ok (add3 s (bwd g 0) (bwd g 1) (bwd g 2)).
Proof.
  intros k g [[a b] c] [R B]. unfold big_block. cbn [adds]. rewrite !R by lia. cbn [bind add_reg adda addb addc]. rewrite !sh_byte by (try apply B; lia). flat.
  unfold add3, w32, bwd. norm g. f_equal. f_equal; [f_equal|]; f_equal; ring.
Qed.
Lemma last_little : forall k g s L, reads k L g -> words s -> 1 <= L <= 12 -> h1_last little_cases k L s = Ok (Some (add3 s (wd (upto L g) 0) (wd (upto L g) 1) (wd (upto L g) 2))).
Proof.
  intros k g [[a b] c] L [R B] (A1 & A2 & A3) H. unfold h1_last. replace (L =? 0) with false by lia. replace ((L <? 0) || (L >? 12)) with false by lia.
  twelve L H; (match goal with |- context [skipn ?n little_cases] => let v := eval vm_compute in (skipn n little_cases) in change (skipn n little_cases) with v end;
   cbn [adds]; rewrite !R by lia; cbn [bind add_reg adda addb addc]; rewrite !sh_byte by (try apply B; lia); flat;
   unfold add3, w32, wd, upto; norm g; f_equal; f_equal; f_equal; [f_equal|]; first [f_equal; ring | rewrite <- (word_mod _ A2) at 1; f_equal; ring | rewrite <- (word_mod _ A3) at 1; f_equal; ring]).
Qed.
Lemma last_big : forall k g s L, reads k L g -> words s -> 1 <= L <= 12 -> h1_last big_cases k L s = Ok (Some (add3 s (bwd (upto L g) 0) (bwd (upto L g) 1) (bwd (upto L g) 2))).
Proof.
  intros k g [[a b] c] L [R B] (A1 & A2 & A3) H. unfold h1_last. replace (L =? 0) with false by lia. replace ((L <? 0) || (L >? 12)) with false by lia.
  twelve L H; (match goal with |- context [skipn ?n big_cases] => let v := eval vm_compute in (skipn n big_cases) in change (skipn n big_cases) with v end;
   cbn [adds]; rewrite !R by lia; cbn [bind add_reg adda addb addc]; rewrite !sh_byte by (try apply B; lia); flat;
   unfold add3, w32, bwd, upto; norm g; f_equal; f_equal; f_equal; [f_equal|]; first [f_equal; ring | rewrite <- (word_mod _ A2) at 1; f_equal; ring | rewrite <- (word_mod _ A3) at 1; f_equal; ring]).
Qed.

Lemma wd_masks : forall g i, (forall x, 0 <= g x < 256) -> Z.land (wd g i) 0xff = g (4 * i) /\ Z.land (wd g i) 0xffff = g (4 * i) + 2 ^ 8 * g (4 * i + 1) /\
  Z.land (wd g i) 0xffffff = g (4 * i) + 2 ^ 8 * g (4 * i + 1) + 2 ^ 16 * g (4 * i + 2) /\ Z.land (wd g i) 0xffffffff = wd g i.
Proof.
  intros g i B. change 0xff with (Z.ones 8). change 0xffff with (Z.ones 16). change 0xffffff with (Z.ones 24). change 0xffffffff with (Z.ones 32). rewrite !Z.land_ones by lia. unfold wd.
  pose proof (B (4 * i)). pose proof (B (4 * i + 1)). pose proof (B (4 * i + 2)). pose proof (B (4 * i + 3)). change (2 ^ 8) with 256. change (2 ^ 16) with 65536. change (2 ^ 24) with 16777216. change (2 ^ 32) with 4294967296.
  set (x := g (4 * i)) in *. set (y := g (4 * i + 1)) in *. set (z := g (4 * i + 2)) in *. set (w := g (4 * i + 3)) in *. clearbody x y z w. repeat split; symmetry.
  - apply Z.mod_unique with (y + 256 * z + 65536 * w); lia.
  - apply Z.mod_unique with (z + 256 * w); lia.
  - apply Z.mod_unique with w; lia.
  - apply Z.mod_unique with 0; lia.
Qed.
Lemma some3 : forall (a b c a' b' c' : Z), a = a' -> b = b' -> c = c' -> Ok (Some (a, b, c)) = Ok (Some (a', b', c')). Proof. intros. congruence. Qed.
Lemma last4 : forall k y s L, reads k (4 * ((L + 3) / 4)) y -> words s -> 1 <= L <= 12 -> hl4_last k L s = Ok (Some (add3 s (wd (upto L y) 0) (wd (upto L y) 1) (wd (upto L y) 2))).
Proof.
  intros k y [[a b] c] L R (A1 & A2 & A3) H. pose proof (proj2 R) as B. destruct (wd_masks y 0 B) as (M1 & M2 & M3 & M4). destruct (wd_masks y 1 B) as (N1 & N2 & N3 & N4). destruct (wd_masks y 2 B) as (O1 & O2 & O3 & O4).
  twelve L H; (match type of R with reads _ ?n _ => let v := eval vm_compute in n in change n with v in R end; unfold hl4_last; cbv zeta;
    repeat match goal with |- context [if ?x =? ?z then _ else _] => let v := eval vm_compute in (x =? z) in change (x =? z) with v; cbv iota end;
    rewrite ?(ld32_ok _ _ y 2 R), ?(ld32_ok _ _ y 1 R), ?(ld32_ok _ _ y 0 R) by lia; cbn [bind]; rewrite ?M1, ?M2, ?M3, ?M4, ?N1, ?N2, ?N3, ?N4, ?O1, ?O2, ?O3, ?O4;
    cbn [adda addb addc]; unfold add3, w32, wd, upto; norm y; apply some3; first [reflexivity | f_equal; ring | rewrite <- (word_mod _ A2) at 1; f_equal; ring | rewrite <- (word_mod _ A3) at 1; f_equal; ring]).
Qed.
Lemma last2 : forall k y s L, reads k L y -> words s -> 1 <= L <= 12 -> hl2_last k L s = Ok (Some (add3 s (wd (upto L y) 0) (wd (upto L y) 1) (wd (upto L y) 2))).
Proof.
  intros k y [[a b] c] L R (A1 & A2 & A3) H. pose proof R as [R0 B]. pose proof (two_ok k L y 0 R ltac:(lia)) as T0. pose proof (two_ok k L y 1 R ltac:(lia)) as T1. pose proof (two_ok k L y 2 R ltac:(lia)) as T2.
  pose proof (ld16_ok k L y 0 R ltac:(lia)) as S0. pose proof (ld16_ok k L y 2 R ltac:(lia)) as S2. pose proof (ld16_ok k L y 4 R ltac:(lia)) as S4.
  change (2 * 0) with 0 in *. change (2 * 1) with 2 in *. change (2 * 2) with 4 in *.
  twelve L H; (unfold hl2_last; cbv zeta;
    repeat match goal with |- context [if ?x =? ?z then _ else _] => let v := eval vm_compute in (x =? z) in change (x =? z) with v; cbv iota end;
    rewrite ?T0, ?T1, ?T2, ?S0, ?S2, ?S4 by lia; cbn [bind]; rewrite ?R0 by lia; cbn [bind]; rewrite ?T0, ?T1, ?T2, ?S0, ?S2, ?S4 by lia; cbn [bind]; rewrite ?sh_byte by (try apply B; lia);
    cbn [adda addb addc]; flat; unfold add3, w32, wd, upto; norm y; apply some3; first [reflexivity | f_equal; ring | rewrite <- (word_mod _ A2) at 1; f_equal; ring | rewrite <- (word_mod _ A3) at 1; f_equal; ring]).
Qed.

Lemma skip_skip : forall (m : list Z) p j, 0 <= p -> skipn (Z.to_nat p) (skipn (Z.to_nat (p * Z.of_nat j)) m) = skipn (Z.to_nat (p * Z.of_nat (S j))) m.
Proof.
  intros m p j P. assert (Q : forall n k (l : list Z), skipn n (skipn k l) = skipn (k + n) l).
  { intros n k. induction k as [|k IH]; intros l; [reflexivity|]. destruct l as [|x l]; [cbn; destruct n; reflexivity|]. cbn [Nat.add skipn]. apply IH. }
  rewrite Q. f_equal. lia.
Qed.
Lemma reads_at : forall key rest d, bytes_ok key -> 0 <= d -> reads (skipn (Z.to_nat d) (key ++ rest)) (zlen key - d) (fun x => octet key (d + x)).
Proof.
  intros key rest d B D. split; [|intros i; apply octet_byte; auto]. intros i I. rewrite rd_skip by lia. apply rd_key. lia.
Qed.
Lemma reads_all : forall key rest d L, bytes_ok key -> bytes_ok rest -> 0 <= d -> d + L <= zlen (key ++ rest) -> reads (skipn (Z.to_nat d) (key ++ rest)) L (fun x => octet (key ++ rest) (d + x)).
Proof.
  intros key rest d L B C D E. assert (BC : bytes_ok (key ++ rest)) by (apply bytes_ok_app; auto). split; [|intros i; apply octet_byte; auto]. intros i I. rewrite rd_skip by lia. apply rd_mem; auto. lia.
Qed.
Lemma wd_ext : forall f g i, 0 <= i -> (forall x, 0 <= x -> f x = g x) -> wd f i = wd g i. Proof. intros f g i I E. unfold wd. rewrite !E by lia. reflexivity. Qed.
Lemma bwd_ext : forall f g i, 0 <= i -> (forall x, 0 <= x -> f x = g x) -> bwd f i = bwd g i. Proof. intros f g i I E. unfold bwd. rewrite !E by lia. reflexivity. Qed.
Lemma upto_key : forall key rest d x, 0 <= d -> 0 <= x -> d < zlen key -> upto (zlen key - d) (fun x => octet (key ++ rest) (d + x)) x = octet key (d + x).
Proof. intros key rest d x D X H. unfold upto. destruct (x <? zlen key - d) eqn:E; [apply octet_app; lia|]. symmetry. apply octet_behind. lia. Qed.

Section Octets.
Variables (key rest : list Z) (s : Z * Z * Z).
Hypothesis Bk : bytes_ok key.
Hypothesis Br : bytes_ok rest.
Hypothesis Ws : words s.
Notation N := (zlen key).
Notation mem := (key ++ rest).
Notation R := (rounds 12 (zlen key)).
Notation st := (mixed (le_word key) s (Z.to_nat (rounds 12 (zlen key)))).
Notation bst := (mixed (be_word key) s (Z.to_nat (rounds 12 (zlen key)))).

Lemma hl4_rounds : hl4_loop (S (Z.to_nat N)) mem N s = Ok (skipn (Z.to_nat (12 * R)) mem, N - 12 * R, st).
Proof.
  apply (loop_ok 12 (le_word key) N mem s hl4_loop); [lia|apply zlen_nonneg| |].
  - intros f k len x H. cbn [hl4_loop]. replace (len >? 12) with false by lia. reflexivity.
  - intros f j H. cbn [hl4_loop]. replace (N - 12 * Z.of_nat j >? 12) with true by lia. pose proof (reads_at key rest (12 * Z.of_nat j) Bk ltac:(lia)) as Q.
    rewrite !(ld32_ok _ _ _ _ Q) by lia. cbn [bind]. rewrite addabc. rewrite <- block_key. rewrite mix_ok by (apply add3_words). cbn [mixed]. change (skipn 12) with (@skipn Z (Z.to_nat 12)). rewrite skip_skip by lia. f_equal. lia.
Qed.
Lemma hl2_rounds : hl2_loop (S (Z.to_nat N)) mem N s = Ok (skipn (Z.to_nat (12 * R)) mem, N - 12 * R, st).
Proof.
  apply (loop_ok 12 (le_word key) N mem s hl2_loop); [lia|apply zlen_nonneg| |].
  - intros f k len x H. cbn [hl2_loop]. replace (len >? 12) with false by lia. reflexivity.
  - intros f j H. cbn [hl2_loop]. replace (N - 12 * Z.of_nat j >? 12) with true by lia. pose proof (reads_at key rest (12 * Z.of_nat j) Bk ltac:(lia)) as Q.
    pose proof (two_ok _ _ _ 0 Q ltac:(lia) ltac:(lia)) as T0. pose proof (two_ok _ _ _ 1 Q ltac:(lia) ltac:(lia)) as T1. pose proof (two_ok _ _ _ 2 Q ltac:(lia) ltac:(lia)) as T2.
    change (2 * 0) with 0 in *. change (2 * 1) with 2 in *. change (2 * 2) with 4 in *. rewrite T0, T1, T2. cbn [bind]. rewrite addabc. rewrite <- block_key. rewrite mix_ok by (apply add3_words).
    cbn [mixed]. change (skipn 12) with (@skipn Z (Z.to_nat 12)). rewrite skip_skip by lia. f_equal. lia.
Qed.
Lemma reads_12 : forall d, 0 <= d -> d + 12 < N -> reads (skipn (Z.to_nat d) mem) 12 (fun x => octet key (d + x)).
Proof. intros d D H. destruct (reads_at key rest d Bk D) as [A B]. split; auto. intros i I. apply A. lia. Qed.
Lemma hl1_rounds : h1_loop little_block (S (Z.to_nat N)) mem N s = Ok (skipn (Z.to_nat (12 * R)) mem, N - 12 * R, st).
Proof.
  apply (loop_ok 12 (le_word key) N mem s (h1_loop little_block)); [lia|apply zlen_nonneg| |].
  - intros f k len x H. cbn [h1_loop]. replace (len >? 12) with false by lia. reflexivity.
  - intros f j H. cbn [h1_loop]. replace (N - 12 * Z.of_nat j >? 12) with true by lia. rewrite (adds_little _ _ _ (reads_12 (12 * Z.of_nat j) ltac:(lia) ltac:(lia))). cbn [bind].
    rewrite <- block_key. rewrite mix_ok by (apply add3_words). cbn [mixed]. change (skipn 12) with (@skipn Z (Z.to_nat 12)). rewrite skip_skip by lia. f_equal. lia.
Qed.
Lemma hb_rounds : h1_loop big_block (S (Z.to_nat N)) mem N s = Ok (skipn (Z.to_nat (12 * R)) mem, N - 12 * R, bst).
Proof.
  apply (loop_ok 12 (be_word key) N mem s (h1_loop big_block)); [lia|apply zlen_nonneg| |].
  - intros f k len x H. cbn [h1_loop]. replace (len >? 12) with false by lia. reflexivity.
  - intros f j H. cbn [h1_loop]. replace (N - 12 * Z.of_nat j >? 12) with true by lia. rewrite (adds_big _ _ _ (reads_12 (12 * Z.of_nat j) ltac:(lia) ltac:(lia))). cbn [bind].
    rewrite <- bblock_key. rewrite mix_ok by (apply add3_words). cbn [mixed]. change (skipn 12) with (@skipn Z (Z.to_nat 12)). rewrite skip_skip by lia. f_equal. lia.
Qed.
Lemma R_ok : 0 <= R /\ N - 12 * R <= 12 /\ (0 < N -> 0 < N - 12 * R) /\ (N = 0 -> R = 0).
Proof. apply rounds_ok; [lia|apply zlen_nonneg]. Qed.
Lemma last_block : forall (g : Z -> Z) L, L = N - 12 * R -> 0 < N -> (forall x, 0 <= x -> upto L g x = octet key (12 * R + x)) ->
  add3 st (wd (upto L g) 0) (wd (upto L g) 1) (wd (upto L g) 2) = add_block (le_word key) st R.
Proof. intros g L EL PN H. rewrite block_key. f_equal; apply wd_ext; auto; lia. Qed.
Lemma last_bblock : forall (g : Z -> Z) L, L = N - 12 * R -> 0 < N -> (forall x, 0 <= x -> upto L g x = octet key (12 * R + x)) ->
  add3 bst (bwd (upto L g) 0) (bwd (upto L g) 1) (bwd (upto L g) 2) = add_block (be_word key) bst R.
Proof. intros g L EL PN H. rewrite bblock_key. f_equal; apply bwd_ext; auto; lia. Qed.
Lemma upto_in : 0 < N -> forall x, 0 <= x -> upto (N - 12 * R) (fun x => octet key (12 * R + x)) x = octet key (12 * R + x).
Proof. intros PN x X. destruct R_ok as (R0 & R1 & R2 & _). unfold upto. destruct (x <? N - 12 * R) eqn:E; auto. symmetry. apply octet_behind. lia. Qed.

Definition enough (al : Z) : Prop := al = 0 -> 4 * ((N + 3) / 4) <= zlen mem.
Lemma body_ok : forall al, enough al -> exists r, hl_body al mem N s = Ok r /\ (let '(a, b, c) := r in (b, c)) = spec_hash 12 (le_word key) N s.
Proof.
  intros al En. destruct R_ok as (R0 & R1 & R2 & R3). pose proof (zlen_nonneg _ key) as N0. pose proof (mixed_words (le_word key) s (Z.to_nat R) Ws) as Wst. unfold hl_body. rewrite hl4_rounds, hl2_rounds, hl1_rounds. cbn [bind].
  unfold spec_hash. destruct (N =? 0) eqn:EN.
  - assert (N = 0) by lia. rewrite R3 by auto. replace (N - 12 * 0) with 0 by lia. exists s. split; [destruct (al =? 0), (al =? 2); reflexivity|]. destruct s as [[a b] c]. reflexivity.
  - set (L := N - 12 * R) in *. assert (HL : 1 <= L <= 12) by lia. assert (G : exists f, (if al =? 0 then o <- hl4_last (skipn (Z.to_nat (12 * R)) mem) L st ;; Ok (st, o) else if al =? 2 then o <- hl2_last (skipn (Z.to_nat (12 * R)) mem) L st ;; Ok (st, o)
        else o <- h1_last little_cases (skipn (Z.to_nat (12 * R)) mem) L st ;; Ok (st, o)) = Ok (f, Some (add_block (le_word key) st R))).
    { exists st. pose proof (reads_at key rest (12 * R) Bk ltac:(lia)) as Q. destruct (al =? 0) eqn:A0; [|destruct (al =? 2)].
      - assert (Q4 : reads (skipn (Z.to_nat (12 * R)) mem) (4 * ((L + 3) / 4)) (fun x => octet mem (12 * R + x))).
        { apply reads_all; [auto|auto|lia|]. specialize (En ltac:(lia)). assert (D : (N + 3) / 4 = (L + 3) / 4 + 3 * R) by (unfold L; replace (N + 3) with (N - 12 * R + 3 + (3 * R) * 4) by ring; apply Z.div_add; lia). lia. }
        rewrite (last4 _ _ _ _ Q4) by auto.
        cbn [bind]. rewrite (last_block _ L eq_refl ltac:(lia)); [reflexivity|]. intros x X. apply upto_key; lia.
      - rewrite (last2 _ _ _ _ Q) by auto. cbn [bind]. rewrite (last_block _ L eq_refl ltac:(lia)); [reflexivity|]. apply upto_in. lia.
      - rewrite (last_little _ _ _ _ Q) by auto. cbn [bind]. rewrite (last_block _ L eq_refl ltac:(lia)); [reflexivity|]. apply upto_in. lia. }
    destruct G as [f G]. match goal with |- exists r, bind ?X _ = _ /\ _ => assert (E : X = Ok (f, Some (add_block (le_word key) st R))) by exact G; rewrite E end. cbn [bind]. eexists. split; [reflexivity|]. rewrite final_ok by apply add3_words. unfold rounds in *. rewrite EN. reflexivity.
Qed.
Lemma big_ok : exists f o, ('(k, len, s) <- h1_loop big_block (S (Z.to_nat N)) mem N s ;; o <- h1_last big_cases k len s ;; Ok (s, o)) = Ok (f, o) /\
  (let '(a, b, c) := match o with None => f | Some s => final s end in (b, c)) = spec_hash 12 (be_word key) N s.
Proof.
  destruct R_ok as (R0 & R1 & R2 & R3). pose proof (zlen_nonneg _ key) as N0. pose proof (mixed_words (be_word key) s (Z.to_nat R) Ws) as Wst. rewrite hb_rounds. cbn [bind].
  unfold spec_hash. destruct (N =? 0) eqn:EN.
  - assert (N = 0) by lia. rewrite R3 by auto. replace (N - 12 * 0) with 0 by lia. exists s, None. split; [reflexivity|]. destruct s as [[a b] c]. reflexivity.
  - set (L := N - 12 * R) in *. pose proof (reads_at key rest (12 * R) Bk ltac:(lia)) as Q. rewrite (last_big _ _ _ L Q) by (auto; lia). cbn [bind].
    rewrite (last_bblock _ L eq_refl ltac:(lia) (upto_in ltac:(lia))). eexists. eexists. split; [reflexivity|]. cbv iota. rewrite final_ok by apply add3_words. unfold rounds in *. rewrite EN. reflexivity.
Qed.
(** Not enough memory behind the key for the aligned reads. *)
Lemma body_fault : zlen mem < 4 * ((N + 3) / 4) -> hl_body 0 mem N s = UB OobRead.
Proof.
  intros Sh. destruct R_ok as (R0 & R1 & R2 & R3). pose proof (zlen_nonneg _ key) as N0. assert (NM : N <= zlen mem) by (zl; pose proof (zlen_nonneg _ rest); lia). assert (PN : 0 < N) by (pose proof (zlen_nonneg _ key); destruct (Z.eq_dec N 0) as [E|]; [rewrite E in Sh; change ((0 + 3) / 4) with 0 in Sh|]; lia).
  unfold hl_body. rewrite hl4_rounds. cbn [bind]. change (0 =? 0) with true. cbv iota. set (L := N - 12 * R) in *. assert (HL : 1 <= L <= 12) by lia. set (k := skipn (Z.to_nat (12 * R)) mem).
  assert (Sh' : zlen mem - 12 * R < 4 * ((L + 3) / 4)). { unfold L. replace (N + 3) with (N - 12 * R + 3 + (3 * R) * 4) in Sh by ring. rewrite Z.div_add in Sh by lia. lia. }
  assert (Lm : L <= zlen mem - 12 * R) by lia.
  assert (Out : forall i, zlen mem - 12 * R <= i -> 0 <= i -> rd k i = UB OobRead). { intros i I I0. unfold k. rewrite rd_skip by lia. destruct (rd_cases mem (12 * R + i)) as [(b & _ & H)|[H _]]; [lia|exact H]. }
  assert (In_ : forall i, 0 <= i < zlen mem - 12 * R -> exists b, rd k i = Ok b). { intros i I. unfold k. rewrite rd_skip by lia. eexists. apply rd_mem; auto. lia. }
  assert (W : forall i, 0 <= i -> 4 * i <= zlen mem - 12 * R -> zlen mem - 12 * R < 4 * i + 4 -> ld32 k i = UB OobRead).
  { intros i I A B. unfold ld32. destruct (Z_lt_dec (4 * i) (zlen mem - 12 * R)) as [H0|H0]; [destruct (In_ (4 * i) ltac:(lia)) as [x0 ->]|rewrite (Out (4 * i)) by lia; reflexivity]. cbn [bind].
    destruct (Z_lt_dec (4 * i + 1) (zlen mem - 12 * R)) as [H1|H1]; [destruct (In_ (4 * i + 1) ltac:(lia)) as [x1 ->]|rewrite (Out (4 * i + 1)) by lia; reflexivity]. cbn [bind].
    destruct (Z_lt_dec (4 * i + 2) (zlen mem - 12 * R)) as [H2|H2]; [destruct (In_ (4 * i + 2) ltac:(lia)) as [x2 ->]|rewrite (Out (4 * i + 2)) by lia; reflexivity]. cbn [bind]. rewrite (Out (4 * i + 3)) by lia. reflexivity. }
  clearbody L k. assert (Cases : L = 1 \/ L = 2 \/ L = 3 \/ L = 4 \/ L = 5 \/ L = 6 \/ L = 7 \/ L = 8 \/ L = 9 \/ L = 10 \/ L = 11 \/ L = 12) by lia.
  repeat (destruct Cases as [->|Cases]; [|]); [..|subst L]; (match type of Sh' with _ < ?n => let v := eval vm_compute in n in change n with v in Sh' end; try lia; unfold hl4_last; cbv zeta;
    repeat match goal with |- context [if ?x =? ?z then _ else _] => let v := eval vm_compute in (x =? z) in change (x =? z) with v; cbv iota end;
    first [rewrite (W 2) by lia; reflexivity | rewrite (W 1) by lia; reflexivity | rewrite (W 0) by lia; reflexivity]).
Qed.
End Octets.

Lemma rd_word : forall k rest j i, 0 <= j -> 0 <= i -> 3 * j + i < zlen k -> rd (skipn (Z.to_nat (3 * j)) (k ++ rest)) i = Ok (key_word k (3 * j + i)).
Proof. intros. rewrite rd_skip by lia. apply rd_key. lia. Qed.
Lemma add3_z : forall a b c x y, words (a, b, c) -> addb y (adda x (a, b, c)) = add3 (a, b, c) x y 0 /\ adda x (a, b, c) = add3 (a, b, c) x 0 0.
Proof. intros a b c x y (A & B & C). cbn [adda addb]. unfold add3, w32. rewrite !Z.add_0_r, !(word_mod b), !(word_mod c) by auto. auto. Qed.
Lemma hw_ok : forall k rest s, words s -> exists r, ('(k', len, s) <- hw_loop (S (Z.to_nat (zlen k))) (k ++ rest) (zlen k) s ;; hw_last k' len s) = Ok r /\
  (let '(a, b, c) := r in (b, c)) = spec_hash 3 (key_word k) (zlen k) s.
Proof.
  intros k rest s Ws. set (N := zlen k). assert (N0 : 0 <= N) by apply zlen_nonneg. destruct (rounds_ok 3 N ltac:(lia) N0) as (R0 & R1 & R2 & R3). set (R := rounds 3 N) in *.
  pose proof (mixed_words (key_word k) s (Z.to_nat R) Ws) as Wst. rewrite (loop_ok 3 (key_word k) N (k ++ rest) s hw_loop); [|lia|lia| |].
  - fold R. cbn [bind]. set (st := mixed (key_word k) s (Z.to_nat R)) in *. unfold spec_hash. destruct (N =? 0) eqn:EN.
    + assert (N = 0) by lia. rewrite R3 by auto. replace (N - 3 * 0) with 0 by lia. exists st. split; [reflexivity|]. unfold st. rewrite R3 by auto. destruct s as [[a b] c]. reflexivity.
    + set (L := N - 3 * R) in *. assert (HL : L = 1 \/ L = 2 \/ L = 3) by lia. replace ((N - 1) / 3) with R by (unfold R, rounds; rewrite EN; reflexivity). fold st. unfold add_block.
      pose proof (rd_word k rest R 0 R0 ltac:(lia)) as D0. pose proof (rd_word k rest R 1 R0 ltac:(lia)) as D1. pose proof (rd_word k rest R 2 R0 ltac:(lia)) as D2. rewrite Z.add_0_r in D0. fold N in D0, D1, D2.
      assert (Z1 : L < 2 -> key_word k (3 * R + 1) = 0) by (intros; apply nth_overflow; unfold N, zlen in *; lia). assert (Z2 : L < 3 -> key_word k (3 * R + 2) = 0) by (intros; apply nth_overflow; unfold N, zlen in *; lia).
      unfold hw_last. rewrite D0 by lia. replace (L >=? 1) with true by lia. clearbody st. destruct st as [[a b] c]. pose proof Wst as (Wa & Wb & Wc). destruct HL as [HL|[HL|HL]]; rewrite HL.
      * change (1 >=? 3) with false. change (1 >=? 2) with false. cbv iota. cbn [bind]. eexists. split; [reflexivity|]. rewrite (proj2 (add3_z a b c (key_word k (3 * R)) 0 Wst)). rewrite Z1, Z2 by lia. apply final_ok, add3_words.
      * change (2 >=? 3) with false. change (2 >=? 2) with true. cbv iota. cbn [bind]. rewrite D1 by lia. cbn [bind]. eexists. split; [reflexivity|]. rewrite Z2 by lia.
        rewrite <- (proj1 (add3_z a b c (key_word k (3 * R)) (key_word k (3 * R + 1)) Wst)). rewrite <- final_ok; [reflexivity|]. rewrite (proj1 (add3_z a b c (key_word k (3 * R)) (key_word k (3 * R + 1)) Wst)). apply add3_words.
      * change (3 >=? 3) with true. change (3 >=? 2) with true. cbv iota. cbn [bind]. rewrite D2 by lia. cbn [bind]. rewrite D1 by lia. cbn [bind]. eexists. split; [reflexivity|].
        rewrite <- (addabc (a, b, c)). rewrite <- final_ok by (rewrite addabc; apply add3_words). reflexivity.
  - intros f k' len x H. cbn [hw_loop]. replace (len >? 3) with false by lia. reflexivity.
  - intros f j H. cbn [hw_loop]. replace (N - 3 * Z.of_nat j >? 3) with true by lia. fold N in H. rewrite !rd_word by (fold N; lia). cbn [bind]. rewrite addabc. rewrite mix_ok by apply add3_words. cbn [mixed]. unfold add_block. rewrite Z.add_0_r.
    change (skipn 3) with (@skipn Z (Z.to_nat 3)). rewrite skip_skip by lia. f_equal. lia.
Qed.

(** mix can be undone. *)
Lemma lxor_inj : forall a b c, Z.lxor a c = Z.lxor b c -> a = b.
Proof. intros a b c H. assert (Q : Z.lxor (Z.lxor a c) c = Z.lxor (Z.lxor b c) c) by congruence. rewrite !Z.lxor_assoc, Z.lxor_nilpotent, !Z.lxor_0_r in Q. exact Q. Qed.
Lemma add_inj : forall x y z, is_word x -> is_word y -> (x + z) mod 2 ^ 32 = (y + z) mod 2 ^ 32 -> x = y.
Proof.
  intros x y z X Y H. unfold is_word in *. change (2 ^ 32) with 4294967296 in *. assert (Q : (x - y) mod 4294967296 = 0). { replace (x - y) with ((x + z) - (y + z)) by ring. rewrite Zminus_mod, H. rewrite Z.sub_diag. reflexivity. }
  apply Z.mod_divide in Q; [|lia]. destruct Q as [q Q]. nia.
Qed.
Lemma mix_line_inj : forall s t k, words s -> words t -> mix_line s k = mix_line t k -> s = t.
Proof.
  intros [[x y] z] [[x' y'] z'] k (X & Y & Q) (X' & Y' & Q') E. cbn [mix_line] in E. assert (y = y') by congruence. subst y'. assert (E1 : (z + y) mod 2 ^ 32 = (z' + y) mod 2 ^ 32) by congruence. apply add_inj in E1; auto. subst z'.
  assert (E2 : Z.lxor ((x - z) mod 2 ^ 32) (rotate z k) = Z.lxor ((x' - z) mod 2 ^ 32) (rotate z k)) by congruence. apply lxor_inj in E2. change (x - z) with (x + - z) in E2. change (x' - z) with (x' + - z) in E2. apply add_inj in E2; auto. congruence.
Qed.
Lemma mix_inj : forall l s t, Forall (fun k => 0 < k < 32) l -> words s -> words t -> fold_left mix_line l s = fold_left mix_line l t -> s = t.
Proof.
  induction l as [|k l IH]; intros s t F Ws Wt E; [exact E|]. inversion F; subst. cbn [fold_left] in E. apply IH in E; auto using mix_line_words. apply mix_line_inj in E; auto.
Qed.
Lemma spec_mix_inj : forall s t, words s -> words t -> spec_mix s = spec_mix t -> s = t.
Proof. intros s t Ws Wt E. refine (mix_inj [4; 6; 8; 16; 19; 4] s t _ Ws Wt E). repeat (constructor; [lia|]). constructor. Qed.
Lemma final_line_inj : forall s t k, words s -> words t -> final_line s k = final_line t k -> s = t.
Proof.
  intros [[x y] z] [[x' y'] z'] k (X & Y & Q) (X' & Y' & Q') E. cbn [final_line] in E. assert (y = y') by congruence. assert (x = x') by congruence. subst.
  assert (E2 : (Z.lxor z y' - rotate y' k) mod 2 ^ 32 = (Z.lxor z' y' - rotate y' k) mod 2 ^ 32) by congruence. change (Z.lxor z y' - rotate y' k) with (Z.lxor z y' + - rotate y' k) in E2. change (Z.lxor z' y' - rotate y' k) with (Z.lxor z' y' + - rotate y' k) in E2.
  apply add_inj in E2; auto using lxor_word. apply lxor_inj in E2. congruence.
Qed.
