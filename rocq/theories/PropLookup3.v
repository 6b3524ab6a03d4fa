(** PropLookup3.v: C125-C128, libmy/lookup3.c. *)
From Verif Require Import Base Lib ModelLookup3 SpecLookup3 ProofLookup3 Libc.

Definition readable (al : Z) (key rest : bytes) : Prop := al mod 4 = 0 -> 4 * ((zlen key + 3) / 4) <= zlen (key ++ rest).
Lemma start_words : forall n s t, words (start n s t). Proof. intros. unfold start. cbn [words]. auto using mod_word. Qed.
Lemma start_sum : forall n v, w32 (0xdeadbeef + w32 n + v) = (3735928559 + n + v) mod 2 ^ 32.
Proof. intros. unfold w32. replace (0xdeadbeef + n mod 2 ^ 32 + v) with (n mod 2 ^ 32 + (0xdeadbeef + v)) by ring. rewrite Zplus_mod_idemp_l. f_equal. ring. Qed.
Lemma start_little2 : forall n v u, (let i := w32 (0xdeadbeef + w32 n + v) in (i, i, w32 (i + u))) = start n v u.
Proof. intros. cbv zeta. rewrite start_sum. reflexivity. Qed.
Lemma start_little : forall n v, (let i := w32 (0xdeadbeef + w32 n + v) in (i, i, i)) = start n v 0.
Proof. intros. cbv zeta. rewrite start_sum. unfold start. rewrite Z.add_0_r, Z.mod_mod by lia. reflexivity. Qed.
Lemma start_word : forall n v, (let i := w32 (0xdeadbeef + w32 (Z.shiftl (w32 n) 2) + v) in (i, i, i)) = start (4 * n) v 0.
Proof.
  intros. rewrite <- start_little. unfold w32. cbv zeta. rewrite Z.shiftl_mul_pow2 by lia. change (2 ^ 2) with 4. rewrite Zmult_mod_idemp_l. rewrite (Z.mul_comm n 4). reflexivity.
Qed.
Lemma start_word2 : forall n v u, (let i := w32 (0xdeadbeef + w32 (Z.shiftl n 2) + v) in (i, i, w32 (i + u))) = start (4 * n) v u.
Proof. intros. rewrite <- start_little2. unfold w32. cbv zeta. rewrite Z.shiftl_mul_pow2 by lia. change (2 ^ 2) with 4. rewrite (Z.mul_comm n 4). reflexivity. Qed.

(** ** C125: the values *)
Theorem C125_hashlittle : forall al key rest seed, 0 <= al < 4 -> bytes_ok key -> bytes_ok rest -> readable al key rest ->
  my_hashlittle al (key ++ rest) (zlen key) seed = Ok (snd (spec_hash 12 (le_word key) (zlen key) (start (zlen key) seed 0))).
Proof.
  intros al key rest seed A Bk Br Rd. unfold my_hashlittle. pose proof (start_little (zlen key) seed) as E. cbv zeta in *. rewrite E.
  destruct (body_ok key rest (start (zlen key) seed 0) Bk Br (start_words _ _ _) al) as ([[a b] c] & E1 & E2); [intros Z0; apply Rd; subst al; reflexivity|]. rewrite E1. cbn [bind]. rewrite <- E2. reflexivity.
Qed.
Print Assumptions C125_hashlittle.
Theorem C125_hashlittle2 : forall al key rest pc pb, 0 <= al < 4 -> bytes_ok key -> bytes_ok rest -> readable al key rest ->
  exists c b, spec_hash 12 (le_word key) (zlen key) (start (zlen key) pc pb) = (b, c) /\ my_hashlittle2 al (key ++ rest) (zlen key) pc pb = Ok (c, b).
Proof.
  intros al key rest pc pb A Bk Br Rd. unfold my_hashlittle2. pose proof (start_little2 (zlen key) pc pb) as E. cbv zeta in *. rewrite E.
  destruct (body_ok key rest (start (zlen key) pc pb) Bk Br (start_words _ _ _) al) as ([[a b] c] & E1 & E2); [intros Z0; apply Rd; subst al; reflexivity|]. rewrite E1. cbn [bind]. exists c, b. rewrite <- E2. auto.
Qed.
Print Assumptions C125_hashlittle2.
Theorem C125_hashbig : forall key rest seed, bytes_ok key -> my_hashbig (key ++ rest) (zlen key) seed = Ok (snd (spec_hash 12 (be_word key) (zlen key) (start (zlen key) seed 0))).
Proof.
  intros key rest seed Bk. unfold my_hashbig. pose proof (start_little (zlen key) seed) as E. cbv zeta in *. rewrite E.
  destruct (big_ok key rest (start (zlen key) seed 0) Bk (start_words _ _ _)) as (f & o & E1 & E2). destruct (h1_loop big_block _ _ _ _) as [[[k len] s]| | |] eqn:H; cbn [bind] in *; try discriminate.
  destruct (h1_last big_cases k len s) as [o'| | |]; cbn [bind] in *; try discriminate. assert (s = f /\ o' = o) as [-> ->] by (split; congruence). rewrite <- E2. destruct (match o with Some s => final s | None => f end) as [[a b] c]. reflexivity.
Qed.
Print Assumptions C125_hashbig.
Theorem C125_hashword : forall k rest seed, my_hashword (k ++ rest) (zlen k) seed = Ok (snd (spec_hash 3 (key_word k) (zlen k) (start (4 * zlen k) seed 0))).
Proof.
  intros k rest seed. unfold my_hashword. pose proof (start_word (zlen k) seed) as E. cbv zeta in *. rewrite E.
  destruct (hw_ok k rest (start (4 * zlen k) seed 0) (start_words _ _ _)) as (r & E1 & E2). destruct (hw_loop _ _ _ _) as [[[k' len] s]| | |]; cbn [bind] in *; try discriminate. rewrite E1. destruct r as [[a b] c]. cbn [bind]. rewrite <- E2. reflexivity.
Qed.
Print Assumptions C125_hashword.
Theorem C125_hashword2 : forall k rest pc pb, exists c b, spec_hash 3 (key_word k) (zlen k) (start (4 * zlen k) pc pb) = (b, c) /\ my_hashword2 (k ++ rest) (zlen k) pc pb = Ok (c, b).
Proof.
  intros k rest pc pb. unfold my_hashword2. pose proof (start_word2 (zlen k) pc pb) as E. cbv zeta in *. rewrite E.
  destruct (hw_ok k rest (start (4 * zlen k) pc pb) (start_words _ _ _)) as (r & E1 & E2). destruct (hw_loop _ _ _ _) as [[[k' len] s]| | |]; cbn [bind] in *; try discriminate. rewrite E1. destruct r as [[a b] c]. cbn [bind]. exists c, b. rewrite <- E2. auto.
Qed.
Print Assumptions C125_hashword2.
(** The values its author published (lookup3.c:982-1002). *)
Definition four_score : bytes := lit "Four score and seven years ago".
Example C125_vectors : my_hashlittle 1 four_score 30 0 = Ok 0x17770551 /\ my_hashlittle 2 four_score 30 1 = Ok 0xcd628161 /\ my_hashlittle 0 (four_score ++ [1; 2]) 30 1 = Ok 0xcd628161 /\
  my_hashlittle2 3 four_score 30 0 0 = Ok (0x17770551, 0xce7226e6) /\ my_hashlittle2 0 (four_score ++ [9; 9]) 30 0 1 = Ok (0xe3607cae, 0xbd371de4) /\
  my_hashlittle2 0 [] 0 0xdeadbeef 0xdeadbeef = Ok (0x9c093ccd, 0xbd5b7dde).
Proof. vm_compute. repeat split. Qed.
Example C125_spec_vectors : spec_hash 12 (le_word four_score) 30 (start 30 0 0) = (0xce7226e6, 0x17770551) /\ readable 0 four_score [1; 2] /\ my_hashbig four_score 30 0 = Ok (snd (spec_hash 12 (be_word four_score) 30 (start 30 0 0))).
Proof. split; [vm_compute; reflexivity|]. split; [intros _; vm_compute; discriminate|vm_compute; reflexivity]. Qed.

(** ** C126: the functions agree *)
(** Neither the address of the key nor what lies behind it matters. *)
Theorem C126_anywhere : forall al al' key rest rest' seed, 0 <= al < 4 -> 0 <= al' < 4 -> bytes_ok key -> bytes_ok rest -> bytes_ok rest' -> readable al key rest -> readable al' key rest' ->
  my_hashlittle al (key ++ rest) (zlen key) seed = my_hashlittle al' (key ++ rest') (zlen key) seed.
Proof. intros. rewrite !C125_hashlittle by auto. reflexivity. Qed.
Print Assumptions C126_anywhere.
(** With a second seed of 0 the two-valued functions give the value of the others as first value. *)
Theorem C126_little2 : forall al key rest seed, 0 <= al < 4 -> bytes_ok key -> bytes_ok rest -> readable al key rest ->
  exists c b, my_hashlittle al (key ++ rest) (zlen key) seed = Ok c /\ my_hashlittle2 al (key ++ rest) (zlen key) seed 0 = Ok (c, b).
Proof.
  intros. destruct (C125_hashlittle2 al key rest seed 0) as (c & b & E1 & E2); auto. exists c, b. split; auto. rewrite C125_hashlittle by auto. rewrite E1. reflexivity.
Qed.
Print Assumptions C126_little2.
Theorem C126_word2 : forall k rest seed, exists c b, my_hashword (k ++ rest) (zlen k) seed = Ok c /\ my_hashword2 (k ++ rest) (zlen k) seed 0 = Ok (c, b).
Proof. intros. destruct (C125_hashword2 k rest seed 0) as (c & b & E1 & E2). exists c, b. split; auto. rewrite C125_hashword. rewrite E1. reflexivity. Qed.
Print Assumptions C126_word2.
(** The octets of words, least significant first or most significant first. *)
Definition le_octets (k : list Z) : bytes := flat_map (fun x => [x mod 256; x / 2 ^ 8 mod 256; x / 2 ^ 16 mod 256; x / 2 ^ 24]) k.
Definition be_octets (k : list Z) : bytes := flat_map (fun x => [x / 2 ^ 24; x / 2 ^ 16 mod 256; x / 2 ^ 8 mod 256; x mod 256]) k.
Lemma octet_cons4 : forall a b c d l i, 0 <= i -> octet (a :: b :: c :: d :: l) (4 + i) = octet l i.
Proof. intros. unfold octet. replace (Z.to_nat (4 + i)) with (S (S (S (S (Z.to_nat i))))) by lia. reflexivity. Qed.
Lemma four_parts : forall x, is_word x -> x mod 256 + 2 ^ 8 * (x / 2 ^ 8 mod 256) + 2 ^ 16 * (x / 2 ^ 16 mod 256) + 2 ^ 24 * (x / 2 ^ 24) = x.
Proof.
  intros x X. change (2 ^ 8) with 256. change (2 ^ 16) with (256 * 256). change (2 ^ 24) with (256 * 256 * 256). rewrite <- !Z.div_div by lia.
  pose proof (Z.div_mod x 256 ltac:(lia)). pose proof (Z.div_mod (x / 256) 256 ltac:(lia)). pose proof (Z.div_mod (x / 256 / 256) 256 ltac:(lia)). lia.
Qed.
Lemma le_word_octets : forall k i, Forall is_word k -> 0 <= i -> le_word (le_octets k) i = key_word k i.
Proof.
  induction k as [|x k IH]; intros i F I.
  - unfold le_word, key_word, octet. cbn [le_octets flat_map]. destruct (Z.to_nat i), (Z.to_nat (4 * i)), (Z.to_nat (4 * i + 1)), (Z.to_nat (4 * i + 2)), (Z.to_nat (4 * i + 3)); reflexivity.
  - inversion F as [|? ? X F']; subst. change (le_octets (x :: k)) with (x mod 256 :: x / 2 ^ 8 mod 256 :: x / 2 ^ 16 mod 256 :: x / 2 ^ 24 :: le_octets k). destruct (Z.eq_dec i 0) as [->|N].
    + unfold le_word, key_word, octet. change (Z.to_nat (4 * 0)) with 0%nat. change (Z.to_nat (4 * 0 + 1)) with 1%nat. change (Z.to_nat (4 * 0 + 2)) with 2%nat. change (Z.to_nat (4 * 0 + 3)) with 3%nat. change (Z.to_nat 0) with 0%nat. cbn [nth]. apply four_parts. exact X.
    + replace (key_word (x :: k) i) with (key_word k (i - 1)) by (unfold key_word; replace (Z.to_nat i) with (S (Z.to_nat (i - 1))) by lia; reflexivity). rewrite <- IH by (auto; lia). unfold le_word.
      replace (4 * i) with (4 + 4 * (i - 1)) by lia. rewrite <- !Z.add_assoc. rewrite !octet_cons4 by lia. reflexivity.
Qed.
Lemma be_word_octets : forall k i, Forall is_word k -> 0 <= i -> be_word (be_octets k) i = key_word k i.
Proof.
  induction k as [|x k IH]; intros i F I.
  - unfold be_word, key_word, octet. cbn [be_octets flat_map]. destruct (Z.to_nat i), (Z.to_nat (4 * i)), (Z.to_nat (4 * i + 1)), (Z.to_nat (4 * i + 2)), (Z.to_nat (4 * i + 3)); reflexivity.
  - inversion F as [|? ? X F']; subst. change (be_octets (x :: k)) with (x / 2 ^ 24 :: x / 2 ^ 16 mod 256 :: x / 2 ^ 8 mod 256 :: x mod 256 :: be_octets k). destruct (Z.eq_dec i 0) as [->|N].
    + unfold be_word, key_word, octet. change (Z.to_nat (4 * 0)) with 0%nat. change (Z.to_nat (4 * 0 + 1)) with 1%nat. change (Z.to_nat (4 * 0 + 2)) with 2%nat. change (Z.to_nat (4 * 0 + 3)) with 3%nat. change (Z.to_nat 0) with 0%nat. cbn [nth]. pose proof (four_parts x X). lia.
    + replace (key_word (x :: k) i) with (key_word k (i - 1)) by (unfold key_word; replace (Z.to_nat i) with (S (Z.to_nat (i - 1))) by lia; reflexivity). rewrite <- IH by (auto; lia). unfold be_word.
      replace (4 * i) with (4 + 4 * (i - 1)) by lia. rewrite <- !Z.add_assoc. rewrite !octet_cons4 by lia. reflexivity.
Qed.
Lemma mixed_ext : forall f g s j, (forall i, 0 <= i -> f i = g i) -> mixed f s j = mixed g s j.
Proof. intros f g s j H. induction j as [|j IH]; [reflexivity|]. cbn [mixed]. rewrite IH. unfold add_block. rewrite !H by lia. reflexivity. Qed.
Lemma per_words : forall f g n s, 0 <= n -> (forall i, 0 <= i -> f i = g i) -> spec_hash 12 f (4 * n) s = spec_hash 3 g n s.
Proof.
  intros f g n s N H. unfold spec_hash. replace (4 * n =? 0) with (n =? 0) by lia. destruct (n =? 0) eqn:E; [reflexivity|].
  replace ((4 * n - 1) / 12) with ((n - 1) / 3).
  - rewrite (mixed_ext f g) by auto. unfold add_block. assert (0 <= (n - 1) / 3) by (apply Z.div_pos; lia). rewrite !H by lia. reflexivity.
  - pose proof (Z.div_mod (n - 1) 3 ltac:(lia)). pose proof (Z.mod_pos_bound (n - 1) 3 ltac:(lia)). apply Z.div_unique with (4 * ((n - 1) mod 3) + 3); lia.
Qed.
Lemma le_octets_ok : forall k, Forall is_word k -> bytes_ok (le_octets k) /\ zlen (le_octets k) = 4 * zlen k.
Proof.
  induction k as [|x k IH]; intros F; [split; [constructor|reflexivity]|]. inversion F as [|? ? X F']; subst. destruct (IH F') as [A B]. change (le_octets (x :: k)) with (x mod 256 :: x / 2 ^ 8 mod 256 :: x / 2 ^ 16 mod 256 :: x / 2 ^ 24 :: le_octets k). split; [|zlia].
  unfold is_word in X. repeat (apply Forall_cons; [|]); auto; unfold is_byte; try (apply Z.mod_pos_bound; lia). split; [apply Z.div_pos; lia|apply Z.div_lt_upper_bound; [lia|change (2 ^ 24 * 256) with (2 ^ 32); lia]].
Qed.
Lemma be_octets_ok : forall k, Forall is_word k -> bytes_ok (be_octets k) /\ zlen (be_octets k) = 4 * zlen k.
Proof.
  induction k as [|x k IH]; intros F; [split; [constructor|reflexivity]|]. inversion F as [|? ? X F']; subst. destruct (IH F') as [A B]. change (be_octets (x :: k)) with (x / 2 ^ 24 :: x / 2 ^ 16 mod 256 :: x / 2 ^ 8 mod 256 :: x mod 256 :: be_octets k). split; [|zlia].
  unfold is_word in X. repeat (apply Forall_cons; [|]); auto; unfold is_byte; try (apply Z.mod_pos_bound; lia). split; [apply Z.div_pos; lia|apply Z.div_lt_upper_bound; [lia|change (2 ^ 24 * 256) with (2 ^ 32); lia]].
Qed.
(** my_hashword of words is my_hashlittle of their octets, wherever these are, and my_hashbig of their octets in network order. *)
Theorem C126_words : forall al k seed, 0 <= al < 4 -> Forall is_word k ->
  my_hashlittle al (le_octets k) (4 * zlen k) seed = my_hashword k (zlen k) seed /\ my_hashbig (be_octets k) (4 * zlen k) seed = my_hashword k (zlen k) seed.
Proof.
  intros al k seed A F. destruct (le_octets_ok k F) as [B L]. destruct (be_octets_ok k F) as [B2 L2]. pose proof (zlen_nonneg _ k) as N0. pose proof (C125_hashword k [] seed) as W. rewrite app_nil_r in W. rewrite W. split.
  - pose proof (C125_hashlittle al (le_octets k) [] seed A B ltac:(constructor)) as Q. rewrite app_nil_r, L in Q. rewrite Q.
    + rewrite (per_words _ (key_word k)); auto. intros. apply le_word_octets; auto.
    + intros _. rewrite app_nil_r, L. replace (4 * zlen k + 3) with (3 + zlen k * 4) by ring. rewrite Z.div_add by lia. change (3 / 4) with 0. lia.
  - pose proof (C125_hashbig (be_octets k) [] seed B2) as Q. rewrite app_nil_r, L2 in Q. rewrite Q. rewrite (per_words _ (key_word k)); auto. intros. apply be_word_octets; auto.
Qed.
Print Assumptions C126_words.
Example C126_example : my_hashlittle 0 (le_octets [1; 2; 3; 4; 0xffffffff]) 20 7 = my_hashword [1; 2; 3; 4; 0xffffffff] 5 7 /\ my_hashword [1; 2; 3; 4; 0xffffffff] 5 7 <> my_hashword [1; 2; 3; 4; 0xfffffffe] 5 7.
Proof. vm_compute. split; [reflexivity|discriminate]. Qed.

(** ** C127: reads behind the key *)
(** An aligned key whose length is not a multiple of 4 is read up to the end of its last aligned group of 4 octets: without octets there it is
    undefined behaviour. *)
Theorem C127_aligned : forall key rest seed, bytes_ok key -> bytes_ok rest ->
  (my_hashlittle 0 (key ++ rest) (zlen key) seed = UB OobRead <-> zlen key + zlen rest < 4 * ((zlen key + 3) / 4)).
Proof.
  intros key rest seed Bk Br. split.
  - intros E. destruct (Z_lt_dec (zlen key + zlen rest) (4 * ((zlen key + 3) / 4))) as [H|H]; auto. rewrite C125_hashlittle in E by (first [assumption | lia | intros _; zlia]). discriminate.
  - intros H. unfold my_hashlittle. pose proof (start_little (zlen key) seed) as E. cbv zeta in *. rewrite E. rewrite body_fault; auto using start_words. zlia.
Qed.
Print Assumptions C127_aligned.
(** Nothing outside that group is ever read: three octets behind the key always suffice, whatever they are. And a key at any other address,
    or of a length that is a multiple of 4, is read exactly. *)
Theorem C127_reach : forall al key rest seed, 0 <= al < 4 -> bytes_ok key -> bytes_ok rest -> 3 <= zlen rest \/ al <> 0 \/ zlen key mod 4 = 0 ->
  exists v, my_hashlittle al (key ++ rest) (zlen key) seed = Ok v.
Proof.
  intros al key rest seed A Bk Br H. eexists. apply C125_hashlittle; auto. intros Z0. zl. pose proof (zlen_nonneg _ rest). pose proof (Z.div_mod (zlen key + 3) 4 ltac:(lia)). pose proof (Z.mod_pos_bound (zlen key + 3) 4 ltac:(lia)).
  destruct H as [H|[H|H]]; [lia|rewrite Z.mod_small in Z0 by lia; lia|]. pose proof (Z.div_mod (zlen key) 4 ltac:(lia)). replace (zlen key + 3) with (3 + (zlen key / 4) * 4) by lia. rewrite Z.div_add by lia. change (3 / 4) with 0. lia.
Qed.
Print Assumptions C127_reach.
Example C127_example : my_hashlittle 0 [1; 2; 3; 4; 5] 5 0 = UB OobRead /\ my_hashlittle 0 [1; 2; 3; 4; 5; 6; 7] 5 0 = UB OobRead /\ my_hashlittle 0 [1; 2; 3; 4; 5; 6; 7; 8] 5 0 = my_hashlittle 1 [1; 2; 3; 4; 5] 5 0.
Proof. vm_compute. auto. Qed.

(** ** C128: mixing loses nothing *)
(** The step from one block to the next keeps different states different. *)
Theorem C128_mix : forall s t, words s -> words t -> mix s = mix t -> s = t.
Proof. intros s t Ws Wt E. rewrite !mix_ok in E by auto. apply spec_mix_inj in E; auto. Qed.
Print Assumptions C128_mix.
(** Therefore keys can be made to meet at will: whatever the seeds and whatever the first three words of two keys are, for each last block of the one there is
    a last block of the other with which both hash values are the same. *)
Theorem C128_collisions : forall x0 x1 x2 y0 y1 y2 z0 z1 z2 pc pb, exists v0 v1 v2, is_word v0 /\ is_word v1 /\ is_word v2 /\
  my_hashword2 [x0; x1; x2; y0; y1; y2] 6 pc pb = my_hashword2 [z0; z1; z2; v0; v1; v2] 6 pc pb.
Proof.
  intros. pose proof (C125_hashword2 [x0; x1; x2; y0; y1; y2] [] pc pb) as (c & b & E1 & E2). change (zlen [x0; x1; x2; y0; y1; y2]) with 6 in *. rewrite app_nil_r in E2. rewrite E2.
  set (s := start (4 * 6) pc pb) in *. set (p := spec_mix (add3 s x0 x1 x2)). set (q := spec_mix (add3 s z0 z1 z2)). assert (Wq : words q) by apply spec_mix_words, add3_words.
  destruct p as [[p0 p1] p2] eqn:Ep, q as [[q0 q1] q2] eqn:Eq. exists ((p0 + y0 - q0) mod 2 ^ 32), ((p1 + y1 - q1) mod 2 ^ 32), ((p2 + y2 - q2) mod 2 ^ 32). repeat (split; [apply mod_word|]).
  pose proof (C125_hashword2 [z0; z1; z2; (p0 + y0 - q0) mod 2 ^ 32; (p1 + y1 - q1) mod 2 ^ 32; (p2 + y2 - q2) mod 2 ^ 32] [] pc pb) as (c' & b' & E3 & E4). rewrite app_nil_r in E4. change (zlen (z0 :: _)) with 6 in E3, E4. fold s in E3.
  rewrite E4. assert (Q : spec_hash 3 (key_word [x0; x1; x2; y0; y1; y2]) 6 s = spec_hash 3 (key_word [z0; z1; z2; (p0 + y0 - q0) mod 2 ^ 32; (p1 + y1 - q1) mod 2 ^ 32; (p2 + y2 - q2) mod 2 ^ 32]) 6 s).
  { unfold spec_hash. change (6 =? 0) with false. cbv iota zeta. change ((6 - 1) / 3) with 1. change (Z.to_nat 1) with 1%nat. cbn [mixed]. change (Z.of_nat 0) with 0. unfold add_block.
    repeat match goal with |- context [key_word ?l ?t] => let n := eval vm_compute in t in progress change t with n end. unfold key_word.
    repeat match goal with |- context [Z.to_nat ?t] => let n := eval vm_compute in (Z.to_nat t) in change (Z.to_nat t) with n end. cbn [nth]. fold p q. rewrite Ep, Eq. unfold add3.
    assert (M : forall u v w, (u + (v + w - u) mod 2 ^ 32) mod 2 ^ 32 = (v + w) mod 2 ^ 32) by (intros; rewrite Zplus_mod_idemp_r; f_equal; ring). rewrite !M. reflexivity. }
  rewrite E1, E3 in Q. congruence.
Qed.
Print Assumptions C128_collisions.
Example C128_example : my_hashword2 [1; 2; 3; 4; 5; 6] 6 0 0 = Ok (3823332133, 1623997681) /\ my_hashword2 [7; 7; 7; 2945523364; 1436651540; 4254054834] 6 0 0 = Ok (3823332133, 1623997681) /\
  words (1, 2, 3) /\ mix (1, 2, 3) <> mix (1, 2, 4).
Proof. split; [vm_compute; reflexivity|]. split; [vm_compute; reflexivity|]. split; [cbn; unfold is_word; lia|vm_compute; discriminate]. Qed.
