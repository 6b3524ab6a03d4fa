(** PropVarint.v: C74 and C75, libmy/varint.c. *)
From Verif Require Import Base Lib ModelVarint SpecVarint ProofVarint.

(** ** Encoding: the shortest base-128 form of the number, of the length varint_length announces *)
Theorem C74_encode64 : forall v, 0 <= v < 2 ^ 64 ->
  exists l, varint_encode64 v = Ok l /\ whole l /\ shortest l /\ groups l = v /\ varint_length v = Ok (zlen l) /\ 1 <= zlen l <= 10.
Proof.
  intros v V. change (2 ^ 64) with 18446744073709551616 in V. destruct (encode64_loop_ok 10 v 1) as (l & E & W & S0 & G & L & _); [change (128 ^ Z.of_nat 11) with 151115727451828646838272; lia|lia|reflexivity|].
  exists l. split; [exact E|]. split; [exact W|]. split; [exact S0|]. split; [exact G|]. split; [unfold varint_length; rewrite L; f_equal; lia|].
  destruct (groups_size l W S0) as [[X Y]|[X Y]]; [lia|]. split; [lia|]. destruct (Z_le_gt_dec (zlen l) 10) as [Q|Q]; [exact Q|]. exfalso.
  assert (128 ^ 10 <= 128 ^ (zlen l - 1)) by (apply Z.pow_le_mono_r; lia). change (128 ^ 10) with 1180591620717411303424 in *. lia.
Qed.
Print Assumptions C74_encode64.
Theorem C74_encode32 : forall v, 0 <= v < 2 ^ 32 ->
  varint_encode64 v = Ok (varint_encode32 v) /\ whole (varint_encode32 v) /\ shortest (varint_encode32 v) /\ groups (varint_encode32 v) = v /\
  varint_length v = Ok (zlen (varint_encode32 v)) /\ 1 <= zlen (varint_encode32 v) <= 5.
Proof.
  intros v V. destruct (C74_encode64 v) as (l & E & W & S0 & G & L & B); [change (2 ^ 64) with 18446744073709551616; change (2 ^ 32) with 4294967296 in V; lia|].
  pose proof (encode32_64 v V) as X. rewrite X in E. injection E as <-. split; [exact X|]. split; [exact W|]. split; [exact S0|]. split; [exact G|]. split; [exact L|].
  split; [lia|]. unfold varint_encode32. repeat match goal with |- context [if ?b then _ else _] => destruct b end; cbv; discriminate.
Qed.
Print Assumptions C74_encode32.
(** The shortest form of a number is unique, so the encoder's output is determined by the two theorems above. *)
Theorem C74_unique : forall l l', whole l -> shortest l -> whole l' -> shortest l' -> groups l = groups l' -> l = l'.
Proof.
  assert (POS : forall l, whole l -> shortest l -> l <> [0] -> 0 < groups l).
  { intros l W S0 N. destruct (groups_size l W S0) as [[X Y]|[X Y]].
    - destruct l as [|a [|b l]]; [discriminate| |rewrite !zlen_cons in X; pose proof (zlen_nonneg _ l); lia]. cbn [groups]. destruct (whole_inv _ _ W) as [[_ B]|[_ B]]; [|destruct (whole_nil B)]. rewrite Z.mod_small by lia. assert (a <> 0) by congruence. lia.
    - assert (0 < 128 ^ (zlen l - 1)) by (apply Z.pow_pos_nonneg; lia). lia. }
  assert (TL : forall b l, whole (b :: l) -> shortest (b :: l) -> whole l -> shortest l /\ l <> [0]).
  { intros b l W S0 W'. split; [intros i E; subst l; specialize (S0 (b :: i) eq_refl); discriminate|intros ->; specialize (S0 [b] eq_refl); discriminate]. }
  induction l as [|b l IH]; intros l' W S0 W' S1 G; [destruct (whole_nil W)|]. destruct l' as [|b' l']; [destruct (whole_nil W')|].
  cbn [groups] in G. pose proof (Z.mod_pos_bound b 128 ltac:(lia)). pose proof (Z.mod_pos_bound b' 128 ltac:(lia)).
  destruct (whole_inv _ _ W) as [[-> B]|[B V]]; destruct (whole_inv _ _ W') as [[-> B']|[B' V']]; cbn [groups] in G.
  - rewrite !Z.mod_small in G by lia. f_equal. lia.
  - destruct (TL _ _ W' S1 V') as [T1 T2]. pose proof (POS _ V' T1 T2). lia.
  - destruct (TL _ _ W S0 V) as [T1 T2]. pose proof (POS _ V T1 T2). lia.
  - destruct (TL _ _ W S0 V) as [T1 T2]. destruct (TL _ _ W' S1 V') as [T1' T2']. rewrite (IH l') by (auto; lia). f_equal.
    pose proof (Z.div_mod b 128 ltac:(lia)). pose proof (Z.div_mod b' 128 ltac:(lia)). assert (b / 128 = 1) by (symmetry; apply Z.div_unique with (b - 128); lia). assert (b' / 128 = 1) by (symmetry; apply Z.div_unique with (b' - 128); lia). lia.
Qed.
Print Assumptions C74_unique.

(** ** The length of a varint in memory: up to and including the first octet below 128; 0 if there is none in the first n.
    No octet behind it, or behind the first n, is read: [rest] may be empty. *)
Theorem C74_length_packed : forall l rest n, 0 <= n < 2 ^ 32 ->
  (whole l -> zlen l <= n -> varint_length_packed (l ++ rest) n = Ok (zlen l)) /\
  (Forall (fun b => 128 <= b < 256) l -> zlen l = n -> varint_length_packed (l ++ rest) n = Ok 0).
Proof. intros l rest n N. split; [intros W L; apply length_packed_whole; [exact W|lia]|intros F E; subst n; apply length_packed_none; [exact F|lia]]. Qed.
Print Assumptions C74_length_packed.

(** ** Decoding what is in memory, shortest form or not; the compiler may be a strict one (any [strict]) *)
Theorem C74_decode64 : forall strict l rest,
  (whole l -> zlen l <= 10 -> varint_decode64 strict (l ++ rest) = Ok (zlen l, groups l mod 2 ^ 64)) /\
  (Forall (fun b => 128 <= b < 256) l -> zlen l = 10 -> exists v, varint_decode64 strict (l ++ rest) = Ok (0, v)).
Proof. intros strict l rest. split; [apply decode64_ok|apply decode64_none]. Qed.
Print Assumptions C74_decode64.
Theorem C74_decode32 : forall strict l rest,
  (whole l -> zlen l <= 5 -> strict = false \/ groups l < 2 ^ 31 -> varint_decode32 strict (l ++ rest) = Ok (zlen l, groups l mod 2 ^ 32)) /\
  (Forall (fun b => 128 <= b < 256) l -> zlen l = 5 -> exists v, varint_decode32 strict (l ++ rest) = Ok (0, v)).
Proof.
  intros strict l rest. split; [|apply decode32_none]. intros W L H. rewrite decode32_ok by auto. destruct H as [->|H]; [reflexivity|]. replace (2 ^ 31 <=? groups l) with false by lia. rewrite andb_false_r. reflexivity.
Qed.
Print Assumptions C74_decode32.

(** ** Round trips *)
Theorem C74_roundtrip64 : forall strict v rest, 0 <= v < 2 ^ 64 ->
  exists l, varint_encode64 v = Ok l /\ varint_decode64 strict (l ++ rest) = Ok (zlen l, v).
Proof.
  intros strict v rest V. destruct (C74_encode64 v V) as (l & E & W & _ & G & _ & B). exists l. split; [exact E|]. rewrite decode64_ok by (auto; lia). rewrite G, Z.mod_small by lia. reflexivity.
Qed.
Print Assumptions C74_roundtrip64.
Theorem C74_roundtrip32 : forall v rest, 0 <= v < 2 ^ 32 -> varint_decode32 false (varint_encode32 v ++ rest) = Ok (zlen (varint_encode32 v), v).
Proof.
  intros v rest V. destruct (C74_encode32 v V) as (_ & W & _ & G & _ & B). rewrite decode32_ok by (auto; lia). cbn [andb]. rewrite G, Z.mod_small by lia. reflexivity.
Qed.
Print Assumptions C74_roundtrip32.

(** ** Strict C: the shift of the fifth octet overflows an int, for exactly the numbers from 2^31 on *)
Theorem C75_roundtrip32_partial : forall v rest, 0 <= v < 2 ^ 31 -> varint_decode32 true (varint_encode32 v ++ rest) = Ok (zlen (varint_encode32 v), v).
Proof.
  intros v rest V. change (2 ^ 31) with 2147483648 in V. assert (V' : 0 <= v < 2 ^ 32) by (change (2 ^ 32) with 4294967296; lia). destruct (C74_encode32 v V') as (_ & W & _ & G & _ & B). rewrite decode32_ok by (auto; lia). rewrite G. replace (2 ^ 31 <=? v) with false by (change (2 ^ 31) with 2147483648; lia). cbn [andb]. rewrite Z.mod_small by exact V'. reflexivity.
Qed.
Print Assumptions C75_roundtrip32_partial.
Theorem C75_roundtrip32_refuted : forall v rest, 2 ^ 31 <= v < 2 ^ 32 -> varint_decode32 true (varint_encode32 v ++ rest) = UB BadShift.
Proof.
  intros v rest V. assert (V' : 0 <= v < 2 ^ 32) by (split; [apply Z.le_trans with (2 ^ 31); [discriminate|tauto]|tauto]). destruct (C74_encode32 v V') as (_ & W & _ & G & _ & B). rewrite decode32_ok by (auto; lia). rewrite G. replace (2 ^ 31 <=? v) with true by lia. reflexivity.
Qed.
Print Assumptions C75_roundtrip32_refuted.

(** Concrete cases. *)
Example C74_ex : varint_encode64 300 = Ok [172; 2] /\ varint_length 300 = Ok 2 /\ varint_decode64 true ([172; 2] ++ [7; 7]) = Ok (2, 300) /\
  varint_encode64 (2 ^ 64 - 1) = Ok [255; 255; 255; 255; 255; 255; 255; 255; 255; 1] /\ varint_decode64 true [255; 255; 255; 255; 255; 255; 255; 255; 255; 1] = Ok (10, 2 ^ 64 - 1).
Proof. vm_compute. repeat split; reflexivity. Qed.
Example C74_ex_whole : whole [172; 2] /\ shortest [172; 2] /\ groups [172; 2] = 300.
Proof. split; [exists [172], 2; repeat split; try lia; constructor; [lia|constructor]|]. split; [|reflexivity]. intros [|a [|b [|c i]]] E; try discriminate; reflexivity. Qed.
Example C74_ex_overlong : varint_decode64 true [128; 0] = Ok (2, 0) /\ varint_decode32 false [255; 255; 255; 255; 127] = Ok (5, 4294967295) /\ varint_length_packed [128; 128; 1] 2 = Ok 0.
Proof. vm_compute. repeat split; reflexivity. Qed.
