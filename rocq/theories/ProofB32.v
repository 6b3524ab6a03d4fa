(** ProofB32.v: base32hex. *)
From Verif Require Import Base Lib ModelName SpecName Libc ModelFormat SpecFormat ProofFormat ProofInet ProofB64.

Lemma forall_small : forall n (f : Z -> bool), forallb f (map Z.of_nat (seq 0 n)) = true -> forall x, 0 <= x < Z.of_nat n -> f x = true.
Proof.
  intros n f G x H. rewrite forallb_forall in G. apply G. apply in_map_iff. exists (Z.to_nat x). split; [lia|apply in_seq; lia].
Qed.
Ltac zdm := Z.to_euclidean_division_equations; lia.

Definition b32_groups (x0 x1 x2 x3 x4 : Z) : list Z :=
  [ x0 / 8; x0 mod 8 * 4 + x1 / 64; x1 / 2 mod 32; x1 mod 2 * 16 + x2 / 16; x2 mod 16 * 2 + x3 / 128; x3 / 4 mod 32; x3 mod 4 * 8 + x4 / 32; x4 mod 32 ].

Lemma b32_values_eq : forall a b c d e, is_byte a -> is_byte b -> is_byte c -> is_byte d -> is_byte e ->
  b32_values a b c d e = b32_groups a b c d e.
Proof.
  intros a b c d e Ha Hb Hc Hd He. unfold b32_values, b32_groups, is_byte in *.
  assert (R : forall x k, 0 <= k -> Z.shiftr x k = x / 2 ^ k) by (intros; apply Z.shiftr_div_pow2; lia).
  assert (L : forall x k, 0 <= k -> Z.shiftl x k = x * 2 ^ k) by (intros; apply Z.shiftl_mul_pow2; lia).
  assert (M : forall x k, 0 <= k -> Z.land x (2 ^ k - 1) = x mod 2 ^ k) by (intros; apply land_mod; lia).
  assert (M1 : forall x, Z.land x 1 = x mod 2) by (intros; apply (M x 1); lia).
  assert (M2 : forall x, Z.land x 3 = x mod 4) by (intros; apply (M x 2); lia).
  assert (M3 : forall x, Z.land x 7 = x mod 8) by (intros; apply (M x 3); lia).
  assert (M4 : forall x, Z.land x 15 = x mod 16) by (intros; apply (M x 4); lia).
  assert (M5 : forall x, Z.land x 31 = x mod 32) by (intros; apply (M x 5); lia).
  rewrite M1, M2, M3, M4, !M5, !R, !L by lia.
  change (2 ^ 1) with 2. change (2 ^ 2) with 4. change (2 ^ 3) with 8. change (2 ^ 4) with 16. change (2 ^ 5) with 32. change (2 ^ 6) with 64. change (2 ^ 7) with 128.
  rewrite lor4, lor16 by zdm.
  replace (Z.lor (c mod 16 * 2) (d / 128)) with (c mod 16 * 2 + d / 128) by (symmetry; apply (lor_add (c mod 16) (d / 128) 1); zdm).
  replace (Z.lor (d mod 4 * 8) (e / 32)) with (d mod 4 * 8 + e / 32) by (symmetry; apply (lor_add (d mod 4) (e / 32) 3); zdm).
  reflexivity.
Qed.

Lemma b32_rd : forall v, 0 <= v < 32 -> rd b32_alphabet v = Ok (b32_char v).
Proof.
  intros v H. assert (G : match rd b32_alphabet v with Ok c => c | _ => -1 end = b32_char v).
  { apply Z.eqb_eq. revert v H. apply (forall_small 32 (fun v => match rd b32_alphabet v with Ok c => c | _ => -1 end =? b32_char v)). vm_compute. reflexivity. }
  destruct (rd_cases b32_alphabet v) as [(b & E & _)|[_ N]].
  - rewrite E in *. congruence.
  - exfalso. apply N. change (zlen b32_alphabet) with 32. lia.
Qed.

Lemma b32_emit_spec : forall vs size dst, Forall (fun v => 0 <= v < 32) vs -> zlen dst + zlen vs < size ->
  b32_emit vs size dst = Ok (dst ++ map b32_char vs).
Proof.
  induction vs as [|v vs IH]; intros size dst F L.
  - cbn [b32_emit map]. rewrite app_nil_r. reflexivity.
  - inversion F; subst. rewrite zlen_cons in L. pose proof (zlen_nonneg _ vs). cbn [b32_emit].
    replace (zlen dst =? size) with false by lia. rewrite b32_rd by auto. cbn [bind].
    rewrite push_ok by (change (zlen [b32_char v]) with 1; lia). cbn [bind].
    rewrite IH by (auto; rewrite zlen_app; change (zlen [b32_char v]) with 1; lia). rewrite <- app_assoc. reflexivity.
Qed.

Lemma groups_ok : forall a b c d e, is_byte a -> is_byte b -> is_byte c -> is_byte d -> is_byte e ->
  Forall (fun v => 0 <= v < 32) (b32_groups a b c d e).
Proof. intros. unfold is_byte in *. repeat (apply Forall_cons || apply Forall_nil); zdm. Qed.

Lemma byte0 : is_byte 0. Proof. unfold is_byte; lia. Qed.

(** One group of five octets or a shorter last group. *)
Lemma b32_step : forall n data size dst, bytes_ok data -> data <> [] -> zlen dst + zlen (base32hex (firstn 5 data)) < size ->
  b32_loop (S n) data size dst =
  match skipn 5 data with
  | [] => Ok (dst ++ base32hex data)
  | r => b32_loop n r size (dst ++ base32hex (firstn 5 data))
  end.
Proof.
  intros n data size dst F N L. pose proof byte0.
  destruct data as [|a [|b [|c [|d [|e r]]]]]; [congruence| | | | |]; cbn [b32_loop];
    repeat match goal with H : bytes_ok (_ :: _) |- _ => apply bytes_ok_cons in H as [? H] end;
    cbn [firstn base32hex] in L; rewrite ?zlen_app, ?zlen_map in L; rewrite ?zlen_cons, !zlen_nil in L.
  - change (zlen [a]) with 1. cbv zeta. cbn [nth]. rewrite b32_values_eq by auto. match goal with |- context [firstn (Z.to_nat ?k) ?l] => let v := eval cbv [firstn b32_groups] in (firstn (Z.to_nat k) l) in let v := eval cbv [Z.to_nat Pos.to_nat Pos.iter_op Nat.add firstn b32_groups] in (firstn (Z.to_nat k) l) in change (firstn (Z.to_nat k) l) with v end.
    unfold is_byte in *. replace (a mod 8 * 4 + 0 / 64) with (a mod 8 * 4) by zdm.
    rewrite b32_emit_spec by ((repeat (apply Forall_cons || apply Forall_nil); zdm) || (rewrite ?zlen_cons, ?zlen_nil; lia)). cbn [bind skipn].
    rewrite zlen_app. change (zlen (map b32_char [a / 8; a mod 8 * 4])) with 2. replace (zlen dst + 2 =? size) with false by lia. reflexivity.
  - change (zlen [a; b]) with 2. cbv zeta. cbn [nth]. rewrite b32_values_eq by auto. match goal with |- context [firstn (Z.to_nat ?k) ?l] => let v := eval cbv [firstn b32_groups] in (firstn (Z.to_nat k) l) in let v := eval cbv [Z.to_nat Pos.to_nat Pos.iter_op Nat.add firstn b32_groups] in (firstn (Z.to_nat k) l) in change (firstn (Z.to_nat k) l) with v end.
    unfold is_byte in *. replace (b mod 2 * 16 + 0 / 16) with (b mod 2 * 16) by zdm.
    rewrite b32_emit_spec by ((repeat (apply Forall_cons || apply Forall_nil); zdm) || (rewrite ?zlen_cons, ?zlen_nil; lia)). cbn [bind skipn].
    rewrite zlen_app. change (zlen (map b32_char [a / 8; a mod 8 * 4 + b / 64; b / 2 mod 32; b mod 2 * 16])) with 4. replace (zlen dst + 4 =? size) with false by lia. reflexivity.
  - change (zlen [a; b; c]) with 3. cbv zeta. cbn [nth]. rewrite b32_values_eq by auto. match goal with |- context [firstn (Z.to_nat ?k) ?l] => let v := eval cbv [firstn b32_groups] in (firstn (Z.to_nat k) l) in let v := eval cbv [Z.to_nat Pos.to_nat Pos.iter_op Nat.add firstn b32_groups] in (firstn (Z.to_nat k) l) in change (firstn (Z.to_nat k) l) with v end.
    unfold is_byte in *. replace (c mod 16 * 2 + 0 / 128) with (c mod 16 * 2) by zdm.
    rewrite b32_emit_spec by ((repeat (apply Forall_cons || apply Forall_nil); zdm) || (rewrite ?zlen_cons, ?zlen_nil; lia)). cbn [bind skipn].
    rewrite zlen_app, zlen_map. match goal with |- context [zlen dst + zlen ?l =? size] => change (zlen l) with 5 end. replace (zlen dst + 5 =? size) with false by lia. reflexivity.
  - change (zlen [a; b; c; d]) with 4. cbv zeta. cbn [nth]. rewrite b32_values_eq by auto. match goal with |- context [firstn (Z.to_nat ?k) ?l] => let v := eval cbv [firstn b32_groups] in (firstn (Z.to_nat k) l) in let v := eval cbv [Z.to_nat Pos.to_nat Pos.iter_op Nat.add firstn b32_groups] in (firstn (Z.to_nat k) l) in change (firstn (Z.to_nat k) l) with v end.
    unfold is_byte in *. replace (d mod 4 * 8 + 0 / 32) with (d mod 4 * 8) by zdm.
    rewrite b32_emit_spec by ((repeat (apply Forall_cons || apply Forall_nil); zdm) || (rewrite ?zlen_cons, ?zlen_nil; lia)). cbn [bind skipn].
    rewrite zlen_app, zlen_map. match goal with |- context [zlen dst + zlen ?l =? size] => change (zlen l) with 7 end. replace (zlen dst + 7 =? size) with false by lia. reflexivity.
  - assert (K : match zlen (a :: b :: c :: d :: e :: r) with 4 => 7 | 3 => 5 | 2 => 4 | 1 => 2 | _ => 8 end = 8).
    { pose proof (zlen_nonneg _ r). assert (zlen (a :: b :: c :: d :: e :: r) >= 5) by (rewrite !zlen_cons; lia).
      destruct (zlen (a :: b :: c :: d :: e :: r)) as [|p|p]; try lia. destruct p as [[p|p|]|[p|[p|p|]|]|]; try reflexivity; lia. }
    rewrite K. cbv zeta. cbn [nth]. rewrite b32_values_eq by auto.
    replace (firstn (Z.to_nat 8) (b32_groups a b c d e)) with (b32_groups a b c d e) by reflexivity.
    rewrite b32_emit_spec by (auto using groups_ok; change (zlen (b32_groups a b c d e)) with 8; lia). cbn [bind].
    rewrite zlen_app, zlen_map. change (zlen (b32_groups a b c d e)) with 8. replace (zlen dst + 8 =? size) with false by lia.
    cbn [skipn firstn]. destruct r; cbn [base32hex]; rewrite app_nil_r; reflexivity.
Qed.

Lemma base32hex_app5 : forall a b c d e r, base32hex (a :: b :: c :: d :: e :: r) = map b32_char (b32_groups a b c d e) ++ base32hex r.
Proof. reflexivity. Qed.

Lemma b32_loop_spec : forall n data size dst, (length data <= n)%nat -> bytes_ok data -> data <> [] -> zlen dst + 2 * zlen data < size ->
  b32_loop n data size dst = Ok (dst ++ base32hex data).
Proof.
  induction n as [|n IH]; intros data size dst Hn F N L; [destruct data; [congruence|simpl in Hn; lia]|].
  assert (1 <= zlen data) by (destruct data; [congruence|rewrite zlen_cons; pose proof (zlen_nonneg _ data); lia]).
  assert (zlen (base32hex (firstn 5 data)) <= 2 * zlen data).
  { destruct data as [|a [|b [|c [|d [|e r]]]]]; cbn [firstn base32hex map app]; unfold zlen; cbn [length]; lia. }
  rewrite b32_step by (auto; lia).
  destruct (skipn 5 data) as [|x r] eqn:E; [reflexivity|].
  destruct data as [|a [|b [|c [|d [|e r']]]]]; try discriminate. cbn [skipn] in E. subst r'. rewrite !zlen_cons in L. pose proof (zlen_nonneg _ r).
  cbn [firstn]. rewrite IH.
  - rewrite (base32hex_app5 a b c d e (x :: r)). rewrite (base32hex_app5 a b c d e []). change (base32hex []) with (@nil Z). rewrite app_nil_r, <- app_assoc. reflexivity.
  - simpl in *. lia.
  - do 5 (apply bytes_ok_cons in F as [_ F]). exact F.
  - discriminate.
  - rewrite zlen_app, (base32hex_app5 a b c d e []). change (base32hex []) with (@nil Z). rewrite app_nil_r, zlen_map.
    change (zlen (b32_groups a b c d e)) with 8. rewrite zlen_cons. lia.
Qed.

Lemma base32_encode_spec : forall data size, bytes_ok data -> data <> [] -> 2 * zlen data < size -> base32_encode size data = Ok (base32hex data).
Proof.
  intros data size F N L. unfold base32_encode. rewrite b32_loop_spec; auto.
Qed.

(** ** Decoding *)
Lemma b32_map_char : forall v, 0 <= v < 32 -> base32_map (b32_char v) = v /\ b32_char v <> 61.
Proof.
  intros v H. assert (G : (base32_map (b32_char v) =? v) && negb (b32_char v =? 61) = true).
  { revert v H. apply (forall_small 32 (fun v => (base32_map (b32_char v) =? v) && negb (b32_char v =? 61))). vm_compute. reflexivity. }
  lia.
Qed.

(** A character in the middle of a group. *)
Lemma b32d_more : forall v c r size s dst, 0 <= v < 32 -> zlen s < 7 -> zlen dst <> size ->
  b32_dloop (b32_char v :: c :: r) size s false dst = b32_dloop (c :: r) size (s ++ [v]) false dst.
Proof.
  intros v c r size s dst H L D. destruct (b32_map_char v H) as [M N]. cbn [b32_dloop].
  replace (b32_char v =? 61) with false by lia. rewrite M. replace (v =? 255) with false by lia. cbn [negb andb orb].
  rewrite zlen_app. change (zlen [v]) with 1. replace (zlen s + 1 >? 8) with false by lia. replace (zlen s + 1 =? 8) with false by lia. cbn [orb].
  replace (zlen dst =? size) with false by lia. reflexivity.
Qed.

(** The last character of a group. *)
Lemma b32d_flush : forall v r size s dst o, 0 <= v < 32 -> zlen s <= 7 -> zlen s = 7 \/ r = [] -> b32_octets (s ++ [v]) = o -> zlen dst + zlen o <= size ->
  b32_dloop (b32_char v :: r) size s false dst =
  if zlen dst + zlen o =? size then Ok (Some (dst ++ o)) else b32_dloop r size [] false (dst ++ o).
Proof.
  intros v r size s dst o H L C O D. destruct (b32_map_char v H) as [M N]. cbn [b32_dloop].
  replace (b32_char v =? 61) with false by lia. rewrite M. replace (v =? 255) with false by lia. cbn [negb andb orb].
  rewrite zlen_app. change (zlen [v]) with 1. replace (zlen s + 1 >? 8) with false by lia.
  replace ((zlen s + 1 =? 8) || (match r with [] => true | _ :: _ => false end)) with true by (destruct C as [C| ->]; [lia|rewrite orb_true_r; reflexivity]).
  rewrite orb_false_r.
  replace ((zlen s + 1 =? 8) || (match r with [] => true | _ :: _ => false end)) with true by (destruct C as [C| ->]; [lia|rewrite orb_true_r; reflexivity]).
  rewrite O. rewrite (firstn_all2 o) by (unfold zlen in *; lia). rewrite zlen_app. reflexivity.
Qed.

Lemma lor2 : forall x y, 0 <= y < 2 -> Z.lor (x * 2) y = x * 2 + y.
Proof. intros. apply (lor_add x y 1); lia. Qed.
Lemma lor8 : forall x y, 0 <= y < 8 -> Z.lor (x * 8) y = x * 8 + y.
Proof. intros. apply (lor_add x y 3); lia. Qed.
Lemma lor32 : forall x y, 0 <= y < 32 -> Z.lor (x * 32) y = x * 32 + y.
Proof. intros. apply (lor_add x y 5); lia. Qed.
Lemma lor128 : forall x y, 0 <= y < 128 -> Z.lor (x * 128) y = x * 128 + y.
Proof. intros. apply (lor_add x y 7); lia. Qed.

Lemma octets_lor : forall v0 v1 v2 v3 v4 v5 v6 v7,
  0 <= v0 < 32 -> 0 <= v1 < 32 -> 0 <= v2 < 32 -> 0 <= v3 < 32 -> 0 <= v4 < 32 -> 0 <= v5 < 32 -> 0 <= v6 < 32 -> 0 <= v7 < 32 ->
  Z.lor (Z.land (Z.shiftl v0 3) 248) (Z.land (Z.shiftr v1 2) 7) = v0 * 8 + v1 / 4 /\
  Z.lor (Z.lor (Z.shiftl (Z.land v1 3) 6) (Z.shiftl (Z.land v2 31) 1)) (Z.land (Z.shiftr v3 4) 1) = v1 mod 4 * 64 + v2 * 2 + v3 / 16 /\
  Z.lor (Z.shiftl (Z.land v3 15) 4) (Z.land (Z.shiftr v4 1) 15) = v3 mod 16 * 16 + v4 / 2 /\
  Z.lor (Z.lor (Z.shiftl (Z.land v4 1) 7) (Z.shiftl (Z.land v5 31) 2)) (Z.land (Z.shiftr v6 3) 3) = v4 mod 2 * 128 + v5 * 4 + v6 / 8 /\
  Z.lor (Z.shiftl (Z.land v6 7) 5) (Z.land v7 31) = v6 mod 8 * 32 + v7.
Proof.
  intros v0 v1 v2 v3 v4 v5 v6 v7 H0 H1 H2 H3 H4 H5 H6 H7.
  assert (R : forall x k, 0 <= k -> Z.shiftr x k = x / 2 ^ k) by (intros; apply Z.shiftr_div_pow2; lia).
  assert (L : forall x k, 0 <= k -> Z.shiftl x k = x * 2 ^ k) by (intros; apply Z.shiftl_mul_pow2; lia).
  assert (M : forall x k, 0 <= k -> Z.land x (2 ^ k - 1) = x mod 2 ^ k) by (intros; apply land_mod; lia).
  assert (M1 : forall x, Z.land x 1 = x mod 2) by (intros; apply (M x 1); lia).
  assert (M2 : forall x, Z.land x 3 = x mod 4) by (intros; apply (M x 2); lia).
  assert (M3 : forall x, Z.land x 7 = x mod 8) by (intros; apply (M x 3); lia).
  assert (M4 : forall x, Z.land x 15 = x mod 16) by (intros; apply (M x 4); lia).
  assert (M5 : forall x, Z.land x 31 = x mod 32) by (intros; apply (M x 5); lia).
  assert (E : Z.land (Z.shiftl v0 3) 248 = v0 * 8).
  { apply Z.eqb_eq. revert v0 H0. apply (forall_small 32 (fun v0 => Z.land (Z.shiftl v0 3) 248 =? v0 * 8)). vm_compute. reflexivity. }
  rewrite E, ?M1, ?M2, ?M3, ?M4, ?M5, ?R, ?L by lia.
  change (2 ^ 1) with 2. change (2 ^ 2) with 4. change (2 ^ 3) with 8. change (2 ^ 4) with 16. change (2 ^ 5) with 32. change (2 ^ 6) with 64. change (2 ^ 7) with 128.
  repeat split.
  - rewrite lor8 by zdm. zdm.
  - rewrite lor64 by zdm.
    replace (v1 mod 4 * 64 + v2 mod 32 * 2) with ((v1 mod 4 * 32 + v2 mod 32) * 2) by lia. rewrite lor2 by zdm. zdm.
  - rewrite lor16 by zdm. zdm.
  - rewrite lor128 by zdm.
    replace (v4 mod 2 * 128 + v5 mod 32 * 4) with ((v4 mod 2 * 32 + v5 mod 32) * 4) by lia. rewrite lor4 by zdm. zdm.
  - rewrite lor32 by zdm. zdm.
Qed.

(** The values of each group length decode to the octets. *)
Lemma b32_octets_groups : forall a b c d e, is_byte a -> is_byte b -> is_byte c -> is_byte d -> is_byte e ->
  b32_octets [a / 8; a mod 8 * 4] = [a] /\
  b32_octets [a / 8; a mod 8 * 4 + b / 64; b / 2 mod 32; b mod 2 * 16] = [a; b] /\
  b32_octets [a / 8; a mod 8 * 4 + b / 64; b / 2 mod 32; b mod 2 * 16 + c / 16; c mod 16 * 2] = [a; b; c] /\
  b32_octets [a / 8; a mod 8 * 4 + b / 64; b / 2 mod 32; b mod 2 * 16 + c / 16; c mod 16 * 2 + d / 128; d / 4 mod 32; d mod 4 * 8] = [a; b; c; d] /\
  b32_octets (b32_groups a b c d e) = [a; b; c; d; e].
Proof.
  intros a b c d e Ha Hb Hc Hd He. unfold is_byte in *. unfold b32_octets, b32_groups.
  cbn [zlen length nth]. 
  repeat match goal with |- context [zlen ?l] => let v := eval vm_compute in (zlen l) in change (zlen l) with v end.
  cbv beta iota delta [Z.ltb Z.compare Pos.compare Pos.compare_cont]. 
  repeat split.
  - destruct (octets_lor (a / 8) (a mod 8 * 4) 0 0 0 0 0 0) as (-> & _); try zdm. f_equal. zdm.
  - destruct (octets_lor (a / 8) (a mod 8 * 4 + b / 64) (b / 2 mod 32) (b mod 2 * 16) 0 0 0 0) as (-> & -> & _); try zdm. repeat (f_equal; try zdm).
  - destruct (octets_lor (a / 8) (a mod 8 * 4 + b / 64) (b / 2 mod 32) (b mod 2 * 16 + c / 16) (c mod 16 * 2) 0 0 0) as (-> & -> & -> & _); try zdm. repeat (f_equal; try zdm).
  - destruct (octets_lor (a / 8) (a mod 8 * 4 + b / 64) (b / 2 mod 32) (b mod 2 * 16 + c / 16) (c mod 16 * 2 + d / 128) (d / 4 mod 32) (d mod 4 * 8) 0) as (-> & -> & -> & -> & _); try zdm. repeat (f_equal; try zdm).
  - destruct (octets_lor (a / 8) (a mod 8 * 4 + b / 64) (b / 2 mod 32) (b mod 2 * 16 + c / 16) (c mod 16 * 2 + d / 128) (d / 4 mod 32) (d mod 4 * 8 + e / 32) (e mod 32)) as (-> & -> & -> & -> & ->); try zdm. repeat (f_equal; try zdm).
Qed.

Ltac dstep := rewrite b32d_more by (first [zdm | (cbn; lia) | lia]); cbn [app].
Lemma b32_decode_spec : forall n l size dst, (length l <= n)%nat -> bytes_ok l -> zlen dst + zlen l <= size -> l <> [] ->
  b32_dloop (base32hex l) size [] false dst = Ok (Some (dst ++ l)).
Proof.
  induction n as [|n IH]; intros l size dst Hn F L N; [destruct l; [congruence|simpl in Hn; lia]|].
  pose proof byte0 as B0.
  destruct l as [|a [|b [|c [|d [|e r]]]]]; [congruence| | | | |]; repeat match goal with H : bytes_ok (_ :: _) |- _ => apply bytes_ok_cons in H as [? H] end.
  - change (zlen [a]) with 1 in L. destruct (b32_octets_groups a 0 0 0 0) as (O & _); auto. unfold is_byte in *. cbn [base32hex map].
    rewrite b32d_more by (first [zdm | (cbn; lia) | lia]). rewrite (b32d_flush _ [] _ _ _ [a]); [|zdm|cbn; lia|auto|exact O|exact L].
    change (zlen [a]) with 1. destruct (zlen dst + 1 =? size); reflexivity.
  - change (zlen [a; b]) with 2 in L. destruct (b32_octets_groups a b 0 0 0) as (_ & O & _); auto. unfold is_byte in *. cbn [base32hex map].
    do 3 dstep. rewrite (b32d_flush _ [] _ _ _ [a; b]); [|zdm|cbn; lia|auto|exact O|exact L].
    change (zlen [a; b]) with 2. destruct (zlen dst + 2 =? size); reflexivity.
  - change (zlen [a; b; c]) with 3 in L. destruct (b32_octets_groups a b c 0 0) as (_ & _ & O & _); auto. unfold is_byte in *. cbn [base32hex map].
    do 4 dstep. rewrite (b32d_flush _ [] _ _ _ [a; b; c]); [|zdm|cbn; lia|auto|exact O|exact L].
    change (zlen [a; b; c]) with 3. destruct (zlen dst + 3 =? size); reflexivity.
  - change (zlen [a; b; c; d]) with 4 in L. destruct (b32_octets_groups a b c d 0) as (_ & _ & _ & O & _); auto. unfold is_byte in *. cbn [base32hex map].
    do 6 dstep. rewrite (b32d_flush _ [] _ _ _ [a; b; c; d]); [|zdm|cbn; lia|auto|exact O|exact L].
    change (zlen [a; b; c; d]) with 4. destruct (zlen dst + 4 =? size); reflexivity.
  - rewrite !zlen_cons in L. pose proof (zlen_nonneg _ r). destruct (b32_octets_groups a b c d e) as (_ & _ & _ & _ & O); auto.
    rewrite base32hex_app5. unfold b32_groups. cbn [map app]. unfold is_byte in *.
    do 7 dstep. rewrite (b32d_flush _ _ _ _ _ [a; b; c; d; e]); [|zdm|cbn; lia|left; reflexivity|exact O|change (zlen [a; b; c; d; e]) with 5; lia].
    change (zlen [a; b; c; d; e]) with 5. destruct r as [|x r].
    + change (base32hex []) with (@nil Z). destruct (zlen dst + 5 =? size); reflexivity.
    + replace (zlen dst + 5 =? size) with false by (rewrite zlen_cons in L; pose proof (zlen_nonneg _ r); lia).
      rewrite IH; [rewrite <- app_assoc; reflexivity|simpl in *; lia|auto|rewrite zlen_app; change (zlen [a; b; c; d; e]) with 5; lia|discriminate].
Qed.

Lemma base32_roundtrip : forall l size, bytes_ok l -> l <> [] -> zlen l <= size -> base32_decode size (base32hex l) = Ok (Some l).
Proof. intros l size F N L. unfold base32_decode. rewrite (b32_decode_spec (length l)); auto. Qed.

(** Letter case does not matter. *)
Lemma toupper_61 : forall c, (toupper c =? 61) = (c =? 61).
Proof. intros c. unfold toupper. destruct ((97 <=? c) && (c <=? 122)) eqn:E; lia. Qed.
Lemma b32_case : forall a b size s pad dst, map toupper a = map toupper b -> b32_dloop a size s pad dst = b32_dloop b size s pad dst.
Proof.
  induction a as [|x a IH]; intros [|y b] size s pad dst E; try discriminate; [reflexivity|].
  cbn [map] in E. injection E as E1 E2. cbn [b32_dloop]. unfold base32_map. rewrite E1.
  assert (X : (x =? 61) = (y =? 61)) by (rewrite <- (toupper_61 x), E1; apply toupper_61). rewrite X.
  assert (Y : match a with [] => true | _ :: _ => false end = match b with [] => true | _ :: _ => false end) by (destruct a, b; try discriminate; reflexivity).
  rewrite Y. cbv zeta. repeat rewrite (IH b) by auto. reflexivity.
Qed.

(** Rejection of other characters. *)
Lemma b32_map_range : forall c, base32_map c = 255 \/ 0 <= base32_map c < 32.
Proof.
  intros c. unfold base32_map. generalize (toupper c). intros x.
  assert (G : forall l i, memchr_pos l x i = 255 \/ i <= memchr_pos l x i < i + zlen l).
  { induction l as [|y l IH]; intros i; [left; reflexivity|]. cbn [memchr_pos]. rewrite zlen_cons. pose proof (zlen_nonneg _ l).
    destruct (y =? x); [right; lia|]. destruct (IH (i + 1)); [left; auto|right; lia]. }
  destruct (G b32_alphabet 0) as [E|E]; [auto|]. change (zlen b32_alphabet) with 32 in E. right. lia.
Qed.
Definition b32_digit (c : Z) : Prop := 48 <= c <= 57 \/ 65 <= c <= 86 \/ 97 <= c <= 118.
Lemma b32_map_bad : forall c, ~ b32_digit c -> base32_map c = 255.
Proof.
  intros c N. unfold base32_map.
  assert (G : forall l i, (forall y, In y l -> y <> toupper c) -> memchr_pos l (toupper c) i = 255).
  { induction l as [|y l IH]; intros i H; [reflexivity|]. cbn [memchr_pos]. replace (y =? toupper c) with false.
    - apply IH. intros; apply H; right; auto.
    - symmetry. apply Z.eqb_neq. apply H. left. reflexivity. }
  apply G. intros y I E. apply N. 
  assert (R : forallb (fun y => ((48 <=? y) && (y <=? 57)) || ((65 <=? y) && (y <=? 86))) b32_alphabet = true) by (vm_compute; reflexivity).
  rewrite forallb_forall in R. specialize (R y I). unfold b32_digit. unfold toupper in E.
  destruct ((97 <=? c) && (c <=? 122)) eqn:T; lia.
Qed.

Lemma b32_octets_len : forall s, zlen (b32_octets s) <= zlen s /\ (s <> [] -> zlen (b32_octets s) < zlen s).
Proof.
  intros s. unfold b32_octets. pose proof (zlen_nonneg _ s). assert (s <> [] -> 1 <= zlen s).
  { intros N. destruct s; [congruence|]. rewrite zlen_cons. pose proof (zlen_nonneg _ s). lia. }
  destruct (zlen s <? 2) eqn:A; [change (zlen (@nil Z)) with 0; split; [lia|intros N; specialize (H0 N); lia]|]. rewrite zlen_cons.
  destruct (zlen s <? 4) eqn:B; [change (zlen (@nil Z)) with 0; split; [lia|intros N; specialize (H0 N); lia]|]. rewrite zlen_cons.
  destruct (zlen s <? 5) eqn:C; [change (zlen (@nil Z)) with 0; split; [lia|intros N; specialize (H0 N); lia]|]. rewrite zlen_cons.
  destruct (zlen s <? 7) eqn:D; [change (zlen (@nil Z)) with 0; split; [lia|intros N; specialize (H0 N); lia]|]. rewrite zlen_cons.
  destruct (zlen s <? 8) eqn:E; [change (zlen (@nil Z)) with 0; split; [lia|intros N; specialize (H0 N); lia]|]. rewrite zlen_cons.
  change (zlen (@nil Z)) with 0. lia.
Qed.

Lemma b32_reject : forall data size s pad dst, zlen s <= 7 -> zlen dst + zlen s + zlen data <= size ->
  Exists (fun c => c <> 61 /\ ~ b32_digit c) data -> b32_dloop data size s pad dst = Ok None.
Proof.
  induction data as [|c r IH]; intros size s pad dst Ls L E; [inversion E|].
  cbn [b32_dloop]. rewrite zlen_cons in L. pose proof (zlen_nonneg _ r). pose proof (zlen_nonneg _ dst). pose proof (zlen_nonneg _ s).
  destruct (Z.eq_dec c 61) as [-> |N61].
  - change (61 =? 61) with true. cbn [negb andb]. inversion E as [? ? [X _]|? ? E']; subst; [congruence|].
    replace (zlen s >? 8) with false by lia. rewrite orb_true_r. replace ((zlen s =? 8) || true || _) with true by (rewrite orb_true_r; reflexivity).
    destruct (b32_octets_len s) as [O _].
    assert (Q : zlen (dst ++ firstn (Z.to_nat (size - zlen dst)) (b32_octets s)) <= zlen dst + zlen s).
    { rewrite zlen_app. assert (zlen (firstn (Z.to_nat (size - zlen dst)) (b32_octets s)) <= zlen (b32_octets s)) by (unfold zlen; rewrite firstn_length; lia). lia. }
    match goal with |- context [zlen ?d =? size] => replace (zlen d =? size) with false by lia end. apply IH; auto; change (zlen (@nil Z)) with 0; lia.
  - replace (c =? 61) with false by lia. cbn [negb andb]. destruct (base32_map c =? 255) eqn:M; [reflexivity|].
    inversion E as [? ? [_ X]|? ? E']; subst; [rewrite b32_map_bad in M by auto; discriminate|].
    rewrite zlen_app. change (zlen [base32_map c]) with 1. replace (zlen s + 1 >? 8) with false by lia. rewrite orb_false_r.
    set (fl := (zlen s + 1 =? 8) || pad || match r with [] => true | _ :: _ => false end). 
    destruct fl eqn:Fl.
    + destruct (b32_octets_len (s ++ [base32_map c])) as [_ O]. specialize (O ltac:(destruct s; discriminate)). rewrite zlen_app in O. change (zlen [base32_map c]) with 1 in O.
      assert (Q : zlen (dst ++ firstn (Z.to_nat (size - zlen dst)) (b32_octets (s ++ [base32_map c]))) <= zlen dst + zlen s).
      { rewrite zlen_app. assert (zlen (firstn (Z.to_nat (size - zlen dst)) (b32_octets (s ++ [base32_map c]))) <= zlen (b32_octets (s ++ [base32_map c]))) by (unfold zlen; rewrite firstn_length; lia). lia. }
      match goal with |- context [zlen ?d =? size] => replace (zlen d =? size) with false by lia end. apply IH; auto; change (zlen (@nil Z)) with 0; lia.
    + replace (zlen dst =? size) with false by lia. apply IH; auto; rewrite zlen_app; change (zlen [base32_map c]) with 1; [|lia].
      unfold fl in Fl. lia.
Qed.

(** Every text is processed without fault. *)
Lemma b32_dloop_safe : forall data size s pad dst, zlen s <= 7 -> exists r, b32_dloop data size s pad dst = Ok r.
Proof.
  induction data as [|c r IH]; intros size s pad dst Ls; [eexists; reflexivity|].
  cbn [b32_dloop]. destruct (negb (c =? 61) && (base32_map c =? 255)); [eexists; reflexivity|]. cbv zeta.
  assert (Q : zlen (if c =? 61 then s else s ++ [base32_map c]) <= 8) by (destruct (c =? 61); [lia|rewrite zlen_app; change (zlen [base32_map c]) with 1; lia]).
  set (s' := if c =? 61 then s else s ++ [base32_map c]) in *. replace (zlen s' >? 8) with false by lia.
  destruct (_ =? size); [eexists; reflexivity|]. apply IH.
  destruct ((zlen s' =? 8) || (pad || (c =? 61)) || match r with [] => true | _ :: _ => false end) eqn:E; [change (zlen (@nil Z)) with 0; lia|lia].
Qed.

Lemma b32_dloop_size : forall data size s pad dst r, zlen dst <= size -> b32_dloop data size s pad dst = Ok (Some r) -> zlen r <= size.
Proof.
  induction data as [|c rr IH]; intros size s pad dst r L E; cbn [b32_dloop] in E.
  - injection E as <-. auto.
  - destruct (negb (c =? 61) && (base32_map c =? 255)); [discriminate|].
    match type of E with (if ?b then _ else _) = _ => destruct b; [discriminate|] end. cbv zeta in E.
    set (s' := if c =? 61 then s else s ++ [base32_map c]) in *.
    set (fl := (zlen s' =? 8) || (pad || (c =? 61)) || match rr with [] => true | _ :: _ => false end) in *.
    assert (Q : zlen (if fl then dst ++ firstn (Z.to_nat (size - zlen dst)) (b32_octets s') else dst) <= size).
    { destruct fl; [|auto]. rewrite zlen_app. assert (zlen (firstn (Z.to_nat (size - zlen dst)) (b32_octets s')) <= size - zlen dst) by (unfold zlen at 1; rewrite firstn_length; lia). lia. }
    destruct (_ =? size) in E; [injection E as <-; auto|]. eapply IH; [|exact E]. auto.
Qed.
