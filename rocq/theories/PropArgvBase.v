(** PropArgvBase.v: values shown in base 2, 8 and 16 and read again (libmy/argv.c, C160). *)
From Verif Require Import Base Lib Libc ModelArgv ModelArgvSize ModelArgvBase SpecArgv PropArgv.

Lemma number_app : forall b xs ys, number b (xs ++ ys) = number b xs * b ^ Z.of_nat (length ys) + number b ys.
Proof.
  intros b xs ys. induction xs as [|x xs IH]; [cbn [app number]; lia|]. cbn [app number]. rewrite IH, app_length, Nat2Z.inj_add, Z.pow_add_r by lia. ring.
Qed.
Lemma base_loop_ok : forall b f, 2 <= b <= 16 -> (forall d, 0 <= d < b -> f (low_digit d) = Some d) -> forall k n acc ds, 0 <= n < b ^ Z.of_nat k -> (0 < k)%nat ->
  Forall2 (fun c d => f c = Some d) acc ds -> exists text xs, base_loop k b n acc = text ++ acc /\ Forall2 (fun c d => f c = Some d) (text ++ acc) (xs ++ ds) /\ number b xs = n /\ text <> [].
Proof.
  intros b f B D. induction k as [|k IH]; intros n acc ds R P F; [lia|]. cbn [base_loop]. cbn zeta. pose proof (Z.mod_pos_bound n b ltac:(lia)) as M. pose proof (Z.div_mod n b ltac:(lia)) as DM.
  assert (F1 : Forall2 (fun c d => f c = Some d) (low_digit (n mod b) :: acc) (n mod b :: ds)) by (constructor; [apply D; exact M|exact F]).
  destruct (n <? b) eqn:L.
  - exists [low_digit (n mod b)], [n mod b]. split; [reflexivity|]. split; [exact F1|]. split; [cbn [number length]; change (Z.of_nat 0) with 0; rewrite Z.pow_0_r, Z.mod_small by lia; lia|discriminate].
  - destruct k as [|k]; [change (Z.of_nat 1) with 1 in R; rewrite Z.pow_1_r in R; lia|]. destruct (IH (n / b) (low_digit (n mod b) :: acc) (n mod b :: ds)) as (text & xs & E & F2 & N & T).
    + split; [apply Z.div_pos; lia|]. apply Z.div_lt_upper_bound; [lia|]. rewrite (Nat2Z.inj_succ (S k)), Z.pow_succ_r in R by lia. lia.
    + lia.
    + exact F1.
    + exists (text ++ [low_digit (n mod b)]), (xs ++ [n mod b]). rewrite <- !app_assoc. split; [exact E|]. split; [exact F2|]. split; [|destruct text; discriminate].
      rewrite number_app, N. cbn [number length]. change (Z.of_nat 1) with 1. change (Z.of_nat 0) with 0. rewrite Z.pow_0_r, Z.pow_1_r. lia.
Qed.
Lemma shown_digits : forall b f digit k n rest, 2 <= b <= 16 -> (forall d, 0 <= d < b -> f (low_digit d) = Some d) -> (forall c d, f c = Some d <-> digit c d) ->
  0 <= n < b ^ Z.of_nat k -> (0 < k)%nat -> match rest with [] => True | c :: _ => forall d, ~ digit c d end ->
  exists ds c text, base_loop k b n [] = c :: text /\ digits_then digit ds ((c :: text) ++ rest) /\ number b ds = n /\ exists d, digit c d.
Proof.
  intros b f digit k n rest B D E R P S. destruct (base_loop_ok b f B D k n [] [] R P (@Forall2_nil _ _ _)) as (text & xs & L & F & N & T). rewrite !app_nil_r in F. rewrite app_nil_r in L. destruct text as [|c text]; [congruence|].
  exists xs, c, text. split; [exact L|]. split; [|split; [exact N|]].
  - exists (c :: text), rest. split; [reflexivity|]. split; [|exact S]. clear - F E. revert F. generalize (c :: text). intros l F. induction F; constructor; [apply E; assumption|assumption].
  - destruct xs as [|d xs]; [inversion F|]. exists d. apply E. inversion F. assumption.
Qed.
Lemma low_oct : forall d, 0 <= d < 8 -> fo (low_digit d) = Some d.
Proof. intros d R. apply fo_digit. unfold octal_digit, low_digit. replace (d <? 10) with true by lia. lia. Qed.
Lemma low_hex : forall d, 0 <= d < 16 -> fh (low_digit d) = Some d.
Proof. intros d R. apply fh_digit. unfold hex_digit, low_digit. destruct (d <? 10) eqn:E; lia. Qed.

(** ** C160: a positive int as octal or hexadecimal text is read as itself; a negative one overflows; a binary text is read as 0 *)
Definition read_back (v : Z) : outcome Z := if 0 <=? v then Ok v else UB IntOverflow.
Lemma read_limit : forall v, -2147483648 <= v <= 2147483647 -> (if unsigned_of v <=? 2147483647 then Ok (unsigned_of v) else UB IntOverflow) = read_back v.
Proof.
  intros v R. unfold unsigned_of, read_back. change (2 ^ 32) with 4294967296. destruct (0 <=? v) eqn:E; [rewrite Z.mod_small by lia; replace (v <=? 2147483647) with true by lia; reflexivity|].
  assert (v mod 4294967296 = v + 4294967296) as -> by (pose proof (Z.div_mod v 4294967296); pose proof (Z.mod_pos_bound v 4294967296); lia). replace (_ <=? _) with false by lia. reflexivity.
Qed.
Theorem C160_octal_partial : forall v, -2147483648 <= v <= 2147483647 -> otoi (oct_text v) = if 0 <=? v then Ok v else UB IntOverflow.
Proof.
  intros v R. unfold oct_text. destruct (v =? 0) eqn:Z0; [replace v with 0 by lia; reflexivity|].
  assert (U : 0 <= unsigned_of v < 8 ^ Z.of_nat 11) by (unfold unsigned_of; pose proof (Z.mod_pos_bound v (2 ^ 32) ltac:(lia)); change (8 ^ Z.of_nat 11) with 8589934592; change (2 ^ 32) with 4294967296 in *; lia).
  destruct (shown_digits 8 fo octal_digit 11 (unsigned_of v) (in_decimal v)) as (ds & c & text & E & D & N & _); auto using low_oct, fo_digit; [lia|lia|unfold in_decimal, octal_digit; cbn [app]; intros; lia|].
  assert (D' : digits_then octal_digit (0 :: ds) (48 :: (c :: text) ++ in_decimal v)).
  { destruct D as (t & r & -> & F & S). exists (48 :: t), r. split; [reflexivity|]. split; [constructor; [unfold octal_digit; lia|exact F]|exact S]. }
  rewrite E. assert (K := C156_octal [] _ _ (Forall_nil _) D' eq_refl). cbn [app] in K |- *. rewrite K.
  cbn [number]. rewrite Z.mul_0_l, Z.add_0_l, N. apply read_limit. exact R.
Qed.
Print Assumptions C160_octal_partial.
Theorem C160_hexadecimal_partial : forall v, -2147483648 <= v <= 2147483647 -> htoi (hex_text v) = if 0 <=? v then Ok v else UB IntOverflow.
Proof.
  intros v R. unfold hex_text. destruct (v =? 0) eqn:Z0; [replace v with 0 by lia; reflexivity|].
  assert (U : 0 <= unsigned_of v < 16 ^ Z.of_nat 8) by (unfold unsigned_of; pose proof (Z.mod_pos_bound v (2 ^ 32) ltac:(lia)); change (16 ^ Z.of_nat 8) with 4294967296; change (2 ^ 32) with 4294967296 in *; lia).
  destruct (shown_digits 16 fh hex_digit 8 (unsigned_of v) (in_decimal v)) as (ds & c & text & E & D & N & _); auto using low_hex, fh_digit; [lia|lia|unfold in_decimal, hex_digit; cbn [app]; intros; lia|].
  rewrite E. assert (K := C156_hexadecimal [] [48; 120] ((c :: text) ++ in_decimal v) ds (Forall_nil _) D (or_introl (or_introl eq_refl))). cbn [app] in K. cbn [app]. rewrite K. rewrite N. apply read_limit. exact R.
Qed.
Print Assumptions C160_hexadecimal_partial.
(** Octal and hexadecimal: refuted by every negative value (above); binary: by every value but 0, because b is no binary digit. *)
Theorem C160_refuted : (forall v, v <> 0 -> btoi (bin_text v) = Ok 0) /\ otoi (oct_text (-1)) = UB IntOverflow /\ htoi (hex_text (-1)) = UB IntOverflow.
Proof. split; [intros v N; unfold bin_text; replace (v =? 0) with false by lia; reflexivity|]. split; vm_compute; reflexivity. Qed.
Print Assumptions C160_refuted.
(** The bits themselves are right. *)
Theorem C160_bits_partial : forall v, 0 < v <= 2147483647 -> exists bits, bin_text v = [48; 98] ++ bits ++ in_decimal v /\ btoi bits = Ok v.
Proof.
  intros v R. exists (base_loop 32 2 (unsigned_of v) []). split; [unfold bin_text; replace (v =? 0) with false by lia; reflexivity|].
  assert (U : unsigned_of v = v) by (unfold unsigned_of; apply Z.mod_small; change (2 ^ 32) with 4294967296; lia). rewrite U.
  destruct (shown_digits 2 fb binary_digit 32 v []) as (ds & c & text & E & D & N & d & C); auto using fb_digit; [lia|intros d L; apply fb_digit; unfold binary_digit, low_digit; replace (d <? 10) with true by lia; lia|change (2 ^ Z.of_nat 32) with 4294967296; lia|lia|].
  rewrite app_nil_r in D. rewrite E. assert (K := C156_binary [] (c :: text) ds (Forall_nil _) D). cbn [app] in K. rewrite K; [rewrite N; replace (_ <=? _) with true by lia; reflexivity|]. unfold binary_digit in C. unfold isspace. lia.
Qed.
Print Assumptions C160_bits_partial.
Example C160_ex : hex_text 255 = [48; 120; 102; 102; 32; 40; 50; 53; 53; 41] /\ oct_text 8 = [48; 49; 48; 32; 40; 56; 41] /\ bin_text 5 = [48; 98; 49; 48; 49; 32; 40; 53; 41].
Proof. split; [|split]; vm_compute; reflexivity. Qed.
