(** PropArgvUsize.v: unsigned sizes (libmy/argv.c, C161, C162). *)
From Verif Require Import Base Lib Libc ModelLibmyIo SpecName SpecFormat ProofFormat ModelArgvSize ModelArgvUsize SpecArgvSize PropArgvSize.

(** ** C161: an unsigned size is read as its number times its unit, modulo 2^64 *)
Theorem C161_read : forall s v, size_of s v -> string_to_usize s = v mod 2 ^ 64.
Proof.
  intros s v (blanks & sign & ds & tail & f & -> & B & N & F & L & T & V).
  assert (S : In sign [[]; [43]; [45]]) by (cbn [In]; intuition auto).
  assert (R : size_factor (size_rest (blanks ++ sign ++ ds ++ tail)) = f /\ no_digit_head tail).
  { replace (blanks ++ sign ++ ds ++ tail) with ((blanks ++ sign ++ ds) ++ tail) by (rewrite <- !app_assoc; reflexivity). rewrite rest_skip by (apply skipped_app; assumption).
    destruct T as [[-> ->]|(c & rest & -> & U)]; [split; reflexivity|]. destruct (factor_unit c f rest U) as (-> & E & D). auto. }
  destruct R as [R D]. unfold string_to_usize. rewrite R, strtol_at by assumption.
  assert (V' : v = (if streq sign [45] then - dec_value ds else dec_value ds) * f) by (destruct V as [[[-> | ->] ->]|[-> ->]]; reflexivity).
  rewrite V'. apply Z.mul_mod_idemp_l. discriminate.
Qed.
Print Assumptions C161_read.
Example C161_ex : string_to_usize [52; 107] = 4096 /\ string_to_usize [45; 49] = 18446744073709551615. Proof. split; vm_compute; reflexivity. Qed.

(** ** C162: the text of an unsigned size *)
Lemma long_range : forall v, 0 <= v < 2 ^ 64 -> -9223372036854775808 <= as_long v <= 9223372036854775807 /\ as_long v mod 2 ^ 64 = v.
Proof.
  intros v. unfold as_long. change (2 ^ 63) with 9223372036854775808. change (2 ^ 64) with 18446744073709551616. intros R. destruct (v <? 9223372036854775808) eqn:E; (split; [lia|]).
  - apply Z.mod_small. lia.
  - pose proof (Z.div_mod (v - 18446744073709551616) 18446744073709551616). pose proof (Z.mod_pos_bound (v - 18446744073709551616) 18446744073709551616). lia.
Qed.
(** Every value is read back from its text. *)
Theorem C162_round_trip_partial : forall v, 0 <= v < 2 ^ 64 -> string_to_usize (usize_text v) = v.
Proof.
  intros v R. pose proof (long_range v R) as [LR LM].
  assert (U : forall f u, size_unit u f -> 0 < f -> v mod f = 0 -> string_to_usize (fmt_ld (as_long (v / f)) ++ [u; 32; 40] ++ fmt_ld (as_long v) ++ [41]) = v).
  { intros f u H P E. destruct (factor_unit u f ([32; 40] ++ fmt_ld (as_long v) ++ [41]) H) as (A & B & C). change ([u; 32; 40] ++ fmt_ld (as_long v) ++ [41]) with (u :: [32; 40] ++ fmt_ld (as_long v) ++ [41]).
    assert (Q : v = f * (v / f)) by (pose proof (Z.div_mod v f); lia). assert (QR : 0 <= v / f < 2 ^ 64) by (split; [apply Z.div_pos; lia|nia]). destruct (long_range _ QR) as [QL QM].
    unfold string_to_usize. rewrite rest_ld, strtol_ld, A, B, QM by assumption. rewrite Z.mul_comm, <- Q. apply Z.mod_small. exact R. }
  unfold usize_text. cbn zeta. destruct (v =? 0) eqn:Z0; [replace v with 0 by lia; reflexivity|].
  destruct (v mod (1024 * 1024 * 1024) =? 0) eqn:G; [apply U; [unfold size_unit; cbn [In]; lia|lia|lia]|]. destruct (v mod (1024 * 1024) =? 0) eqn:M; [apply U; [unfold size_unit; cbn [In]; lia|lia|lia]|].
  destruct (v mod 1024 =? 0) eqn:K; [apply U; [unfold size_unit; cbn [In]; lia|lia|lia]|].
  unfold string_to_usize. rewrite <- (app_nil_r (fmt_ld _)). rewrite rest_ld, strtol_ld by (try exact I; assumption). cbn [size_rest size_factor]. rewrite Z.mul_1_r, LM. apply Z.mod_small. exact R.
Qed.
Print Assumptions C162_round_trip_partial.
(** But a value from 2^63 on is shown as a negative number. *)
Theorem C162_refuted : forall v, 2 ^ 63 <= v < 2 ^ 64 -> exists front back, usize_text v = front ++ [45] ++ back.
Proof.
  intros v R. assert (E : fmt_ld (as_long v) = 45 :: fmt_u (- as_long v)).
  { unfold fmt_ld, as_long. change (2 ^ 63) with 9223372036854775808 in *. change (2 ^ 64) with 18446744073709551616 in *. replace (v <? 9223372036854775808) with false by lia. replace (_ <? 0) with true by lia. reflexivity. }
  assert (V : v =? 0 = false) by (change (2 ^ 63) with 9223372036854775808 in R; lia). unfold usize_text. cbn zeta. rewrite V, E.
  repeat match goal with |- context [if ?c then _ else _] => destruct c end; [..|exists [], (fmt_u (- as_long v)); reflexivity];
    match goal with |- exists front back, ?a ++ [?u; 32; 40] ++ (45 :: ?b) ++ [41] = _ => exists (a ++ [u; 32; 40]), (b ++ [41]); rewrite <- !app_assoc; reflexivity end.
Qed.
Print Assumptions C162_refuted.
Example C162_ex : usize_text 18446744073709551615 = [45; 49] /\ usize_text 1024 = [49; 107; 32; 40; 49; 48; 50; 52; 41]. Proof. split; vm_compute; reflexivity. Qed.
