(** ProofLibmyText.v *)
From Verif Require Import Base Lib Libc ModelLibmyText SpecFormat SpecLibmyText ProofGroup.

(** ** hex_decode *)
Lemma hex_to_int_spec : forall c v, hex_to_int c = Some v <-> hex_digit c v.
Proof.
  intros c v. unfold hex_to_int, toupper. destruct ((97 <=? c) && (c <=? 122)) eqn:L; cbv zeta.
  - replace ((48 <=? c - 32) && (c - 32 <=? 57)) with false by lia. destruct ((65 <=? c - 32) && (c - 32 <=? 70)) eqn:R.
    + split; intros H; [injection H as <-; replace (c - 32 - 55) with (c - 87) by lia; apply hd_low; lia|]. inversion H; subst; try lia. f_equal. lia.
    + split; intros H; [discriminate|]. inversion H; lia.
  - destruct ((48 <=? c) && (c <=? 57)) eqn:D; [|destruct ((65 <=? c) && (c <=? 70)) eqn:U].
    + split; intros H; [injection H as <-; apply hd_dec; lia|]. inversion H; subst; try lia. reflexivity.
    + split; intros H; [injection H as <-; apply hd_upp; lia|]. inversion H; subst; try lia. reflexivity.
    + split; intros H; [discriminate|]. inversion H; lia.
Qed.
Lemma hex_digit_range : forall c v, hex_digit c v -> 0 <= v < 16. Proof. intros c v H. inversion H; lia. Qed.
Lemma nibbles : forall x y, 0 <= x < 16 -> 0 <= y < 16 -> Z.lor (Z.shiftl x 4) y mod 256 = 16 * x + y.
Proof. intros x y X Y. rewrite Z.shiftl_mul_pow2 by lia. rewrite Z.lor_comm, (Z.mul_comm x), lor_add by (change (2 ^ 4) with 16; lia). change (2 ^ 4) with 16. rewrite Z.mod_small by lia; lia. Qed.
Lemma hex_loop_ok : forall n s fuel cap out, length s = (2 * n)%nat -> (n <= fuel)%nat -> zlen out + Z.of_nat n <= cap -> zlen s < 2 ^ 63 ->
  exists r, hex_loop fuel (s ++ [0]) (zlen s) cap out = Ok r /\
    match r with Some raw => exists o, raw = out ++ o /\ hex_text s o | None => forall o, ~ hex_text s o end.
Proof.
  induction n as [|n IH]; intros s fuel cap out L F C Z0.
  - destruct s; [|discriminate]. exists (Some out). destruct fuel; (split; [reflexivity|]); exists []; rewrite app_nil_r; split; constructor.
  - destruct s as [|h [|l s]]; try (cbn [length] in L; lia). destruct fuel as [|fuel]; [lia|]. rewrite !zlen_cons in *. pose proof (zlen_nonneg _ s) as ZS. cbn [hex_loop]. replace (zlen s + 1 + 1 =? 0) with false by lia.
    change (((h :: l :: s) ++ [0])) with (h :: l :: (s ++ [0])). cbn [char_at bind tl].
    destruct (hex_to_int h) as [x|] eqn:X; [|exists None; split; [reflexivity|]; intros o H; inversion H as [|? ? ? ? ? ? H1]; subst; apply hex_to_int_spec in H1; congruence].
    destruct (hex_to_int l) as [y|] eqn:Y; [|exists None; split; [reflexivity|]; intros o H; inversion H as [|? ? ? ? ? ? H1 H2]; subst; apply hex_to_int_spec in H2; congruence].
    pose proof (proj1 (hex_to_int_spec _ _) X) as X'. pose proof (proj1 (hex_to_int_spec _ _) Y) as Y'. rewrite nibbles by (eapply hex_digit_range; eauto).
    replace (zlen out >=? cap) with false by lia. replace (zlen s + 1 + 1 - 2) with (zlen s) by lia. change (2 ^ 63) with 9223372036854775808 in *. rewrite Z.mod_small by (change (2 ^ 64) with 18446744073709551616; lia).
    destruct (IH s fuel cap (out ++ [16 * x + y])) as (r & R1 & R2); [cbn [length] in L; lia|lia|rewrite zlen_app; change (zlen [16 * x + y]) with 1; lia|lia|].
    exists r. split; [exact R1|]. destruct r as [raw|].
    + destruct R2 as (o & -> & T). exists (16 * x + y :: o). rewrite <- app_assoc. split; [reflexivity|constructor; assumption].
    + intros o H. inversion H as [|? ? x' y' ? r' H1 H2 H3]; subst. exact (R2 _ H3).
Qed.
Lemma hex_text_even : forall s r, hex_text s r -> zlen s = 2 * zlen r.
Proof. intros s r H. induction H; [reflexivity|]. rewrite !zlen_cons. lia. Qed.
Lemma hex_text_fun : forall s r, hex_text s r -> forall r', hex_text s r' -> r = r'.
Proof.
  intros s r H. induction H as [|h l x y s r X Y H IH]; intros r' H'; inversion H' as [|? ? x' y' ? r2 X' Y' H2]; subst; [reflexivity|].
  apply hex_to_int_spec in X, Y, X', Y'. rewrite X in X'. rewrite Y in Y'. injection X' as <-. injection Y' as <-. f_equal. apply IH. exact H2.
Qed.

(** ** Quoted strings *)
Lemma hex_char_digit : forall v, 0 <= v < 16 -> hex_digit (hex_char v) v.
Proof. intros v V. unfold hex_char. destruct (v <? 10) eqn:C; [replace v with (48 + v - 48) at 2 by lia; apply hd_dec; lia|replace v with (87 + v - 87) at 2 by lia; apply hd_low; lia]. Qed.
Lemma hex_digit_printable : forall c v, hex_digit c v -> 32 <= c <= 126. Proof. intros c v H. inversion H; lia. Qed.
Lemma print_octet_printable : forall c, 0 <= c < 256 -> Forall (fun x => 32 <= x <= 126) (print_octet c).
Proof.
  intros c C. unfold print_octet, isprint. pose proof (Z.div_pos c 16). pose proof (Z.div_lt_upper_bound c 16 16). pose proof (Z.mod_pos_bound c 16 ltac:(lia)).
  destruct ((32 <=? c) && (c <=? 126)) eqn:P; [destruct (c =? 34)|]; repeat (apply Forall_cons; [first [lia|eapply hex_digit_printable, hex_char_digit; lia]|]); apply Forall_nil.
Qed.
Lemma print_loop_ok : forall d rest, print_loop (length d) (d ++ rest) = Ok (concat (map print_octet d)).
Proof. induction d as [|c d IH]; intros rest; cbn [length print_loop app char_at bind tl map concat]; [reflexivity|]. rewrite IH. reflexivity. Qed.
Lemma print_string_ok : forall d rest, print_string (d ++ rest) (zlen d) = Ok ([34] ++ concat (map print_octet d) ++ [34]).
Proof. intros d rest. unfold print_string, zlen. rewrite Nat2Z.id, print_loop_ok. reflexivity. Qed.
Lemma print_quoted : forall d, Forall (fun c => 0 <= c < 256 /\ c <> 92) d -> quoted d (concat (map print_octet d) ++ [34]).
Proof.
  induction d as [|c d IH]; intros F; cbn [map concat app]; [constructor|]. pose proof (Forall_inv F) as [C N]. specialize (IH (Forall_inv_tail F)). rewrite <- app_assoc. unfold print_octet, isprint.
  pose proof (Z.div_pos c 16). pose proof (Z.div_lt_upper_bound c 16 16). pose proof (Z.mod_pos_bound c 16 ltac:(lia)). pose proof (Z.div_mod c 16 ltac:(lia)) as DM.
  destruct ((32 <=? c) && (c <=? 126)) eqn:P; [destruct (c =? 34) eqn:Q|]; cbn [app].
  - assert (c = 34) as -> by lia. apply q_quote. exact IH.
  - apply q_plain; auto; lia.
  - rewrite DM at 1. apply q_hex; [apply hex_char_digit; lia|apply hex_char_digit; lia|exact IH].
Qed.
Lemma quoted_fun : forall d t, quoted d t -> forall d' u, quoted d' (t ++ u) -> d = d' /\ u = [].
Proof.
  intros d t H. induction H as [|c d t C N1 N2 H IH|d t H IH|h l x y d t X Y H IH]; intros d' u H'; cbn [app] in H'; inversion H'; subst; try (exfalso; congruence); try (exfalso; lia); auto.
  - match goal with K : quoted _ (t ++ u) |- _ => destruct (IH _ _ K) as [-> ->]; auto end.
  - match goal with K : quoted _ (t ++ u) |- _ => destruct (IH _ _ K) as [-> ->]; auto end.
  - match goal with K : quoted _ (t ++ u), A : hex_digit h ?x', B : hex_digit l ?y' |- _ => destruct (IH _ _ K) as [-> ->]; apply hex_to_int_spec in X, Y, A, B; split; [|reflexivity]; f_equal; congruence end.
Qed.

(** ** Replacement *)
Lemma prefix_eq_spec : forall p s, prefix_eq p s = true <-> exists r, s = p ++ r.
Proof.
  induction p as [|x p IH]; intros s; cbn [prefix_eq]; [split; [exists s; reflexivity|reflexivity]|]. destruct s as [|y s]; [split; [discriminate|intros [r E]; discriminate]|].
  rewrite andb_true_iff, Z.eqb_eq, IH. split; [intros [-> [r ->]]; exists r; reflexivity|intros [r E]; injection E as -> ->; split; [reflexivity|exists r; reflexivity]].
Qed.
Lemma strstr_some : forall s old k, strstr s old = Some k -> exists b, first_occurrence old (firstn k s) b s /\ (k <= length s)%nat.
Proof.
  induction s as [|c s IH]; intros old k H; cbn [strstr] in H; destruct (prefix_eq old _) eqn:P.
  - injection H as <-. apply prefix_eq_spec in P. destruct P as [r E]. exists r. split; [split; [exact E|intros; cbn; lia]|cbn; lia].
  - discriminate.
  - injection H as <-. apply prefix_eq_spec in P. destruct P as [r E]. exists r. split; [split; [exact E|intros; cbn; lia]|cbn; lia].
  - destruct (strstr s old) as [j|] eqn:J; [|discriminate]. injection H as <-. destruct (IH old j J) as (b & [E M] & LE). exists b. split; [|cbn [length]; lia]. split; [cbn [firstn app]; f_equal; exact E|].
    intros a' b' E'. destruct a' as [|c' a'].
    + exfalso. cbn [app] in E'. assert (prefix_eq old (c :: s) = true) by (apply prefix_eq_spec; exists b'; exact E'). congruence.
    + cbn [app] in E'. injection E' as _ E'. cbn [firstn length]. specialize (M a' b' E'). lia.
Qed.
Lemma strstr_none : forall s old, strstr s old = None -> ~ occurs old s.
Proof.
  induction s as [|c s IH]; intros old H (a & b & E); cbn [strstr] in H; destruct (prefix_eq old _) eqn:P; try discriminate.
  - destruct a; [|discriminate]. cbn [app] in E. assert (prefix_eq old [] = true) by (apply prefix_eq_spec; exists b; exact E). congruence.
  - destruct a as [|c' a]; [cbn [app] in E; assert (prefix_eq old (c :: s) = true) by (apply prefix_eq_spec; exists b; exact E); congruence|].
    injection E as _ E. destruct (strstr s old) eqn:J; [discriminate|]. apply (IH old J). exists a, b. exact E.
Qed.
Lemma replace_ok : forall old new, old <> [] -> forall fuel str u, (length str < fuel)%nat -> exists r, replace_loop fuel str old new u = Ok (u ++ r) /\ replaced old new str r.
Proof.
  intros old new N. induction fuel as [|fuel IH]; intros str u L; [lia|]. cbn [replace_loop]. destruct (strstr str old) as [k|] eqn:S0.
  - destruct (strstr_some _ _ _ S0) as (b & FO & LE). pose proof FO as [E M]. assert (SK : skipn k str = old ++ b). { apply (f_equal (skipn k)) in E. rewrite E at 1. rewrite skipn_app, skipn_all2 by (rewrite firstn_length; lia). rewrite firstn_length. replace (k - Nat.min k (length str))%nat with 0%nat by lia. reflexivity. }
    rewrite SK. replace (zlen old >=? zlen (old ++ b) + 1) with false by (rewrite zlen_app; pose proof (zlen_nonneg _ b); lia).
    rewrite skipn_app, skipn_all, Nat.sub_diag. cbn [skipn app].
    assert (LB : (length b < fuel)%nat). { apply (f_equal (@length Z)) in E. rewrite !app_length in E. destruct old; [congruence|]. cbn [length] in E. lia. }
    destruct (IH b (u ++ firstn k str ++ new) LB) as (r & R1 & R2). exists (firstn k str ++ new ++ r). split; [rewrite R1, <- !app_assoc; reflexivity|]. apply r_some with b; assumption.
  - exists str. split; [reflexivity|]. apply r_none. apply strstr_none. exact S0.
Qed.
Lemma replaced_fun : forall old new s r, replaced old new s r -> forall r', replaced old new s r' -> r = r'.
Proof.
  intros old new s r H. induction H as [s N|s a b r FO H IH]; intros r' H'; inversion H' as [? N'|? a' b' r2 FO' H2]; subst; auto.
  - exfalso. apply N. destruct FO' as [E _]. exists a', b'. exact E.
  - exfalso. apply N'. destruct FO as [E _]. exists a, b. exact E.
  - destruct FO as [E M], FO' as [E' M']. assert (L : length a = length a') by (specialize (M _ _ E'); specialize (M' _ _ E); lia).
    rewrite E in E'. assert (X : a = a' /\ old ++ b = old ++ b'). { clear - L E'. revert a' L E'. induction a as [|x a IH]; intros [|y a'] L E'; try discriminate; [auto|]. cbn [app] in E'. injection E' as -> E'. injection L as L. destruct (IH a' L E') as [-> ->]. auto. }
    destruct X as [-> X]. apply app_inv_head in X. subst b'. rewrite (IH _ H2). reflexivity.
Qed.
