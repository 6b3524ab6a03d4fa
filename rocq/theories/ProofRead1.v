(** ProofRead1.v: words, hexadecimal, base64 and base32 text, exactly. *)
From Verif Require Import Base Lib SpecName SpecStrName SpecMessage SpecFormat SpecText SpecRead Libc ModelName ModelFormat ModelFromStr.
From Verif Require Import ProofUnpack ProofFormat ProofB64 ProofB32 ProofStrName ProofFromStr ProofFromSafe.

Lemma white_iff : forall c, white c <-> isspace c = true.
Proof. intros c. unfold white, isspace. lia. Qed.
Lemma blank_iff : forall c, blank c <-> is_blank c = true.
Proof. intros c. unfold blank, is_blank. lia. Qed.
Lemma not_blank_iff : forall c, ~ blank c <-> is_blank c = false.
Proof. intros c. unfold blank, is_blank. lia. Qed.

(** ** Words *)
Lemma word_token : forall c r t e, isspace c = false -> (token (c :: r) = (t, e) <-> word (c :: r) t e).
Proof.
  intros c r t e I. unfold token. split.
  - intros E. pose proof (split_at_eq _ _ _ _ E) as (EQ & H & F). split; [auto|]. split.
    { intros ->. cbn [app] in EQ. destruct H as [->|(x & y & -> & B)]; [discriminate|]. injection EQ as -> ->. unfold is_blank, isspace in *. lia. }
    split; [eapply Forall_impl; [|exact F]; intros x X; apply not_blank_iff; auto|].
    destruct H as [->|(x & y & -> & B)]; auto. right. exists x, y. split; auto. apply blank_iff; auto.
  - intros (EQ & N & F & H). rewrite EQ. apply split_at_app.
    + eapply Forall_impl; [|exact F]. intros x X. apply not_blank_iff; auto.
    + destruct H as [->|(x & y & -> & B)]; auto. right. exists x, y. split; auto. apply blank_iff; auto.
Qed.

Lemma word_c_string : forall s t e, SpecName.c_string s -> word s t e -> SpecName.c_string t /\ SpecName.c_string e.
Proof. intros s t e C (-> & _). apply Forall_app in C. tauto. Qed.

(** ** The conversion %02hhx *)
Lemma hex_digit_iff : forall c x, hex_digit c x <-> isxdigit c = true /\ x = hexval c.
Proof.
  intros c x. unfold isxdigit, hexval. split.
  - intros [? H|? H|? H].
    + replace ((48 <=? c0) && (c0 <=? 57)) with true by lia. lia.
    + replace ((48 <=? c0) && (c0 <=? 57)) with false by lia. replace ((65 <=? c0) && (c0 <=? 70)) with false by lia.
      replace ((97 <=? c0) && (c0 <=? 102)) with true by lia. lia.
    + replace ((48 <=? c0) && (c0 <=? 57)) with false by lia. replace ((65 <=? c0) && (c0 <=? 70)) with true by lia. lia.
  - intros [H ->]. destruct ((48 <=? c) && (c <=? 57)) eqn:A; [constructor; lia|]. destruct ((65 <=? c) && (c <=? 70)) eqn:B; [constructor; lia|].
    destruct ((97 <=? c) && (c <=? 102)) eqn:D; [constructor; lia|]. discriminate.
Qed.
Lemma hex_digit_range : forall c x, hex_digit c x -> 0 <= x < 16 /\ isspace c = false /\ c <> 43 /\ c <> 45.
Proof. intros c x H. unfold isspace. destruct H; lia. Qed.

Lemma scan_octet_iff : forall s v, scan_octet s = Ok v <-> scan_02hhx s v.
Proof.
  induction s as [|c s IH]; intros v.
  { split; [discriminate|intros H; inversion H]. }
  unfold scan_octet, scan_hh. cbn [skip_space]. destruct (isspace c) eqn:W.
  { change (scan_octet s = Ok v <-> scan_02hhx (c :: s) v). rewrite IH. split.
    - intros H. apply sx_white; auto. apply white_iff; auto.
    - intros H. inversion H; subst; auto; try (match goal with D : hex_digit c _ |- _ => apply hex_digit_range in D as (_ & D & _); congruence end); discriminate. }
  destruct ((c =? 45) || (c =? 43)) eqn:SG.
  { split.
    - destruct s as [|d s]; cbn [scan_xdigits]; [discriminate|]. destruct (isxdigit d) eqn:D; [|discriminate]. cbn [scan_xdigits].
      assert (HD : hex_digit d (hexval d)) by (apply hex_digit_iff; auto). pose proof (hex_digit_range _ _ HD) as (R & _).
      intros H. injection H as <-. destruct (c =? 45) eqn:E.
      + replace c with 45 by lia. match goal with |- scan_02hhx _ ?v => replace v with ((256 - hexval d) mod 256) end.
        2:{ replace (256 - hexval d) with (- hexval d + 1 * 256) by lia. rewrite Z.mod_add by lia. first [reflexivity|f_equal; lia]. }
        apply sx_minus; auto.
      + replace c with 43 by lia. match goal with |- scan_02hhx _ ?v => replace v with (hexval d) by lia end. apply sx_plus; auto.
    - intros H. inversion H; subst; try (match goal with D : hex_digit c _ |- _ => apply hex_digit_range in D; lia end).
      + match goal with D : white c |- _ => apply white_iff in D; congruence end.
      + match goal with D : hex_digit _ v |- _ => apply hex_digit_iff in D as (D & ->) end. cbn [scan_xdigits]. rewrite H3. cbn [scan_xdigits]. reflexivity.
      + match goal with D : hex_digit _ x |- _ => pose proof (hex_digit_range _ _ D) as (R & _); apply hex_digit_iff in D as (D & E) end. subst x.
        cbn [scan_xdigits]. rewrite H3. cbn [scan_xdigits]. cbn [Z.eqb Pos.eqb]. f_equal. replace (256 - hexval c0) with (- (0 * 16 + hexval c0) + 1 * 256) by lia. rewrite Z.mod_add by lia. reflexivity. }
  destruct ((c =? 48) && match s with x :: _ => tolower x =? 120 | [] => false end) eqn:OX.
  { apply andb_prop in OX as [C X]. replace c with 48 in * by lia. destruct s as [|x s]; [discriminate|].
    assert (NX : isxdigit x = false). { unfold tolower in X. unfold isxdigit, hexval. destruct ((65 <=? x) && (x <=? 90)) eqn:U; replace ((48 <=? x) && (x <=? 57)) with false by lia; replace ((65 <=? x) && (x <=? 70)) with false by lia; replace ((97 <=? x) && (x <=? 102)) with false by lia; reflexivity. }
    split.
    - intros H. injection H as <-. apply sx_one; [apply (hd_dec 48); lia|]. intros c0 r0 x0 E D. injection E as <- <-. apply hex_digit_iff in D as (D & _). congruence.
    - intros H. inversion H; subst.
      + unfold white in *. lia.
      + match goal with D : hex_digit x _ |- _ => apply hex_digit_iff in D as (D & _) end. congruence.
      + match goal with D : hex_digit 48 _ |- _ => apply hex_digit_iff in D as (_ & ->) end. reflexivity. }
  cbn [scan_xdigits]. destruct (isxdigit c) eqn:XC.
  2:{ split; [discriminate|]. intros H. exfalso. inversion H; subst; try (match goal with D : hex_digit c _ |- _ => apply hex_digit_iff in D as (D & _); congruence end); [apply white_iff in H2; congruence|discriminate|discriminate]. }
  destruct s as [|d s].
  { cbn [scan_xdigits]. split.
    - intros H. injection H as <-. apply sx_one; [apply hex_digit_iff; split; auto; lia|]. intros c0 r0 x0 E. discriminate.
    - intros H. inversion H; subst; [apply white_iff in H2; congruence|]. apply hex_digit_iff in H2 as (_ & ->). f_equal. }
  cbn [scan_xdigits]. destruct (isxdigit d) eqn:XD.
  - cbn [scan_xdigits]. split.
    + intros H. injection H as <-. match goal with |- scan_02hhx _ ?v => replace v with (16 * hexval c + hexval d) by lia end. apply sx_two; apply hex_digit_iff; auto.
    + intros H. inversion H; subst; clear H; try discriminate; try (exfalso; match goal with X : white c |- _ => apply white_iff in X; congruence end).
      * repeat match goal with X : hex_digit _ _ |- _ => apply hex_digit_iff in X as [? ?] end. subst. f_equal. lia.
      * exfalso. match goal with X : not_hex_head _ |- _ => eapply X; [reflexivity|] end. apply hex_digit_iff; eauto.
  - split.
    + intros H. injection H as <-. apply sx_one; [apply hex_digit_iff; split; auto; lia|]. intros c0 r0 x0 E D. injection E as <- <-. apply hex_digit_iff in D as (D & _). congruence.
    + intros H. inversion H; subst; clear H; try discriminate; try (exfalso; match goal with X : white c |- _ => apply white_iff in X; congruence end).
      * exfalso. match goal with X : hex_digit d _ |- _ => apply hex_digit_iff in X as [? ?] end. congruence.
      * match goal with X : hex_digit c _ |- _ => apply hex_digit_iff in X as [? ?] end. subst. f_equal.
Qed.

Lemma hex_pairs_iff : forall f s l, (length s < f)%nat -> (hex_pairs f s = Ok l <-> exists k, hex_columns k s l []).
Proof.
  induction f as [|f IH]; intros s l F; [lia|]. cbn [hex_pairs]. destruct s as [|a [|b s]].
  - split; [intros H; injection H as <-; exists 0%nat; constructor|]. intros (k & H). inversion H; subst; auto.
  - split; [discriminate|]. intros (k & H). inversion H.
  - cbn [length] in F. split.
    + intros H. apply bind_ok in H as (v & V & H). apply bind_ok in H as (o & O & H). injection H as <-. apply IH in O as (k & O); [|lia].
      exists (S k). constructor; auto. apply scan_octet_iff; auto.
    + intros (k & H). inversion H; subst. match goal with V : scan_02hhx _ _ |- _ => apply scan_octet_iff in V; rewrite V end. cbn [bind].
      rewrite (proj2 (IH s l0 ltac:(lia))) by eauto. reflexivity.
Qed.

Lemma salt_pairs_iff : forall n s l e, salt_pairs n s = Ok (l, e) <-> hex_columns n s l e.
Proof.
  induction n as [|n IH]; intros s l e; cbn [salt_pairs].
  - split; [intros H; injection H as <- <-; constructor|intros H; inversion H; auto].
  - split.
    + intros H. apply bind_ok in H as (v & V & H). apply bind_ok in H as (s' & S' & H). apply bind_ok in H as ([o e'] & O & H). injection H as <- <-.
      unfold skip in S'. destruct (zlen s <? 2) eqn:L; [discriminate|]. destruct s as [|a [|b s]]; [discriminate|discriminate|]. injection S' as <-.
      constructor; [apply scan_octet_iff; auto|]. apply IH. exact O.
    + intros H. inversion H; subst. match goal with V : scan_02hhx _ _ |- _ => apply scan_octet_iff in V; rewrite V end. cbn [bind].
      unfold skip. replace (zlen _ <? 2) with false by (rewrite !zlen_cons; pose proof (zlen_nonneg _ s0); lia). cbn [bind]. change (adv (a :: b :: s0) 2) with s0.
      rewrite (proj2 (IH s0 l0 e)) by auto. reflexivity.
Qed.

Lemma generic_octets_iff : forall f s l, (length s < f)%nat -> (generic_octets f s = Ok l <-> loose_hex s l).
Proof.
  induction f as [|f IH]; intros s l F; [lia|]. cbn [generic_octets]. destruct s as [|a s].
  - split; [intros H; injection H as <-; constructor|intros H; inversion H; auto].
  - cbn [length] in F. destruct (isspace a) eqn:W.
    + rewrite IH by lia. split; [intros H; constructor; auto; apply white_iff; auto|]. intros H. inversion H; subst; auto. exfalso. apply white_iff in W. auto.
    + assert (NW : ~ white a) by (intros X; apply white_iff in X; congruence). destruct s as [|b s].
      { split; [discriminate|]. intros H. inversion H; subst. contradiction. }
      cbn [length] in F. split.
      * intros H. apply bind_ok in H as (v & V & H). apply bind_ok in H as (o & O & H). injection H as <-. apply IH in O; [|lia].
        apply lh_octet; auto. apply scan_octet_iff; auto.
      * intros H. inversion H; subst; [contradiction|]. match goal with V : scan_02hhx _ _ |- _ => apply scan_octet_iff in V; rewrite V end. cbn [bind].
        rewrite (proj2 (IH s l0 ltac:(lia))) by auto. reflexivity.
Qed.
