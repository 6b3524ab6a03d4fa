(** PropArgvSize.v: sizes with a unit (libmy/argv.c, C158, C159). *)
From Verif Require Import Base Lib Libc ModelLibmyIo SpecName SpecFormat ProofFormat ModelArgvSize SpecArgvSize.

Definition skipped (c : Z) : Prop := c = 32 \/ c = 45 \/ c = 43 \/ digit c.
Lemma rest_skip : forall a s, Forall skipped a -> size_rest (a ++ s) = size_rest s.
Proof. intros a s F. induction F as [|c a H F IH]; [reflexivity|]. cbn [app size_rest]. unfold skipped, digit in H. replace (_ || _) with true by lia. exact IH. Qed.
Lemma dec_nonneg : forall s, Forall digit s -> 0 <= dec_value s.
Proof.
  intros s F. unfold dec_value. assert (G : forall a, 0 <= a -> 0 <= fold_left (fun a c => a * 10 + (c - 48)) s a); [|apply G; lia].
  induction F as [|c s H F IH]; intros a L; cbn [fold_left]; [exact L|]. apply IH. unfold digit in H. lia.
Qed.
Lemma strtol_at : forall blanks sign ds tail, Forall (fun c => c = 32) blanks -> ds <> [] -> Forall digit ds -> dec_value ds <= 9223372036854775807 ->
  no_digit_head tail -> In sign [[]; [43]; [45]] -> fst (strtol (blanks ++ sign ++ ds ++ tail)) = if streq sign [45] then - dec_value ds else dec_value ds.
Proof.
  intros blanks sign ds tail B N F L T S. unfold strtol. pose proof (dec_nonneg ds F).
  assert (skip_space (blanks ++ sign ++ ds ++ tail) = sign ++ ds ++ tail) as ->.
  { induction B as [|c l -> B IH]; [|exact IH]. cbn [app]. destruct S as [<-|[<-|[<-|[]]]]; [|reflexivity|reflexivity]. destruct ds as [|c ds]; [congruence|]. inversion F; subst. cbn [app skip_space]. rewrite digit_not_space by assumption. reflexivity. }
  destruct S as [<-|[<-|[<-|[]]]]; cbn [app].
  - assert (scan_sign (ds ++ tail) = (false, ds ++ tail)) as ->.
    { destruct ds as [|c ds]; [congruence|]. inversion F; subst. cbn [app scan_sign]. unfold digit in *. replace (c =? 45) with false by lia. replace (c =? 43) with false by lia. reflexivity. }
    rewrite scan_digits_app by assumption. cbn [fst streq]. change (2 ^ 63) with 9223372036854775808. lia.
  - change (scan_sign (43 :: ds ++ tail)) with (false, ds ++ tail). cbn match. rewrite scan_digits_app by assumption. cbn [fst streq Z.eqb Pos.eqb andb]. change (2 ^ 63) with 9223372036854775808. lia.
  - change (scan_sign (45 :: ds ++ tail)) with (true, ds ++ tail). cbn match. rewrite scan_digits_app by assumption. cbn [fst streq Z.eqb Pos.eqb andb]. change (2 ^ 63) with 9223372036854775808. lia.
Qed.
Lemma factor_unit : forall c f rest, size_unit c f -> size_rest (c :: rest) = c :: rest /\ size_factor (c :: rest) = f /\ no_digit_head (c :: rest).
Proof.
  intros c f rest H. unfold size_unit in H. cbn [In] in H. cbn [size_rest size_factor]. unfold no_digit_head, digit.
  destruct H as [[H ->]|[[H ->]|[[H ->]|[H ->]]]]; repeat (destruct H as [<-|H]); try contradiction; repeat split; try reflexivity; lia.
Qed.
Lemma skipped_app : forall blanks sign ds, Forall (fun c => c = 32) blanks -> Forall digit ds -> In sign [[]; [43]; [45]] -> Forall skipped (blanks ++ sign ++ ds).
Proof.
  intros blanks sign ds B F S. apply Forall_app. split; [eapply Forall_impl; [|exact B]; unfold skipped; intros; lia|]. apply Forall_app. split.
  - destruct S as [<-|[<-|[<-|[]]]]; repeat constructor; unfold skipped; lia.
  - eapply Forall_impl; [|exact F]. unfold skipped. auto.
Qed.
(** ** C158: a size is read as its number times its unit, and the arithmetic overflows exactly if that is not a long *)
Theorem C158_read : forall s v, size_of s v -> string_to_size s = if (-9223372036854775808 <=? v) && (v <=? 9223372036854775807) then Ok v else UB IntOverflow.
Proof.
  intros s v (blanks & sign & ds & tail & f & -> & B & N & F & L & T & V).
  assert (S : In sign [[]; [43]; [45]]) by (cbn [In]; intuition auto).
  assert (R : size_factor (size_rest (blanks ++ sign ++ ds ++ tail)) = f /\ no_digit_head tail).
  { replace (blanks ++ sign ++ ds ++ tail) with ((blanks ++ sign ++ ds) ++ tail) by (rewrite <- !app_assoc; reflexivity). rewrite rest_skip by (apply skipped_app; assumption).
    destruct T as [[-> ->]|(c & rest & -> & U)]; [split; reflexivity|]. destruct (factor_unit c f rest U) as (-> & E & D). auto. }
  destruct R as [R D]. unfold string_to_size. rewrite R, strtol_at by assumption.
  assert (V' : v = (if streq sign [45] then - dec_value ds else dec_value ds) * f) by (destruct V as [[[-> | ->] ->]|[-> ->]]; reflexivity).
  rewrite <- V'. unfold i64. change (2 ^ 63) with 9223372036854775808. change (- (9223372036854775808)) with (-9223372036854775808).
  match goal with |- (if ?a then _ else _) = (if ?b then _ else _) => replace a with b by lia end. reflexivity.
Qed.
Print Assumptions C158_read.
Example C158_ex : size_of [32; 43; 49; 50; 107; 66] 12288 /\ string_to_size [32; 43; 49; 50; 107; 66] = Ok 12288 /\ string_to_size [57; 57; 57; 57; 57; 57; 57; 57; 57; 57; 57; 103] = UB IntOverflow.
Proof.
  split; [|split; vm_compute; reflexivity]. exists [32], [43], [49; 50], [107; 66], 1024. split; [reflexivity|]. split; [repeat constructor|]. split; [discriminate|]. split; [repeat constructor; unfold digit; lia|]. split; [vm_compute; discriminate|].
  split; [right; exists 107, [66]; split; [reflexivity|unfold size_unit; cbn [In]; lia]|]. left. split; [auto|reflexivity].
Qed.

(** ** C159: the text of a size, read again *)
Lemma fmt_ld_at : forall v tail, -9223372036854775808 <= v <= 9223372036854775807 -> no_digit_head tail ->
  exists sign ds, fmt_ld v ++ tail = sign ++ ds ++ tail /\ In sign [[]; [43]; [45]] /\ ds <> [] /\ Forall digit ds /\ (if streq sign [45] then - dec_value ds else dec_value ds) = v /\ dec_value ds = Z.abs v.
Proof.
  intros v tail R T. unfold fmt_ld. destruct (v <? 0) eqn:N.
  - assert (D : decimal (- v) (fmt_u (- v))) by (apply fmt_u_decimal; lia). exists [45], (fmt_u (- v)). split; [reflexivity|]. split; [cbn [In]; auto|]. split; [eapply decimal_nonempty; eauto|]. destruct D as (F & V & _). split; [exact F|]. rewrite V. cbn [streq Z.eqb Pos.eqb andb]. lia.
  - assert (D : decimal v (fmt_u v)) by (apply fmt_u_decimal; lia). exists [], (fmt_u v). split; [reflexivity|]. split; [cbn [In]; auto|]. split; [eapply decimal_nonempty; eauto|]. destruct D as (F & V & _). split; [exact F|]. rewrite V. cbn [streq]. lia.
Qed.
(** strtol takes the least long, too, where the digits alone are no long. *)
Lemma strtol_ld : forall v tail, -9223372036854775808 <= v <= 9223372036854775807 -> no_digit_head tail -> fst (strtol (fmt_ld v ++ tail)) = v.
Proof.
  intros v tail R T. destruct (Z.eq_dec v (-9223372036854775808)) as [->|M].
  - unfold strtol. change (fmt_ld (-9223372036854775808)) with (45 :: fmt_u 9223372036854775808). assert (D : decimal 9223372036854775808 (fmt_u 9223372036854775808)) by (apply fmt_u_decimal; lia).
    change (skip_space ((45 :: fmt_u 9223372036854775808) ++ tail)) with (45 :: fmt_u 9223372036854775808 ++ tail). change (scan_sign (45 :: fmt_u 9223372036854775808 ++ tail)) with (true, fmt_u 9223372036854775808 ++ tail). cbn match.
    rewrite (scan_digits_decimal _ _ _ D T). reflexivity.
  - destruct (fmt_ld_at v tail R T) as (sign & ds & -> & S & N & F & V & A). change (sign ++ ds ++ tail) with ([] ++ sign ++ ds ++ tail). rewrite strtol_at; auto. lia.
Qed.
Lemma rest_ld : forall v tail, -9223372036854775808 <= v <= 9223372036854775807 -> no_digit_head tail -> size_rest (fmt_ld v ++ tail) = size_rest tail.
Proof. intros v tail R T. destruct (fmt_ld_at v tail R T) as (sign & ds & -> & S & N & F & V & A). rewrite app_assoc. apply rest_skip. apply (skipped_app [] sign ds); auto. Qed.
Theorem C159_round_trip_partial : forall v size, v <> 0 -> -9223372036854775808 <= v <= 9223372036854775807 -> zlen (size_text v) < size ->
  value_size v size = Ok (size_text v ++ [0]) /\ string_to_size (size_text v) = Ok v.
Proof.
  intros v size N R L. split.
  - unfold value_size. replace (v =? 0) with false by lia. rewrite firstn_all2 by (unfold zlen in L; lia). unfold push. rewrite zlen_nil, zlen_app, zlen_cons, zlen_nil. replace (size <? _) with false by lia. reflexivity.
  - assert (U : forall f u, size_unit u f -> 0 < f -> Z.rem v f = 0 -> string_to_size (fmt_ld (Z.quot v f) ++ [u; 32; 40] ++ fmt_ld v ++ [41]) = Ok v).
    { intros f u H P E. destruct (factor_unit u f ([32; 40] ++ fmt_ld v ++ [41]) H) as (A & B & C). change ([u; 32; 40] ++ fmt_ld v ++ [41]) with (u :: [32; 40] ++ fmt_ld v ++ [41]).
      assert (Q : v = f * Z.quot v f) by (pose proof (Z.quot_rem' v f); lia). assert (-9223372036854775808 <= Z.quot v f <= 9223372036854775807) by nia.
      unfold string_to_size. rewrite rest_ld, strtol_ld, A, B by assumption. rewrite Z.mul_comm, <- Q. unfold i64. change (2 ^ 63) with 9223372036854775808. replace (_ && _) with true by lia. reflexivity. }
    unfold size_text. cbn zeta. destruct (Z.rem v (1024 * 1024 * 1024) =? 0) eqn:G; [apply U; [unfold size_unit; cbn [In]; lia|lia|lia]|]. destruct (Z.rem v (1024 * 1024) =? 0) eqn:M; [apply U; [unfold size_unit; cbn [In]; lia|lia|lia]|].
    destruct (Z.rem v 1024 =? 0) eqn:K; [apply U; [unfold size_unit; cbn [In]; lia|lia|lia]|].
    unfold string_to_size. rewrite <- (app_nil_r (fmt_ld v)). rewrite rest_ld, strtol_ld by (try exact I; assumption). cbn [size_rest size_factor]. rewrite Z.mul_1_r. unfold i64. change (2 ^ 63) with 9223372036854775808. replace (_ && _) with true by lia. reflexivity.
Qed.
Print Assumptions C159_round_trip_partial.
(** A buffer of one octet is overrun when the value is 0, and only then. *)
Theorem C159_refuted : value_size 0 1 = UB OobWrite.
Proof. reflexivity. Qed.
Print Assumptions C159_refuted.
Theorem C159_within_partial : forall v size, 1 <= size -> v <> 0 \/ 2 <= size -> exists o, value_size v size = Ok o /\ zlen o <= size.
Proof.
  intros v size P H. unfold value_size. destruct (v =? 0) eqn:E; unfold push.
  - rewrite zlen_nil, !zlen_cons, zlen_nil. replace (size <? _) with false by lia. eexists. split; [reflexivity|]. cbn [app]. rewrite !zlen_cons, zlen_nil. lia.
  - assert (L : zlen (firstn (Z.to_nat (size - 1)) (size_text v)) <= size - 1) by (unfold zlen; rewrite firstn_length; lia). rewrite zlen_nil, zlen_app, zlen_cons, zlen_nil. replace (size <? _) with false by lia. eexists. split; [reflexivity|]. cbn [app]. rewrite zlen_app, zlen_cons, zlen_nil. lia.
Qed.
Print Assumptions C159_within_partial.
Example C159_ex : size_text 12288 = [49; 50; 107; 32; 40; 49; 50; 50; 56; 56; 41] /\ value_size (-5) 3 = Ok [45; 53; 0]. Proof. split; vm_compute; reflexivity. Qed.
