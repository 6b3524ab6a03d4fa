(** PropLibmyIo.v: C83 (read_bytes) and C84 (time arithmetic, ticks). *)
From Verif Require Import Base Lib ModelLibmyIo.

(** ** C83: whatever read(2) does *)
(** The octets stored are the first ones of the descriptor and the rest stays there; true: exactly those needed; false: fewer, and
    read failed or the descriptor was at its end. Never are more octets stored than needed. *)
Theorem C83_read : forall s needed rs buf r s2, read_bytes s needed rs buf r s2 -> 0 <= needed ->
  s = buf ++ s2 /\
  match r with
  | Some true => zlen buf = needed
  | Some false => zlen buf < needed /\ (In Failed rs \/ s2 = [])
  | None => zlen buf < needed
  end.
Proof.
  intros s needed rs buf r s2 H. induction H as [s n N|s n N|s n s' rs buf r s2 N R H IH|s n s' N R|s n s' N R|s n l s' rs buf r s2 N R NE H IH]; intros P.
  - split; [reflexivity|]. change (zlen (@nil Z)) with 0. lia.
  - split; [reflexivity|]. change (zlen (@nil Z)) with 0. lia.
  - inversion R; subst. destruct (IH P) as [-> IH2]. split; [reflexivity|]. destruct r as [[|]|]; auto. destruct IH2 as [? [?|?]]; split; auto. left. right. assumption.
  - inversion R; subst. split; [reflexivity|]. change (zlen (@nil Z)) with 0. split; [lia|left; left; reflexivity].
  - inversion R; subst; try congruence. split; [reflexivity|]. change (zlen (@nil Z)) with 0. split; [lia|right; reflexivity].
  - inversion R as [? ? NE2 L| | |]; subst; [|congruence]. destruct (IH ltac:(lia)) as [-> IH2]. split; [apply app_assoc|]. rewrite zlen_app. destruct r as [[|]|]; [lia| |lia].
    destruct IH2 as [? [?|?]]; (split; [lia|]); auto. left. right. assumption.
Qed.
Print Assumptions C83_read.
(** Without failures the answer says whether there were enough octets, however they arrived and however often read was interrupted. *)
Theorem C83_answer : forall s needed rs buf b s2, read_bytes s needed rs buf (Some b) s2 -> 0 <= needed -> ~ In Failed rs ->
  b = (needed <=? zlen s) /\ buf = firstn (Z.to_nat needed) s /\ s2 = skipn (Z.to_nat needed) s.
Proof.
  intros s needed rs buf b s2 H P NF. destruct (C83_read _ _ _ _ _ _ H P) as [-> Q]. destruct b.
  - split; [rewrite zlen_app; pose proof (zlen_nonneg _ s2); lia|]. replace (Z.to_nat needed) with (length buf) by (unfold zlen in Q; lia). rewrite firstn_app, skipn_app, firstn_all, skipn_all, Nat.sub_diag. cbn [firstn skipn]. rewrite app_nil_r. auto.
  - destruct Q as [Q [F|E]]; [contradiction|]. subst s2. rewrite app_nil_r. split; [lia|]. rewrite firstn_all2, skipn_all2 by (unfold zlen in Q; lia). auto.
Qed.
Print Assumptions C83_answer.
(** It returns after at most one call of read per octet needed and one more, not counting interrupted calls; and from every
    point where it has not returned it goes on, whatever read does next. *)
Definition counts (r : read_result) : bool := match r with Interrupted => false | _ => true end.
Theorem C83_calls : forall s needed rs buf r s2, read_bytes s needed rs buf r s2 -> 0 <= needed -> zlen (filter counts rs) <= needed + 1.
Proof.
  intros s needed rs buf r s2 H. induction H as [s n N|s n N|s n s' rs buf r s2 N R H IH|s n s' N R|s n s' N R|s n l s' rs buf r s2 N R NE H IH]; intros P; cbn [filter counts]; rewrite ?zlen_cons; change (zlen (@nil read_result)) with 0; try lia; auto.
  inversion R as [? ? NE2 L| | |]; subst; [|congruence]. specialize (IH ltac:(lia)). assert (1 <= zlen l) by (destruct l; [congruence|rewrite zlen_cons; pose proof (zlen_nonneg _ l); lia]). lia.
Qed.
Print Assumptions C83_calls.
Theorem C83_continues : forall s needed rs buf s2, read_bytes s needed rs buf None s2 -> 0 <= needed ->
  forall x s3, reads (needed - zlen buf) s2 x s3 -> exists buf' r, read_bytes s needed (rs ++ [x]) buf' r s3.
Proof.
  intros s needed rs buf s2 H. remember None as r eqn:RN. induction H as [s n N|s n N|s n s' rs buf r s2 N R H IH|s n s' N R|s n s' N R|s n l s' rs buf r s2 N R NE H IH]; intros P x s3 X; try discriminate.
  - change (zlen (@nil Z)) with 0 in X. rewrite Z.sub_0_r in X. cbn [app]. destruct x as [l| |].
    + destruct l as [|c l]; [exists [], (Some false); apply rb_eof; auto; lia|]. destruct (Z_gt_le_dec (n - zlen (c :: l)) 0) as [G|G].
      * exists ((c :: l) ++ []), None. eapply rb_some; [lia|exact X|discriminate|apply rb_wait; lia].
      * exists ((c :: l) ++ []), (Some true). eapply rb_some; [lia|exact X|discriminate|apply rb_done; lia].
    + exists [], None. eapply rb_again; [lia|exact X|]. apply rb_wait. lia.
    + exists [], (Some false). apply rb_error; auto; lia.
  - destruct (IH RN P x s3 X) as (b' & r' & G). exists b', r'. cbn [app]. eapply rb_again; eauto.
  - inversion R as [? ? NE2 L| | |]; subst; [|congruence]. rewrite zlen_app in X. destruct (IH eq_refl ltac:(lia) x s3) as (b' & r' & G); [replace (n - zlen l - zlen buf) with (n - (zlen l + zlen buf)) by lia; exact X|].
    exists (l ++ b'), r'. cbn [app]. eapply rb_some; eauto.
Qed.
Print Assumptions C83_continues.
Example C83_ex : read_bytes [1; 2; 3; 4] 3 [Interrupted; Data [1]; Interrupted; Data [2; 3]] [1; 2; 3] (Some true) [4].
Proof.
  apply rb_again with [1; 2; 3; 4]; [lia|constructor|]. apply (rb_some _ _ [1] [2; 3; 4] _ [2; 3]); [lia|apply (rd_data 3 [1] [2; 3; 4]); [discriminate|cbv; discriminate]|discriminate|]. apply rb_again with [2; 3; 4]; [reflexivity|constructor|].
  apply (rb_some _ _ [2; 3] [4] [] []); [reflexivity|apply (rd_data _ [2; 3] [4]); [discriminate|cbv; discriminate]|discriminate|]. apply rb_done. cbv. discriminate.
Qed.

(** ** C84: times *)
Definition nanos (t : timespec) : Z := 1000000000 * tv_sec t + tv_nsec t.
Definition normal (t : timespec) : Prop := 0 <= tv_nsec t < 1000000000.
(** The seconds of both are small enough not to overflow. *)
Definition modest (t : timespec) : Prop := - 2 ^ 61 <= tv_sec t <= 2 ^ 61.

Lemma i64_ok : forall v, - 9223372036854775808 <= v <= 9223372036854775807 -> i64 v = Ok v.
Proof. intros v V. unfold i64. replace ((- 9223372036854775808 <=? v) && (v <=? 9223372036854775807)) with true by lia. reflexivity. Qed.
Lemma carry_ok : forall k sec nsec, 0 <= nsec < 1000000000 * (Z.of_nat k + 1) -> - 2 ^ 62 <= sec -> sec + Z.of_nat k <= 2 ^ 62 + 1 -> Z.of_nat k < 2 ^ 32 ->
  exists t, carry_loop k sec nsec = Ok t /\ normal t /\ nanos t = 1000000000 * sec + nsec.
Proof.
  change (2 ^ 62) with 4611686018427387904. change (2 ^ 32) with 4294967296. induction k as [|k IH]; intros sec nsec N S0 S1 K.
  - exists {| tv_sec := sec; tv_nsec := nsec |}. cbn [carry_loop]. replace (nsec >=? 1000000000) with false by lia. unfold normal, nanos. cbn [tv_sec tv_nsec]. split; [reflexivity|]. split; lia.
  - cbn [carry_loop]. destruct (nsec >=? 1000000000) eqn:C.
    + rewrite !i64_ok by lia. cbn [bind]. rewrite ?i64_ok by lia. cbn [bind]. destruct (IH (sec + 1) (nsec - 1000000000)) as (t & E1 & E2 & E3); try lia. exists t. split; [exact E1|]. split; [exact E2|]. rewrite E3. lia.
    + exists {| tv_sec := sec; tv_nsec := nsec |}. unfold normal, nanos. cbn [tv_sec tv_nsec]. split; [reflexivity|]. split; lia.
Qed.
Theorem C84_add : forall a b, normal a -> normal b -> modest a -> modest b ->
  exists t, my_timespec_add 1 a b = Ok t /\ normal t /\ nanos t = nanos b + nanos a.
Proof.
  intros [as_ an] [bs bn]. unfold normal, modest, nanos, my_timespec_add. cbn [tv_sec tv_nsec]. change (2 ^ 61) with 2305843009213693952. intros A B MA MB. rewrite !i64_ok by lia. cbn [bind]. rewrite ?i64_ok by lia. cbn [bind].
  destruct (carry_ok 1 (bs + as_) (bn + an)) as (t & E1 & E2 & E3); [lia|change (2 ^ 62) with 4611686018427387904; lia|change (2 ^ 62) with 4611686018427387904; lia|reflexivity|]. exists t. split; [exact E1|]. split; [exact E2|]. unfold nanos in E3. lia.
Qed.
Print Assumptions C84_add.
Theorem C84_sub : forall a b, normal a -> normal b -> modest a -> modest b ->
  exists t, my_timespec_sub a b = Ok t /\ normal t /\ nanos t = nanos b - nanos a.
Proof.
  intros [as_ an] [bs bn]. unfold normal, modest, nanos, my_timespec_sub. cbn [tv_sec tv_nsec]. change (2 ^ 61) with 2305843009213693952. intros A B MA MB. rewrite !i64_ok by lia. cbn [bind]. rewrite ?i64_ok by lia. cbn [bind].
  destruct (bn - an <? 0) eqn:C; rewrite ?i64_ok by lia; cbn [bind].
  - rewrite ?i64_ok by lia. cbn [bind]. rewrite ?i64_ok by lia. cbn [bind]. eexists. split; [reflexivity|]. cbn [tv_sec tv_nsec]. split; lia.
  - eexists. split; [reflexivity|]. cbn [tv_sec tv_nsec]. split; lia.
Qed.
Print Assumptions C84_sub.
(** The sign of a difference is the order of the two times, as my_rate_sleep uses it (292 years suffice). *)
Theorem C84_order : forall a b, normal a -> normal b -> - 2 ^ 32 <= tv_sec a <= 2 ^ 32 -> - 2 ^ 32 <= tv_sec b <= 2 ^ 32 ->
  exists t n, my_timespec_sub a b = Ok t /\ ts_nanos t = Ok n /\ (n > 0 <-> nanos a < nanos b).
Proof.
  intros a b A B MA MB. change (2 ^ 32) with 4294967296 in *. destruct (C84_sub a b A B) as (t & E1 & E2 & E3); [unfold modest; change (2 ^ 61) with 2305843009213693952; lia|unfold modest; change (2 ^ 61) with 2305843009213693952; lia|].
  exists t, (nanos t). split; [exact E1|]. unfold normal, nanos in *. split; [|lia]. unfold ts_nanos. rewrite i64_ok by lia. cbn [bind]. rewrite ?i64_ok by lia. f_equal. lia.
Qed.
Print Assumptions C84_order.
(** The next tick is after now, and at most one period later. *)
Theorem C84_next_tick : forall now period, normal now -> normal period -> 0 <= tv_sec now <= 2 ^ 61 -> 0 <= tv_sec period <= 2 ^ 60 -> 0 < nanos period ->
  exists t, calc_next_tick 1 now period = Ok t /\ normal t /\ nanos now < nanos t <= nanos now + nanos period.
Proof.
  intros [ns nn] [ps pn]. unfold normal, nanos, calc_next_tick, crem. cbn [tv_sec tv_nsec]. intros N P Sn Sp PP. change (2 ^ 61) with 2305843009213693952 in Sn. change (2 ^ 60) with 1152921504606846976 in Sp.
  assert (S1 : exists sec, (if ps >? 0 then s <- i64 (ns - Z.rem ns ps) ;; i64 (s + ps) else Ok ns) = Ok sec /\ 0 <= sec /\ (if ps >? 0 then ns < sec <= ns + ps else sec = ns)).
  { destruct (ps >? 0) eqn:C; [|exists ns; repeat split; lia]. rewrite Z.rem_mod_nonneg by lia. pose proof (Z.mod_pos_bound ns ps ltac:(lia)). pose proof (Z.mod_le ns ps ltac:(lia) ltac:(lia)). rewrite i64_ok by lia. cbn [bind]. rewrite ?i64_ok by lia. eexists. split; [reflexivity|]. lia. }
  assert (S2 : exists nsec, (if pn >? 0 then s <- i64 (nn - Z.rem nn pn) ;; i64 (s + pn) else Ok 0) = Ok nsec /\ 0 <= nsec /\ (if pn >? 0 then nn < nsec <= nn + pn else nsec = 0)).
  { destruct (pn >? 0) eqn:C; [|exists 0; repeat split; lia]. rewrite Z.rem_mod_nonneg by lia. pose proof (Z.mod_pos_bound nn pn ltac:(lia)). pose proof (Z.mod_le nn pn ltac:(lia) ltac:(lia)). rewrite i64_ok by lia. cbn [bind]. rewrite ?i64_ok by lia. eexists. split; [reflexivity|]. lia. }
  destruct S1 as (sec & -> & S1 & S1'). destruct S2 as (nsec & -> & S2 & S2'). cbn [bind].
  destruct (carry_ok 1 sec nsec) as (t & E1 & E2 & E3); [destruct (pn >? 0); lia|change (2 ^ 62) with 4611686018427387904; lia|change (2 ^ 62) with 4611686018427387904; destruct (ps >? 0); lia|reflexivity|].
  exists t. split; [exact E1|]. split; [exact E2|]. unfold nanos in E3. rewrite E3. destruct (ps >? 0) eqn:C1, (pn >? 0) eqn:C2; lia.
Qed.
Print Assumptions C84_next_tick.
Example C84_ex : my_timespec_add 1 {| tv_sec := 1; tv_nsec := 600000000 |} {| tv_sec := 2; tv_nsec := 700000000 |} = Ok {| tv_sec := 4; tv_nsec := 300000000 |} /\
  my_timespec_sub {| tv_sec := 1; tv_nsec := 600000000 |} {| tv_sec := 2; tv_nsec := 500000000 |} = Ok {| tv_sec := 0; tv_nsec := 900000000 |} /\
  calc_next_tick 1 {| tv_sec := 5; tv_nsec := 950000000 |} {| tv_sec := 0; tv_nsec := 300000000 |} = Ok {| tv_sec := 6; tv_nsec := 200000000 |}.
Proof. vm_compute. repeat split; reflexivity. Qed.
