(** PropRate.v: the rate limiter (C152, C153). *)
From Coq Require Import Sorting.Sorted.
From Verif Require Import Base Lib ModelLibmyIo ModelRate SpecRate PropLibmyIo.

Lemma i64_inv : forall v y, i64 v = Ok y -> y = v /\ - 9223372036854775808 <= v <= 9223372036854775807.
Proof. intros v y. unfold i64. destruct (_ && _) eqn:E; [|discriminate]. intros H. assert (y = v) by congruence. lia. Qed.
Lemma of_normal : forall n, normal (of_nanos n) /\ nanos (of_nanos n) = n.
Proof. intros n. unfold normal, nanos, of_nanos, billion. cbn [tv_sec tv_nsec]. pose proof (Z.div_mod n 1000000000). pose proof (Z.mod_pos_bound n 1000000000). lia. Qed.
Lemma to_nanos_eq : forall t, to_nanos t = nanos t. Proof. reflexivity. Qed.
Lemma carry_inv : forall k sec nsec t, carry_loop k sec nsec = Ok t -> nanos t = 1000000000 * sec + nsec.
Proof.
  induction k as [|k IH]; intros sec nsec t E; cbn [carry_loop] in E; destruct (nsec >=? 1000000000); try discriminate.
  - assert (t = {| tv_sec := sec; tv_nsec := nsec |}) as -> by congruence. reflexivity.
  - destruct (i64 (sec + 1)) as [a| | |] eqn:A; try discriminate. apply i64_inv in A as [-> _]. cbn [bind] in E. destruct (i64 (nsec - 1000000000)) as [b| | |] eqn:B; try discriminate. apply i64_inv in B as [-> _]. cbn [bind] in E.
    apply IH in E. lia.
  - assert (t = {| tv_sec := sec; tv_nsec := nsec |}) as -> by congruence. reflexivity.
Qed.
(** What is not before the next tick is in a later tick. *)
Lemma next_later : forall t p n w, is_period p -> normal t -> 0 <= tv_sec t -> calc_next_tick 1 t p = Ok n -> normal w -> nanos n <= nanos w -> later_tick p t w.
Proof.
  intros [s ns] [ps pn] n [ws wn] P. unfold normal, nanos, later_tick, calc_next_tick, crem. cbn [tv_sec tv_nsec]. intros N S0 E W L. destruct P as [[P1 P2]|[P1 P2]]; cbn [tv_sec tv_nsec] in P1, P2; subst.
  - change (1 >? 0) with true in E. change (0 >? 0) with false in E. cbn match in E. rewrite Z.rem_mod_nonneg, Z.mod_1_r in E by lia.
    destruct (i64 (s - 0)) as [a| | |] eqn:A; try discriminate. apply i64_inv in A as [-> _]. cbn [bind] in E. destruct (i64 (s - 0 + 1)) as [b| | |] eqn:B; try discriminate. apply i64_inv in B as [-> _]. cbn [bind] in E.
    apply carry_inv in E. unfold nanos in E. left. lia.
  - change (0 >? 0) with false in E. replace (pn >? 0) with true in E by lia. cbn match in E. cbn [bind] in E. rewrite Z.rem_mod_nonneg in E by lia.
    destruct (i64 (ns - ns mod pn)) as [a| | |] eqn:A; try discriminate. apply i64_inv in A as [-> _]. cbn [bind] in E. destruct (i64 (ns - ns mod pn + pn)) as [b| | |] eqn:B; try discriminate. apply i64_inv in B as [-> _]. cbn [bind] in E.
    apply carry_inv in E. unfold nanos in E. pose proof (Z.div_mod ns pn). pose proof (Z.mod_pos_bound ns pn).
    destruct (Z.eq_dec s ws) as [->|D]; [right|left; lia]. split; [lia|]. split; [reflexivity|]. assert (ns / pn + 1 <= wn / pn); [|lia]. apply Z.div_le_lower_bound; lia.
Qed.
Lemma before_later : forall p a b c, is_period p -> normal a -> normal b -> nanos a <= nanos b -> later_tick p b c -> later_tick p a c.
Proof.
  intros [ps pn] [sa na] [sb nb] [sc nc] P. unfold normal, nanos, later_tick. cbn [tv_sec tv_nsec]. intros A B L [H|(X & -> & H)]; [left; lia|].
  destruct (Z.eq_dec sa sc) as [->|D]; [right|left; lia]. split; [exact X|]. split; [reflexivity|]. eapply Z.le_lt_trans; [|exact H]. apply Z.div_le_mono; lia.
Qed.
Lemma later_trans : forall p a b c, later_tick p a b -> later_tick p b c -> later_tick p a c.
Proof. intros p a b c. unfold later_tick. lia. Qed.

(** The state between two calls; [last]: the time of the last return. *)
Definition between (p : timespec) (r : limiter) (last : timespec) : Prop :=
  l_freq r = 0 /\ l_period r = p /\ 0 <= tv_sec last /\ normal last /\ (l_count r = 0 \/ calc_next_tick 1 last p = Ok (l_next r)).
Lemma sleep_step : forall p r last now late r' ret, is_period p -> between p r last -> normal now -> nanos last <= nanos now -> 0 <= late ->
  my_rate_sleep r now late = Ok (r', ret) -> later_tick p last ret /\ nanos now <= nanos ret /\ between p r' ret.
Proof.
  intros p r last now late r' ret P (F & Q & S0 & NL & D) N L LA E. unfold my_rate_sleep in E. cbn zeta in E.
  assert (SN : 0 <= tv_sec now) by (unfold normal, nanos in *; lia).
  set (r1 := if l_count _ =? 1 then _ else _) in E.
  assert (R1 : exists r2 t, r1 = Ok r2 /\ l_freq r2 = 0 /\ l_period r2 = p /\ calc_next_tick 1 t p = Ok (l_next r2) /\ normal t /\ 0 <= tv_sec t /\ nanos last <= nanos t /\ nanos t <= nanos now).
  { subst r1. cbn [l_count l_period] in *. destruct (_ =? 1) eqn:C.
    - rewrite Q in *. destruct (calc_next_tick 1 now p) as [t| | |] eqn:K; try discriminate. cbn [bind]. eexists. exists now. split; [reflexivity|]. cbn [l_freq l_period l_next]. split; [exact F|]. split; [reflexivity|]. split; [exact K|]. split; [exact N|]. split; [exact SN|]. split; [exact L|]. lia.
    - destruct D as [D|D]; [rewrite D in C; discriminate C|]. eexists. exists last. split; [reflexivity|]. cbn [l_freq l_period l_next]. split; [exact F|]. split; [exact Q|]. split; [exact D|]. split; [exact NL|]. split; [exact S0|]. split; [lia|exact L]. }
  destruct R1 as (r2 & t & R1 & F2 & Q2 & K & NT & ST & LT & TN). rewrite R1 in E. cbn [bind] in E. rewrite F2 in E. change (negb (0 =? 0)) with false in E. cbn [andb] in E. cbn match in E. cbn [bind] in E.
  destruct (my_timespec_sub now (l_next r2)) as [til| | |] eqn:T; try discriminate. cbn [bind] in E. destruct (ts_nanos til) as [n| | |] eqn:TS; try discriminate. cbn [bind] in E.
  assert (NE : n = nanos (l_next r2) - nanos now).
  { unfold ts_nanos in TS. destruct (i64 (tv_sec til * 1000000000)) as [q| | |] eqn:A; try discriminate. apply i64_inv in A as [-> _]. cbn [bind] in TS. apply i64_inv in TS as [-> _].
    unfold my_timespec_sub in T. destruct (i64 (tv_sec (l_next r2) - tv_sec now)) as [q| | |] eqn:A; try discriminate. apply i64_inv in A as [-> _]. cbn [bind] in T. destruct (i64 (tv_nsec (l_next r2) - tv_nsec now)) as [q| | |] eqn:A; try discriminate. apply i64_inv in A as [-> _]. cbn [bind] in T.
    destruct (_ <? 0).
    - destruct (i64 (_ - 1)) as [q| | |] eqn:A; try discriminate. apply i64_inv in A as [-> _]. cbn [bind] in T. destruct (i64 (_ + 1000000000)) as [q| | |] eqn:A; try discriminate. apply i64_inv in A as [-> _]. cbn [bind] in T.
      match type of T with Ok ?x = _ => assert (til = x) as -> by congruence end. unfold nanos. cbn [tv_sec tv_nsec]. lia.
    - match type of T with Ok ?x = _ => assert (til = x) as -> by congruence end. unfold nanos. cbn [tv_sec tv_nsec]. lia. }
  set (w := if n >? 0 then _ else now) in E. assert (W : normal w /\ nanos (l_next r2) <= nanos w /\ nanos now <= nanos w).
  { subst w. destruct (n >? 0) eqn:G; [|split; [exact N|lia]]. destruct (of_normal (to_nanos (l_next r2) + late)) as [A B]. split; [exact A|]. rewrite B. unfold nanos, to_nanos, billion in *. lia. }
  destruct W as (WN & WL & WG). destruct (calc_next_tick 1 w (l_period r2)) as [t'| | |] eqn:K'; try discriminate. cbn [bind] in E.
  assert (ret = w) as -> by congruence. split; [|split; [exact WG|]].
  - apply before_later with t; auto. eapply next_later; eauto.
  - match type of E with Ok (?x, _) = _ => assert (r' = x) as -> by congruence end. unfold between. cbn [l_freq l_period l_next l_count]. rewrite F2, Q2. rewrite Q2 in K'. split; [reflexivity|]. split; [reflexivity|]. split; [|split; [exact WN|right; exact K']]. unfold normal, nanos in *. lia.
Qed.
Lemma calls_sorted : forall p cs r last ts, is_period p -> between p r last -> Forall (fun c => 0 <= fst c /\ 0 <= snd c) cs -> calls r last cs = Ok ts ->
  StronglySorted (later_tick p) (last :: ts).
Proof.
  intros p. induction cs as [|[gap late] cs IH]; intros r last ts P B F E; cbn [calls] in E.
  - assert (ts = []) as -> by congruence. repeat constructor.
  - inversion F as [|? ? [G LA] F']; subst. cbn [fst snd] in *. destruct (my_rate_sleep r _ late) as [[r' ret]| | |] eqn:S; try discriminate. cbn [bind] in E.
    destruct (calls r' ret cs) as [ts'| | |] eqn:C; try discriminate. cbn [bind] in E. assert (ts = ret :: ts') as -> by congruence.
    destruct (of_normal (to_nanos last + gap)) as [A1 A2]. destruct (sleep_step p r last _ late r' ret P B A1) as (H1 & H2 & H3); auto; [rewrite A2; unfold to_nanos, nanos, billion; lia|].
    assert (K := IH r' ret ts' P H3 F' C). constructor; [exact K|]. constructor; [exact H1|]. inversion K as [|? ? ? FA]; subst. eapply Forall_impl; [|exact FA]. intros x X. eapply later_trans; eauto.
Qed.

(** ** C152: without adjustment (freq = 0) at most one call of my_rate_sleep returns per tick *)
Theorem C152_ticks : forall rate r t0 cs ts, 1 <= rate <= 1000000000 -> my_rate_init rate 0 = Ok r -> normal t0 -> 0 <= tv_sec t0 ->
  Forall (fun c => 0 <= fst c /\ 0 <= snd c) cs -> calls r t0 cs = Ok ts -> StronglySorted (later_tick (l_period r)) ts.
Proof.
  intros rate r t0 cs ts R I N S0 F C. assert (K : StronglySorted (later_tick (l_period r)) (t0 :: ts)); [|inversion K; auto].
  unfold my_rate_init, period_of in I. replace (rate =? 0) with false in I by lia. cbn [bind] in I. match type of I with Ok ?x = _ => assert (r = x) as -> by congruence end. cbn [l_period].
  eapply calls_sorted; [| |exact F|exact C].
  - unfold is_period, billion. cbn [tv_sec tv_nsec]. destruct (Z.eq_dec rate 1) as [->|D]; [left; split; reflexivity|right]. rewrite Z.div_small by lia. split; [reflexivity|].
    assert (1 <= 1000000000 / rate) by (apply Z.div_le_lower_bound; lia). assert (1000000000 / rate < 1000000000) by (apply Z.div_lt; lia). rewrite Z.mod_small by lia. lia.
  - unfold between. cbn [l_freq l_period l_count]. split; [reflexivity|]. split; [reflexivity|]. split; [exact S0|]. split; [exact N|left; reflexivity].
Qed.
Print Assumptions C152_ticks.
(** The same for any period (whatever the doubles make of 1.0 / rate). *)
Theorem C152_any_period : forall r t0 cs ts, is_period (l_period r) -> l_freq r = 0 -> l_count r = 0 -> normal t0 -> 0 <= tv_sec t0 ->
  Forall (fun c => 0 <= fst c /\ 0 <= snd c) cs -> calls r t0 cs = Ok ts -> StronglySorted (later_tick (l_period r)) ts.
Proof.
  intros r t0 cs ts P F0 C0 N S0 F C. assert (K : StronglySorted (later_tick (l_period r)) (t0 :: ts)); [|inversion K; auto].
  apply (calls_sorted _ cs r t0 ts); auto. unfold between. split; [exact F0|]. split; [reflexivity|]. split; [exact S0|]. split; [exact N|left; exact C0].
Qed.
Print Assumptions C152_any_period.
(** 3 per second: a late wake-up at 0.9 s, then the short last tick of the second (1 ns), then the next second. *)
Example C152_ex : exists r, my_rate_init 3 0 = Ok r /\
  calls r (of_nanos 5000000000) [(400000000, 0); (0, 250000000); (0, 0); (5, 0)] = Ok [of_nanos 5666666666; of_nanos (5999999999 + 250000000); of_nanos 6333333333; of_nanos 6666666666].
Proof. eexists. split; [reflexivity|]. vm_compute. reflexivity. Qed.

(** But a tick is not 1 / rate of a second: at 3 per second with nothing late, four calls return in less than a second, two of them 1 ns apart. *)
Theorem C153_per_second_refuted : exists r a b c d, my_rate_init 3 0 = Ok r /\
  calls r (of_nanos 5000000000) [(0, 0); (0, 0); (0, 0); (0, 0); (0, 0)] = Ok [of_nanos 5333333333; a; b; c; d] /\
  nanos d - nanos a < 1000000000 /\ nanos d - nanos c = 1.
Proof. do 5 eexists. split; [reflexivity|]. split; [vm_compute; reflexivity|]. vm_compute. auto. Qed.
Print Assumptions C153_per_second_refuted.

(** ** C153: adjustment *)
(** my_rate_init(1, 1): two calls in a row make the adjusted rate 0 and the period infinite, whose conversion is undefined. *)
Theorem C153_refuted : exists r, my_rate_init 1 1 = Ok r /\ calls r (of_nanos 5500000000) [(0, 0); (0, 0)] = UB IntOverflow.
Proof. eexists. split; [reflexivity|]. vm_compute. reflexivity. Qed.
Print Assumptions C153_refuted.
(** And a rate that fell below 100 never rises again, however slow the calls have become. *)
Theorem C153_ratchet_partial : forall r now r', 0 <= l_adj r < 100 -> 0 < l_rate r -> 0 <= l_count r -> adjust_rate r now = Ok r' -> 0 < l_adj r' <= l_adj r.
Proof.
  intros r now r' A R C E. unfold adjust_rate in E. destruct (my_timespec_sub _ now) as [e| | |]; try discriminate. cbn [bind] in E. destruct (ts_nanos e) as [ns| | |]; try discriminate. cbn [bind] in E.
  destruct (ns <=? 0) eqn:N; [discriminate|]. cbn zeta in E. set (a := l_count r * billion / ns) in *. assert (A0 : 0 <= a) by (apply Z.div_pos; unfold billion; lia). destruct (a >? 4294967295); [discriminate|].
  set (j := if l_rate r * 100 <? 99 * a then _ else _) in E. assert (J : 0 <= j <= l_adj r).
  { subst j. destruct (l_rate r * 100 <? 99 * a) eqn:E1; [split; [apply Z.div_pos; lia|apply Z.div_le_upper_bound; lia]|].
    destruct (l_rate r * 100 >? 101 * a) eqn:E2.
    - split; [apply Z.div_pos; lia|]. assert (l_adj r * 101 / 100 < l_adj r + 1); [|lia]. apply Z.div_lt_upper_bound; lia.
    - assert (0 < a) by lia. split; [apply Z.div_pos; nia|]. assert (l_adj r * l_rate r / a < l_adj r + 1); [|lia]. apply Z.div_lt_upper_bound; nia. }
  destruct (j >? 4294967295); [discriminate|]. unfold period_of in E. destruct (j =? 0) eqn:Z0; [discriminate|]. cbn [bind] in E. match type of E with Ok ?x = _ => assert (r' = x) as -> by congruence end. cbn [l_adj]. lia.
Qed.
Print Assumptions C153_ratchet_partial.
Example C153_ex : exists r r', my_rate_init 50 2 = Ok r /\ adjust_rate {| l_next := of_nanos 0; l_period := l_period r; l_start := of_nanos 0; l_count := 4; l_adj := 50; l_rate := 50; l_freq := 2 |} (of_nanos 4000000000) = Ok r' /\ l_adj r' = 50.
Proof. eexists. eexists. split; [reflexivity|]. split; [vm_compute; reflexivity|]. vm_compute. reflexivity. Qed.
