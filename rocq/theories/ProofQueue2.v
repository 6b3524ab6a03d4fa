(** ProofQueue2.v: every step of the ring keeps the invariant. *)
From Verif Require Import Base Lib ModelQueue SpecQueue ProofQueue.

Lemma rd_setz_same : forall l k v, 0 <= k < zlen l -> rd (setz l k v) k = Ok v.
Proof.
  intros l k v K. unfold rd, setz, zlen in *. replace (k <? 0) with false by lia.
  rewrite nth_error_app2 by (rewrite firstn_length; lia). rewrite firstn_length. replace (Z.to_nat k - Nat.min (Z.to_nat k) (length l))%nat with 0%nat by lia. reflexivity.
Qed.
Lemma rd_setz_other : forall l k j v, 0 <= k < zlen l -> j <> k -> rd (setz l k v) j = rd l j.
Proof.
  intros l k j v K N. unfold rd, setz, zlen in *. destruct (j <? 0) eqn:J; [reflexivity|].
  assert (E : nth_error (firstn (Z.to_nat k) l ++ v :: skipn (Z.to_nat (k + 1)) l) (Z.to_nat j) = nth_error l (Z.to_nat j)); [|rewrite E; reflexivity].
  assert (j < k \/ k < j) as [C|C] by lia.
  - rewrite nth_error_app1 by (rewrite firstn_length; lia). rewrite <- (firstn_skipn (Z.to_nat k) l) at 2. rewrite nth_error_app1 by (rewrite firstn_length; lia). reflexivity.
  - rewrite nth_error_app2 by (rewrite firstn_length; lia). rewrite firstn_length. replace (Z.to_nat j - Nat.min (Z.to_nat k) (length l))%nat with (S (Z.to_nat j - Z.to_nat (k + 1)))%nat by lia.
    cbn [nth_error]. rewrite <- (firstn_skipn (Z.to_nat (k + 1)) l) at 2. rewrite nth_error_app2 by (rewrite firstn_length; lia). rewrite firstn_length. f_equal. lia.
Qed.
Lemma zlen_setz : forall (l : bytes) k v, 0 <= k < zlen l -> zlen (setz l k v) = zlen l.
Proof. intros l k v K. unfold setz, zlen in *. rewrite app_length, firstn_length. cbn [length]. rewrite skipn_length. lia. Qed.
Lemma nth_error_same : forall A (a b : list A), (forall n, nth_error a n = nth_error b n) -> a = b.
Proof.
  induction a as [|x a IH]; intros [|y b] H; auto; try (specialize (H 0%nat); discriminate H).
  pose proof (H 0%nat) as E. injection E as ->. f_equal. apply IH. intros n. apply (H (S n)).
Qed.
Lemma rd_all : forall a b : bytes, zlen a = zlen b -> (forall k v, rd a k = Ok v -> rd b k = Ok v) -> a = b.
Proof.
  intros a b L H. apply nth_error_same. intros n. destruct (nth_error a n) as [v|] eqn:E.
  - specialize (H (Z.of_nat n) v). unfold rd in H. replace (Z.of_nat n <? 0) with false in H by lia. rewrite Nat2Z.id, E in H. specialize (H eq_refl). destruct (nth_error b n); [congruence|discriminate].
  - symmetry. apply nth_error_None. apply nth_error_None in E. unfold zlen in L. lia.
Qed.
Lemma removal : forall (a b : list Z) k x, ~ In x (a ++ b) -> x <> k -> ~ In x (a ++ k :: b).
Proof. intros a b k x H N I. apply H. rewrite in_app_iff in *. cbn in I. intuition congruence. Qed.

Section Steps.
Variables num size : Z.
Hypothesis QA : queue_args num size.
Hypothesis OF : offsets_fit num size.
Notation inv := (inv num size).

Theorem inv_step : forall tr c e c' I fR nR fI, inv tr c I fR nR fI -> step num size c e c' ->
  exists I' fR' nR' fI', inv (tr ++ match e with Some x => [x] | None => [] end) c' I' fR' nR' fI' /\ prefix I I'.
Proof.
  intros tr c e c' I fR nR fI V St. pose proof (num_pos num size QA) as NP. destruct V as [ORD SZ GD HD PL TL CL CN PI CI FA].
  assert (HH : sees (q_pbuf c) (q_mem c) LHead = zlen I mod num). { destruct (GD (q_pbuf c) []) as [A _]; [rewrite app_nil_r; auto|]. rewrite HD in A. exact A. }
  assert (HT : sees (q_pbuf c) (q_mem c) LTail = fR mod num). { unfold sees, load. rewrite drain_tail by auto. specialize (TL [] (q_cbuf c) eq_refl). change (zlen (@nil (loc * Z))) with 0 in TL. rewrite Z.add_0_r in TL. exact TL. }
  assert (CH : sees (q_cbuf c) (q_mem c) LHead = fI mod num). { unfold sees, load. destruct (drain_head (q_cbuf c) (q_mem c) CL) as [-> _]. destruct (GD [] (q_pbuf c) eq_refl) as [A _]. change (heads []) with 0 in A. rewrite Z.add_0_r in A. exact A. }
  assert (CT : sees (q_cbuf c) (q_mem c) LTail = nR mod num). { unfold sees, load. rewrite (TL (q_cbuf c) []) by (rewrite app_nil_r; auto). rewrite CN. reflexivity. }
  assert (CD : forall i, sees (q_cbuf c) (q_mem c) (LData i) = m_data (q_mem c) i). { intros i. unfold sees, load. destruct (drain_head (q_cbuf c) (q_mem c) CL) as [_ ->]. reflexivity. }
  assert (PX : prefix I I) by (exists []; rewrite app_nil_r; auto).
  destruct St as [c w b E|c w b E|c it E L|c it E|c it h E sp|c it h sp a k b v E R|c it h sp E|c it ok sp E|c got E L|c got E|c got h E t cnt|c got t cnt a k b E|c got t cnt E EB|c got t cnt E|c res cnt E];
    try rewrite E in PI; try rewrite E in CI; cbn [pinv cinv] in PI, CI; rewrite ?app_nil_r.
  - (* a store of the producer reaches memory *)
    exists I, fR, nR, (fI + heads [w]). split; auto. rewrite E in *.
    assert (LW : fst w <> LTail) by (inversion PL; auto). assert (TW : m_tail (store (q_mem c) w) = m_tail (q_mem c)) by (destruct w as [[] ?]; cbn in *; congruence).
    change (w :: b) with ([w] ++ b) in HD. rewrite heads_app in HD. pose proof (heads_nonneg [w]). pose proof (heads_nonneg b).
    constructor; cbn [q_mem q_pbuf q_cbuf q_prod q_cons q_fault]; auto; try lia.
    + intros p q X. specialize (GD (w :: p) q). rewrite X in GD. specialize (GD eq_refl). change (w :: p) with ([w] ++ p) in GD. rewrite heads_app, drain_app in GD. rewrite <- Z.add_assoc. exact GD.
    + inversion PL; auto.
    + intros p q X. rewrite <- (TL p q X). apply drain_tail_ext. exact TW.
    + eapply cinv_mono; [exact CI|lia].
  - (* a store of the consumer reaches memory *)
    exists I, (fR + 1), nR, fI. split; auto. rewrite E in *. assert (LW : fst w = LTail) by (inversion CL; auto). rewrite zlen_cons in CN. pose proof (zlen_nonneg _ b).
    assert (HW : m_head (store (q_mem c) w) = m_head (q_mem c) /\ forall i, m_data (store (q_mem c) w) i = m_data (q_mem c) i) by (destruct w as [l v]; cbn [fst] in LW; subst l; auto).
    destruct HW as [HW DW].
    constructor; cbn [q_mem q_pbuf q_cbuf q_prod q_cons q_fault]; auto; try lia.
    + intros p q X. destruct (GD p q X) as [A B]. destruct (drain_data_ext p _ _ HW DW) as [HE DE]. split; [rewrite HE; exact A|]. intros i it K N k v R. rewrite DE. eapply B; eauto.
    + intros p q X. specialize (TL (w :: p) q). rewrite X in TL. specialize (TL eq_refl). rewrite zlen_cons in TL. replace (fR + 1 + zlen p) with (fR + (zlen p + 1)) by lia. exact TL.
    + inversion CL; auto.
    + eapply pinv_mono; [exact PI|lia|]. intros i. destruct (drain_data_ext (q_pbuf c) _ _ HW DW) as [_ DE]. symmetry. apply DE.
  - (* insert called *)
    exists I, fR, nR, fI. split; auto. constructor; cbn [set_prod q_mem q_pbuf q_cbuf q_prod q_cons q_fault]; auto.
    + cbn [pinv]. unfold inserted, pending, last_space in *. rewrite !fold_snoc. cbn [ins_step fst snd]. destruct PI as (A & B & C). auto.
    + apply cinv_event; auto.
  - exists I, fR, nR, fI. split; auto. constructor; cbn [set_prod q_mem q_pbuf q_cbuf q_prod q_cons q_fault]; auto. cbn [pinv]. rewrite HH. intuition.
  - exists I, fR, nR, fI. split; auto. destruct PI as (A & B & C & D & ->). assert (SP : sp = num - 1 - (zlen I - fR)) by (unfold sp; rewrite HT; apply (space_val num size QA); lia).
    constructor; cbn [set_prod q_mem q_pbuf q_cbuf q_prod q_cons q_fault]; auto. clearbody sp. destruct (sp >=? 1) eqn:S1; cbn [pinv].
    + split; [exact A|]. split; [exact B|]. split; [lia|]. split; [exact D|]. split; [reflexivity|]. split; [lia|]. split; [apply offsets_range|].
      intros k v R NI. apply rd_range in R. exfalso. apply NI, offsets_in. lia.
    + repeat split; auto; lia.
  - (* one octet copied in *)
    exists I, fR, nR, fI. split; auto. destruct PI as (A & B & C & D & -> & SP & RG & DN). pose proof (rd_range _ _ _ R) as KR. rewrite D in KR.
    set (w := (LData (slot (zlen I mod num) size + k), v)).
    constructor; cbn [check put_prod set_prod q_mem q_pbuf q_cbuf q_prod q_cons q_fault]; auto.
    + intros p q X. apply snoc_split in X as [[-> ->]|(q' & -> & X)]; [|apply (GD p q' X)]. destruct (GD (q_pbuf c) []) as [G1 G2]; [rewrite app_nil_r; auto|].
      rewrite drain_app, heads_app. change (heads [w]) with 0. rewrite Z.add_0_r. split; [exact G1|]. intros i it' K N j u RJ.
      assert (ZJ : zlen it' = size) by (rewrite Forall_forall in SZ; apply SZ; eapply nth_error_In; eauto). pose proof (rd_range _ _ _ RJ) as JR. rewrite ZJ in JR.
      cbn [drain fold_left store w fst snd m_data]. replace (slot (i mod num) size + j =? slot (zlen I mod num) size + k) with false; [eapply G2; eauto|].
      symmetry. apply Z.eqb_neq. intros X. symmetry in X. revert X. apply (slot_apart num size QA OF); lia.
    + rewrite heads_app. change (heads [w]) with 0. lia.
    + apply Forall_app. split; [exact PL|]. constructor; [discriminate|constructor].
    + cbn [pinv]. split; [exact A|]. split; [exact B|]. split; [exact C|]. split; [exact D|]. split; [reflexivity|]. split; [exact SP|].
      split. { unfold range in *. rewrite Forall_app in *. destruct RG as [RA RB]. inversion RB; auto. }
      intros j u RJ NI. rewrite drain_app. cbn [drain fold_left store w fst snd m_data]. destruct (Z.eqb_spec (slot (zlen I mod num) size + j) (slot (zlen I mod num) size + k)) as [X|X].
      * assert (j = k) by lia. subst. congruence.
      * apply DN; auto. apply removal; auto. intros ->. apply X. reflexivity.
    + rewrite FA. rewrite (slot_in num size QA OF) by lia. reflexivity.
  - (* head stored *)
    destruct PI as (A & B & C & D & -> & SP & RG & DN). exists (I ++ [it]), fR, nR, fI. split; [|exists [it]; auto]. rewrite (next_val num size QA).
    assert (ZI : zlen (I ++ [it]) = zlen I + 1) by (rewrite zlen_app; reflexivity).
    assert (NX : forall i, 0 <= i < zlen I -> nth_error (I ++ [it]) (Z.to_nat i) = nth_error I (Z.to_nat i)). { intros i K. apply nth_error_app1. unfold zlen in K. lia. }
    set (w := (LHead, (zlen I + 1) mod num)).
    constructor; cbn [put_prod set_prod q_mem q_pbuf q_cbuf q_prod q_cons q_fault]; auto; try lia.
    + apply Forall_app. auto.
    + intros p q X. apply snoc_split in X as [[-> ->]|(q' & -> & X)].
      * destruct (GD (q_pbuf c) []) as [G1 G2]; [rewrite app_nil_r; auto|]. rewrite HD in G2. rewrite drain_app, heads_app, Z.add_assoc, HD. change (heads [w]) with 1.
        split; [reflexivity|]. intros i it' K N j u RJ. cbn [drain fold_left store w fst snd m_data]. destruct (Z.eq_dec i (zlen I)) as [-> |NE].
        -- assert (it' = it). { unfold zlen in N. rewrite Nat2Z.id, nth_error_app2, Nat.sub_diag in N by lia. cbn in N. congruence. } subst it'. apply DN; auto.
        -- rewrite NX in N by lia. eapply G2; eauto. lia.
      * destruct (GD p q' X) as [G1 G2]. split; [exact G1|]. intros i it' K N. pose proof (heads_app p q') as HA. rewrite <- X in HA. pose proof (heads_nonneg q'). rewrite NX in N by lia. eauto.
    + rewrite heads_app. change (heads [w]) with 1. lia.
    + apply Forall_app. split; [exact PL|]. constructor; [discriminate|constructor].
    + cbn [pinv]. rewrite ZI, A. repeat split; auto; lia.
    + apply cinv_more; auto; lia.
  - (* insert returns *)
    exists I, fR, nR, fI. split; auto. constructor; cbn [set_prod q_mem q_pbuf q_cbuf q_prod q_cons q_fault]; auto.
    + cbn [pinv]. unfold inserted, pending, last_space in *. rewrite !fold_snoc. destruct ok; cbn [ins_step fst snd].
      * destruct PI as (A & B & C & D). rewrite B, A. repeat split; auto. rewrite <- A. lia.
      * destruct PI as (A & B & C & D). repeat split; auto. lia.
    + apply cinv_event; auto.
  - (* remove called *)
    exists I, fR, nR, fI. split; auto. constructor; cbn [set_cons q_mem q_pbuf q_cbuf q_prod q_cons q_fault]; auto.
    + apply pinv_event; auto.
    + cbn [cinv]. rewrite removed_snoc, app_nil_r. unfold removing, last_count in *. rewrite !fold_snoc. destruct CI as (A & B & C). auto.
  - exists I, fR, nR, fI. split; auto. constructor; cbn [set_cons q_mem q_pbuf q_cbuf q_prod q_cons q_fault]; auto. cbn [cinv]. destruct CI as (A & B & C & D). rewrite CH. repeat split; auto. exists fI. repeat split; auto; lia.
  - exists I, fR, nR, fI. split; auto. destruct CI as (A & B & C & g & G & -> & LC). assert (CV : cnt = g - nR) by (unfold cnt, t; rewrite CT; apply (count_val num size QA); lia).
    assert (TV : t = nR mod num) by exact CT. clearbody cnt t. constructor; cbn [set_cons q_mem q_pbuf q_cbuf q_prod q_cons q_fault]; auto. destruct (cnt >=? 1) eqn:C1; cbn [cinv].
    + split; [exact A|]. split; [exact B|]. split; [exact C|]. split; [exact TV|]. split; [lia|]. split; [lia|]. split; [apply offsets_range|].
      intros it k v N R NI. exfalso. apply NI, offsets_in. apply rd_range in R. assert (zlen it = size) by (rewrite Forall_forall in SZ; apply SZ; eapply nth_error_In; eauto). lia.
    + repeat split; auto; lia.
  - (* one octet copied out *)
    exists I, fR, nR, fI. split; auto. destruct CI as (A & B & C & -> & G & LC & RG & DN).
    assert (KR : 0 <= k < size). { unfold range in RG. rewrite Forall_app in RG. destruct RG as [_ RB]. inversion RB; auto. }
    constructor; cbn [check set_cons q_mem q_pbuf q_cbuf q_prod q_cons q_fault]; auto.
    + cbn [cinv]. rewrite CD. split; [exact A|]. split; [exact B|]. split; [rewrite zlen_setz; lia|]. split; [reflexivity|]. split; [exact G|]. split; [exact LC|].
      split. { unfold range in *. rewrite Forall_app in *. destruct RG as [RA RB]. inversion RB; auto. }
      intros it j v N RJ NI. destruct (Z.eq_dec j k) as [-> |NE].
      * rewrite rd_setz_same by lia. f_equal. destruct (GD [] (q_pbuf c) eq_refl) as [_ G2]. change (heads []) with 0 in G2. rewrite Z.add_0_r in G2. apply (G2 nR it); auto. lia.
      * rewrite rd_setz_other by lia. eapply DN; eauto. apply removal; auto.
    + rewrite FA. rewrite (slot_in num size QA OF) by lia. reflexivity.
  - (* fence *)
    exists I, fR, nR, fI. split; auto. destruct CI as (A & B & C & -> & G & LC & RG & DN). constructor; cbn [set_cons q_mem q_pbuf q_cbuf q_prod q_cons q_fault]; auto.
    cbn [cinv]. repeat split; auto; try lia. destruct (nth_error I (Z.to_nat nR)) as [it|] eqn:N; [|apply nth_error_None in N; unfold zlen in ORD; lia].
    f_equal. assert (zlen it = size) by (rewrite Forall_forall in SZ; apply SZ; eapply nth_error_In; eauto). apply rd_all; [lia|]. intros k v R. eapply DN; eauto.
  - (* tail stored *)
    destruct CI as (A & B & -> & G & LC & N). exists I, fR, (nR + 1), fI. split; auto. rewrite (next_val num size QA).
    constructor; cbn [put_cons set_cons q_mem q_pbuf q_cbuf q_prod q_cons q_fault]; auto; try lia.
    + intros p q X. destruct (GD p q X) as [G1 G2]. split; [exact G1|]. intros i it K. apply G2. lia.
    + intros p q X. apply snoc_split in X as [[-> ->]|(q' & -> & X)]; [|apply (TL p q' X)]. rewrite drain_app, zlen_app. cbn [drain fold_left store fst snd m_tail]. change (zlen [(LTail, (nR + 1) mod num)]) with 1. f_equal. lia.
    + apply Forall_app. split; [exact CL|]. constructor; [reflexivity|constructor].
    + rewrite zlen_app. change (zlen [(LTail, (nR + 1) mod num)]) with 1. lia.
    + cbn [cinv]. split; [|repeat split; auto; lia]. rewrite A. replace (Z.to_nat (nR + 1)) with (S (Z.to_nat nR)) by lia. clear - N. revert N. generalize (Z.to_nat nR). intros n. revert n.
      induction I as [|x I IH]; intros [|n] N; try discriminate; cbn in *; [congruence|]. f_equal. rewrite <- IH; auto.
  - (* remove returns *)
    exists I, fR, nR, fI. split; auto. constructor; cbn [set_cons q_mem q_pbuf q_cbuf q_prod q_cons q_fault]; auto.
    + apply pinv_event; auto.
    + cbn [cinv]. rewrite removed_snoc. unfold removing, last_count in *. rewrite !fold_snoc. cbn [rem_step]. destruct res as [it|]; cbn [cinv] in CI.
      * destruct CI as (A & B & C & D). rewrite A. repeat split; auto. lia.
      * destruct CI as (A & B & C & D & F). rewrite app_nil_r. repeat split; auto. lia.
Qed.

Theorem inv_run : forall tr c, run num size tr c -> exists I fR nR fI, inv tr c I fR nR fI.
Proof.
  induction 1 as [|tr c e c' R (I & fR & nR & fI & V) S]; [exists [], 0, 0, 0; apply inv_init; exact QA|].
  destruct (inv_step _ _ _ _ _ _ _ _ V S) as (I' & fR' & nR' & fI' & V' & _). eauto 6.
Qed.
End Steps.
