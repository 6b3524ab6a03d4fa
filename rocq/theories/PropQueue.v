(** PropQueue.v: C69, the single-producer single-consumer ring of libmy/my_queue_mb.c under x86-TSO. *)
From Verif Require Import Base Lib ModelQueue SpecQueue ProofQueue ProofQueue2 ProofQueue3 ProofQueue4.

(** ** The argument check accepts exactly the powers of two from 2 on *)
Theorem C69_init : forall num, 0 <= num < 2 ^ 32 -> (queue_init_ok num = true <-> exists k, 1 <= k <= 31 /\ num = 2 ^ k).
Proof.
  intros num R. unfold queue_init_ok. change (2 ^ 32) with 4294967296 in R. split.
  - intros H. destruct (num <? 2) eqn:L; [discriminate|]. cbn [orb] in H. rewrite Bool.negb_involutive in H. apply Z.eqb_eq in H.
    unfold wrap32 in H. rewrite Z.mod_small in H by lia.
    set (k := Z.log2 num). pose proof (Z.log2_spec num ltac:(lia)) as S. fold k in S. pose proof (Z.log2_nonneg num) as K0. fold k in K0.
    exists k. assert (E : num = 2 ^ k).
    { destruct (Z.eq_dec num (2 ^ k)) as [E|E]; [exact E|exfalso].
      assert (B1 : Z.testbit num k = true) by (apply Z.bit_log2; lia).
      assert (B2 : Z.testbit (num - 1) k = true). { replace k with (Z.log2 (num - 1)); [apply Z.bit_log2; lia|]. apply Z.log2_unique; lia. }
      assert (B : Z.testbit (Z.land (num - 1) num) k = true) by (rewrite Z.land_spec, B1, B2; reflexivity). rewrite H, Z.bits_0 in B. discriminate. }
    split; [|exact E]. split.
    + destruct (Z.eq_dec k 0) as [X|X]; [rewrite X in E; change (2 ^ 0) with 1 in E; lia|lia].
    + destruct (Z_le_gt_dec k 31) as [X|X]; [exact X|]. assert (2 ^ 32 <= 2 ^ k) by (apply Z.pow_le_mono_r; lia). change (2 ^ 32) with 4294967296 in *. lia.
  - intros (k & K & ->). assert (2 ^ 1 <= 2 ^ k) by (apply Z.pow_le_mono_r; lia). change (2 ^ 1) with 2 in *. replace (2 ^ k <? 2) with false by lia. cbn [orb]. rewrite Bool.negb_involutive. apply Z.eqb_eq.
    unfold wrap32. rewrite Z.mod_small by lia. replace (2 ^ k - 1) with (Z.ones k) by (rewrite Z.ones_equiv; lia). rewrite Z.land_comm, Z.land_ones by lia. apply Z.mod_same. lia.
Qed.
Print Assumptions C69_init.

Section Claims.
Variables num size : Z.
Hypothesis QA : queue_args num size.
Hypothesis OF : offsets_fit num size.

Lemma inv_I : forall tr c I fR nR fI, inv num size tr c I fR nR fI -> prefix I (inserted tr ++ pending tr) /\ prefix (inserted tr) I.
Proof.
  intros tr c I fR nR fI V. pose proof (i_prod _ _ _ _ _ _ _ _ V) as P. destruct (q_prod c) as [|it|it h|it h sp todo|it [] sp]; cbn [pinv] in P.
  1-4,6: destruct P as (<- & P & _); rewrite P; split; [eexists; reflexivity|exists []; rewrite app_nil_r; reflexivity].
  destruct P as (-> & P & _). rewrite P. split; [exists []; rewrite app_nil_r; reflexivity|eexists; reflexivity].
Qed.
Lemma inv_R : forall tr c I fR nR fI, inv num size tr c I fR nR fI ->
  exists x, removed tr ++ x = firstn (Z.to_nat nR) I /\ nR = zlen (removed tr) + zlen x /\ zlen x <= (if removing tr then 1 else 0).
Proof.
  intros tr c I fR nR fI V. pose proof (i_cons _ _ _ _ _ _ _ _ V) as P. pose proof (i_ord _ _ _ _ _ _ _ _ V) as O.
  assert (L : zlen (firstn (Z.to_nat nR) I) = nR). { unfold zlen in *. rewrite firstn_length. lia. }
  assert (Z0 : forall r, removed tr = firstn (Z.to_nat nR) I -> removing tr = r -> exists x, removed tr ++ x = firstn (Z.to_nat nR) I /\ nR = zlen (removed tr) + zlen x /\ zlen x <= (if removing tr then 1 else 0)).
  { intros r A B. exists []. rewrite app_nil_r. change (zlen (@nil bytes)) with 0. rewrite A at 2. rewrite L. split; [exact A|]. split; [lia|]. destruct (removing tr); lia. }
  destruct (q_cons c) as [|got|got h|got t cnt todo|got t cnt|[it|] cnt]; cbn [cinv] in P; destruct P as (A & B & P); eauto.
  exists [it]. rewrite A, B. split; [reflexivity|]. rewrite <- A, zlen_app in L. change (zlen [it]) with 1 in *. lia.
Qed.

(** ** First in, first out, nothing lost, duplicated, reordered or torn *)
Theorem C69_fifo : forall tr c, run num size tr c -> prefix (removed tr) (inserted tr ++ pending tr).
Proof.
  intros tr c R. destruct (inv_run num size QA OF tr c R) as (I & fR & nR & fI & V). destruct (inv_I _ _ _ _ _ _ V) as [(a & A) _]. destruct (inv_R _ _ _ _ _ _ V) as (x & X & _).
  rewrite A, <- (firstn_skipn (Z.to_nat nR) I), <- X. exists (x ++ skipn (Z.to_nat nR) I ++ a). rewrite !app_assoc. reflexivity.
Qed.
(** ** At most num - 1 items are held *)
Theorem C69_capacity : forall tr c, run num size tr c -> zlen (inserted tr) - zlen (removed tr) <= num - 1 + (if removing tr then 1 else 0).
Proof.
  intros tr c R. destruct (inv_run num size QA OF tr c R) as (I & fR & nR & fI & V). destruct (inv_I _ _ _ _ _ _ V) as [_ (a & A)]. destruct (inv_R _ _ _ _ _ _ V) as (x & X & Y & W).
  pose proof (i_ord _ _ _ _ _ _ _ _ V) as O. rewrite A, zlen_app in O. pose proof (zlen_nonneg _ a). lia.
Qed.
(** ** Every access to the ring's data is inside it *)
Theorem C69_safe : forall tr c, run num size tr c -> q_fault c = false.
Proof. intros tr c R. destruct (inv_run num size QA OF tr c R) as (I & fR & nR & fI & V). apply (i_fault _ _ _ _ _ _ _ _ V). Qed.

(** ** What an insertion reports: never more room than there is; room promised stays *)
Theorem C69_space : forall tr ok s c, run num size (tr ++ [InsRet ok s]) c ->
  0 <= s /\ s <= num - 1 - (zlen (inserted (tr ++ [InsRet ok s])) - zlen (removed tr)) + (if removing tr then 1 else 0) /\
  (1 <= last_space num tr -> ok = true /\ last_space num tr - 1 <= s) /\ (ok = false -> s = 0).
Proof.
  intros tr ok s c R. destruct (run_event _ _ _ _ _ R) as (c0 & c1 & R0 & St & R1). destruct (inv_run num size QA OF tr c0 R0) as (I & fR & nR & fI & V).
  destruct (inv_R _ _ _ _ _ _ V) as (x & X & Y & W). pose proof (i_prod _ _ _ _ _ _ _ _ V) as P. pose proof (i_ord _ _ _ _ _ _ _ _ V) as O.
  inversion St as [| | | | | | |c2 it ok' sp E| | | | | | |]; subst. rewrite E in P. cbn [pinv] in P.
  assert (Q : inserted (tr ++ [InsRet ok s]) = inserted tr ++ (if ok then pending tr else [])). { unfold inserted, pending. rewrite fold_snoc. destruct ok; cbn; [reflexivity|rewrite app_nil_r; reflexivity]. }
  rewrite Q. destruct ok.
  - destruct P as (P1 & P2 & P3 & P4). rewrite P2, <- P1. repeat split; first [lia|discriminate].
  - destruct P as (P1 & P2 & P3 & P4). rewrite app_nil_r, P1. repeat split; try lia.
Qed.
(** ** What a removal reports: never more items than there are; items promised stay *)
Theorem C69_count : forall tr r n c, run num size (tr ++ [RemRet r n]) c ->
  0 <= n /\ n <= zlen (inserted tr) + zlen (pending tr) - zlen (removed (tr ++ [RemRet r n])) /\
  (1 <= last_count tr -> r <> None /\ last_count tr - 1 <= n) /\ (r = None -> n = 0).
Proof.
  intros tr r n c R. destruct (run_event _ _ _ _ _ R) as (c0 & c1 & R0 & St & R1). destruct (inv_run num size QA OF tr c0 R0) as (I & fR & nR & fI & V).
  destruct (inv_I _ _ _ _ _ _ V) as [(a & A) _]. pose proof (i_cons _ _ _ _ _ _ _ _ V) as P. pose proof (i_ord _ _ _ _ _ _ _ _ V) as O.
  inversion St as [| | | | | | | | | | | | | |c2 res cnt E]; subst. rewrite E in P. cbn [cinv] in P. rewrite removed_snoc.
  assert (A' : zlen (inserted tr) + zlen (pending tr) = zlen I + zlen a) by (rewrite <- !zlen_app, A; reflexivity). pose proof (zlen_nonneg _ a).
  assert (L : zlen (firstn (Z.to_nat nR) I) = nR). { unfold zlen in *. rewrite firstn_length. lia. }
  destruct r as [it|].
  - destruct P as (P1 & P2 & P3 & P4). rewrite P1, L. repeat split; first [lia|discriminate].
  - destruct P as (P1 & P2 & P3 & P4 & P5). rewrite app_nil_r, P1, L. repeat split; lia.
Qed.

(** ** With nothing else under way and all stores in memory, results are exact *)
Lemma quiet_counts : forall tr c, run num size tr c -> quiet c ->
  q_space (m_head (q_mem c)) (m_tail (q_mem c)) num = num - 1 - (zlen (inserted tr) - zlen (removed tr)) /\
  q_count (m_head (q_mem c)) (m_tail (q_mem c)) num = zlen (inserted tr) - zlen (removed tr) /\ 0 <= zlen (inserted tr) - zlen (removed tr) /\ pending tr = [].
Proof.
  intros tr c R (Q1 & Q2 & Q3 & Q4). destruct (inv_run num size QA OF tr c R) as (I & fR & nR & fI & V).
  pose proof (i_prod _ _ _ _ _ _ _ _ V) as P. rewrite Q1 in P. destruct P as (P1 & P2 & _). pose proof (i_cons _ _ _ _ _ _ _ _ V) as C. rewrite Q2 in C. destruct C as (C1 & _).
  pose proof (i_ord _ _ _ _ _ _ _ _ V) as O. pose proof (i_heads _ _ _ _ _ _ _ _ V) as HH. rewrite Q3 in HH. change (heads []) with 0 in HH.
  pose proof (i_cn _ _ _ _ _ _ _ _ V) as CN. rewrite Q4 in CN. change (zlen (@nil (loc * Z))) with 0 in CN.
  destruct (i_good _ _ _ _ _ _ _ _ V [] [] ltac:(rewrite Q3; reflexivity)) as [G _]. pose proof (i_tail _ _ _ _ _ _ _ _ V [] [] ltac:(rewrite Q4; reflexivity)) as T.
  cbn [drain fold_left] in G, T. change (heads []) with 0 in G. change (zlen (@nil (loc * Z))) with 0 in T.
  assert (L : zlen (firstn (Z.to_nat nR) I) = nR). { unfold zlen in *. rewrite firstn_length. lia. }
  rewrite C1, L, P1, G, T. rewrite HH, CN. rewrite (space_val num size QA) by lia. rewrite (count_val num size QA) by lia. repeat split; auto; lia.
Qed.
Theorem C69_quiet_insert : forall tr c it ok s c', run num size tr c -> quiet c -> steps num size c [InsCall it; InsRet ok s] c' ->
  let held := zlen (inserted tr) - zlen (removed tr) in
  (ok = true <-> held < num - 1) /\ s = num - 1 - held - (if ok then 1 else 0).
Proof.
  intros tr c it ok s c' R Q St held. destruct (quiet_counts tr c R Q) as (A & B & C & _). fold held in A, B, C.
  destruct (ins_alone num size c _ c' Q St) as (_ & _ & X & Y). { exists it. right. right. eauto. }
  rewrite A in X, Y. split; [|lia]. rewrite Y. lia.
Qed.
Theorem C69_quiet_remove : forall tr c r n c', run num size tr c -> quiet c -> steps num size c [RemCall; RemRet r n] c' ->
  let held := zlen (inserted tr) - zlen (removed tr) in
  match r with
  | Some it => prefix (removed tr ++ [it]) (inserted tr) /\ n = held - 1
  | None => inserted tr = removed tr /\ n = 0
  end.
Proof.
  intros tr c r n c' R Q St held. destruct (quiet_counts tr c R Q) as (A & B & C & D). fold held in A, B, C.
  destruct (rem_alone num size c _ c' Q St) as (_ & _ & X). { right. right. eauto. }
  pose proof (C69_fifo _ _ R) as (rest & F). rewrite D, app_nil_r in F. rewrite B in X.
  destruct r as [it|].
  - pose proof (C69_fifo _ _ (run_steps num size _ _ _ _ R St)) as F'.
    assert (E1 : removed (tr ++ [RemCall; RemRet (Some it) n]) = removed tr ++ [it]). { unfold removed. rewrite map_app, concat_app. reflexivity. }
    assert (E2 : inserted (tr ++ [RemCall; RemRet (Some it) n]) = inserted tr /\ pending (tr ++ [RemCall; RemRet (Some it) n]) = pending tr). { unfold inserted, pending. rewrite !fold_left_app. auto. }
    destruct E2 as [E2 E3]. rewrite E1, E2, E3, D, app_nil_r in F'. split; [exact F'|lia].
  - split; [|lia]. assert (zlen rest = 0). { unfold held in *. rewrite F, zlen_app in *. pose proof (zlen_nonneg _ rest). lia. }
    rewrite F. destruct rest; [apply app_nil_r|]. rewrite zlen_cons in *. pose proof (zlen_nonneg _ rest). lia.
Qed.

(** ** Wait-freedom: a call ends by its own thread's steps alone, and after at most [size] + 4 (insert) or [size] + 6 (remove) of them *)
Theorem C69_insert_completes : forall tr c, run num size tr c -> q_prod c <> PIdle ->
  exists ok s c', steps num size c [InsRet ok s] c' /\ q_prod c' = PIdle /\ q_cons c' = q_cons c /\ q_cbuf c' = q_cbuf c.
Proof.
  intros tr c R N. destruct (inv_run num size QA OF tr c R) as (I & fR & nR & fI & V). apply (finish_ins num size _ c (le_n _)); [|exact N].
  pose proof (i_prod _ _ _ _ _ _ _ _ V) as P. destruct (q_prod c) as [|it|it h|it h sp todo|it [] sp]; cbn [pinv p_fine] in *; tauto.
Qed.
Theorem C69_remove_completes : forall tr c, run num size tr c -> q_cons c <> CIdle ->
  exists r n c', steps num size c [RemRet r n] c' /\ q_cons c' = CIdle /\ q_prod c' = q_prod c /\ q_pbuf c' = q_pbuf c.
Proof. intros tr c R N. apply (finish_rem num size _ c (le_n _)). exact N. Qed.
End Claims.
Print Assumptions C69_fifo.
Print Assumptions C69_capacity.
Print Assumptions C69_safe.
Print Assumptions C69_space.
Print Assumptions C69_count.
Print Assumptions C69_quiet_insert.
Print Assumptions C69_quiet_remove.
Print Assumptions C69_insert_completes.
Print Assumptions C69_remove_completes.

(** Steps of its own thread that a call still needs, and that each one uses one up. *)
Theorem C69_wait_free : forall num size c e c', step num size c e c' ->
  (q_prod c <> PIdle -> q_prod c' = q_prod c \/ pwork size (q_prod c') < pwork size (q_prod c)) /\
  (q_cons c <> CIdle -> q_cons c' = q_cons c \/ cwork size (q_cons c') < cwork size (q_cons c)) /\
  (forall p, 0 <= pwork size p) /\ (forall s, 0 <= cwork size s) /\ (forall it, pwork size (PEnter it) = 4 + Z.max 0 size) /\ (forall got, cwork size (CEnter got) = 6 + Z.max 0 size).
Proof.
  intros num size c e c' St. split; [apply (pwork_step num size c e c' St)|]. split; [apply (cwork_step num size c e c' St)|].
  split; [|split; [|split; reflexivity]].
  - intros p. destruct p; cbn [pwork]; try lia. pose proof (zlen_nonneg _ todo). lia.
  - intros p. destruct p; cbn [cwork]; try lia. pose proof (zlen_nonneg _ todo). lia.
Qed.
Print Assumptions C69_wait_free.

(** ** Examples: the hypotheses are met *)
Definition go (n : nat) (ch : choice) : list choice := repeat ch n.
Definition ex_full : list choice :=
  [PCall [7; 8]] ++ go 5 PGo ++ [CCall [0; 0]; CGo; CGo] ++ [PGo] ++ go 3 PFlush ++ [CGo] ++ [PCall [9; 10]] ++ go 6 PGo ++ [CCall [0; 0]] ++ go 7 CGo ++ go 3 PFlush.
Example C69_args : queue_args 4 2 /\ offsets_fit 4 2.
Proof. split; [split; [exists 2; lia|lia]|]. unfold offsets_fit. lia. Qed.
Example C69_ex : exists c, run 4 2 [InsCall [7; 8]; RemCall; InsRet true 2; RemRet None 0; InsCall [9; 10]; InsRet true 1; RemCall; RemRet (Some [7; 8]) 0] c.
Proof. apply (exec_trace 4 2 ex_full). vm_compute. reflexivity. Qed.
Example C69_ex_quiet : exists c c', run 4 2 [InsCall [7; 8]; InsRet true 2] c /\ quiet c /\ steps 4 2 c [RemCall; RemRet (Some [7; 8]) 0] c'.
Proof.
  destruct (ins_go 4 2 init [7; 8]) as (c & A & B & C & D & F & G); [repeat split|reflexivity|vm_compute; discriminate|].
  change (q_space _ _ _ - 1) with 2 in A. cbn [init q_mem init_mem m_head m_tail] in *. change (next 0 4) with 1 in C. change (slot 0 2) with 0 in *.
  assert (R : run 4 2 [InsCall [7; 8]; InsRet true 2] c) by (apply (run_steps 4 2 [] _ init c); [constructor|exact A]).
  destruct (rem_go 4 2 c B) as (c' & got & A' & B' & C' & D'); [lia|rewrite C, D; vm_compute; discriminate|].
  exists c, c'. split; [exact R|]. split; [exact B|]. rewrite C, D in A'. change (q_count 1 0 4 - 1) with 0 in A'.
  replace [7; 8] with got; [exact A'|]. rewrite D in D'. change (slot 0 2) with 0 in D'.
  assert (X0 := D' 0 ltac:(lia)). assert (X1 := D' 1 ltac:(lia)). rewrite (G 0 7 eq_refl) in X0. rewrite (G 1 8 eq_refl) in X1.
  destruct got as [|a [|b [|z got]]]; try discriminate; [|unfold zlen in C'; cbn [length] in C'; lia]. change (Ok a = Ok 7) in X0. change (Ok b = Ok 8) in X1. congruence.
Qed.

(** ** What does not hold *)
(** Offsets are computed in 32 bits: with (num - 1) * size >= 2^32 (four elements of 2 GiB) two slots coincide and items are lost. *)
Theorem C71_any_size_refuted : exists num size tr c, queue_args num size /\ run num size tr c /\ ~ prefix (removed tr) (inserted tr ++ pending tr).
Proof.
  assert (X : exists sz, 0 < sz < 2 ^ 32 /\ slot 0 sz = 0 /\ slot 2 sz = 0) by (exists 2147483648; split; [lia|]; split; reflexivity).
  destruct X as (sz & SZ & S0 & S2). exists 4, sz.
  assert (Mk : forall v, exists l : bytes, zlen l = sz /\ rd l 0 = Ok v).
  { intros v. exists (v :: repeat v (Z.to_nat (sz - 1))). split; [|reflexivity]. rewrite zlen_cons. unfold zlen. rewrite repeat_length. lia. }
  destruct (Mk 1) as (A & LA & RA). destruct (Mk 2) as (B & LB & _). destruct (Mk 3) as (C & LC & RC).
  destruct (ins_go 4 sz init A) as (c1 & A1 & Q1 & H1 & T1 & _ & _); [repeat split|exact LA|vm_compute; discriminate|].
  cbn [init q_mem init_mem m_head m_tail] in *. change (next 0 4) with 1 in *.
  destruct (ins_go 4 sz c1 B) as (c2 & A2 & Q2 & H2 & T2 & _ & _); [exact Q1|exact LB|rewrite H1, T1; vm_compute; discriminate|].
  rewrite H1, T1 in *. change (next 1 4) with 2 in *.
  destruct (ins_go 4 sz c2 C) as (c3 & A3 & Q3 & H3 & T3 & _ & D3); [exact Q2|exact LC|rewrite H2, T2; vm_compute; discriminate|].
  rewrite H2, T2 in *. change (next 2 4) with 3 in *. rewrite S2 in D3. specialize (D3 0 3 RC). change (0 + 0) with 0 in D3.
  destruct (rem_go 4 sz c3 Q3) as (c4 & got & A4 & Q4 & L4 & D4); [lia|rewrite H3, T3; vm_compute; discriminate|].
  rewrite T3, S0 in D4. specialize (D4 0 ltac:(lia)). change (0 + 0) with 0 in D4. rewrite D3 in D4.
  eexists. exists c4. split; [split; [exists 2; lia|lia]|]. split.
  - eapply run_steps; [|exact A4]. eapply run_steps; [|exact A3]. eapply run_steps; [|exact A2]. eapply run_steps; [constructor|exact A1].
  - intros (r & E). unfold removed, inserted, pending in E. cbn [app fold_left ins_step map concat fst snd] in E. injection E as E _.
    rewrite <- E, RA in D4. discriminate.
Qed.
Print Assumptions C71_any_size_refuted.

(** An insertion that has returned may not be seen by a removal that starts afterwards: its stores are still in the buffer. *)
Theorem C71_fresh_refuted : exists tr c, run 2 1 (tr ++ [RemRet None 0]) c /\ tr = [InsCall [7]; InsRet true 0; RemCall].
Proof.
  destruct (exec_trace 2 1 ([PCall [7]] ++ go 5 PGo ++ [CCall [0]] ++ go 3 CGo) [InsCall [7]; InsRet true 0; RemCall; RemRet None 0]) as (c & R); [vm_compute; reflexivity|].
  exists [InsCall [7]; InsRet true 0; RemCall], c. split; [exact R|reflexivity].
Qed.
Print Assumptions C71_fresh_refuted.

(** Results are not those of the two threads' calls taken one at a time in any order. [one_at_a_time cap P C q]: the
    producer's calls [P] (item, result) and the consumer's calls [C] can be merged into a run of a bounded queue holding [q]. *)
Inductive one_at_a_time (cap : Z) : list (bytes * bool) -> list (option bytes) -> list bytes -> Prop :=
| seq_nil : forall q, one_at_a_time cap [] [] q
| seq_ins : forall it P C q, zlen q < cap -> one_at_a_time cap P C (q ++ [it]) -> one_at_a_time cap ((it, true) :: P) C q
| seq_full : forall it P C q, zlen q = cap -> one_at_a_time cap P C q -> one_at_a_time cap ((it, false) :: P) C q
| seq_rem : forall it P C q, one_at_a_time cap P C q -> one_at_a_time cap P (Some it :: C) (it :: q)
| seq_empty : forall P C, one_at_a_time cap P C [] -> one_at_a_time cap P (None :: C) [].
Definition call_step (st : list (bytes * bool) * bytes) (e : event) : list (bytes * bool) * bytes :=
  match e with InsCall it => (fst st, it) | InsRet ok _ => (fst st ++ [(snd st, ok)], []) | _ => st end.
Definition insert_calls (tr : list event) : list (bytes * bool) := fst (fold_left call_step tr ([], [])).
Definition remove_calls (tr : list event) : list (option bytes) := concat (map (fun e => match e with RemRet r _ => [r] | _ => [] end) tr).
Theorem C71_sequential_refuted : exists tr c, run 4 1 tr c /\ ~ one_at_a_time 3 (insert_calls tr) (remove_calls tr) [].
Proof.
  set (tr := [InsCall [1]; InsRet true 2; InsCall [2]; InsRet true 1; InsCall [3]; InsRet true 0; InsCall [4]; InsRet false 0;
    RemCall; RemRet (Some [1]) 1; RemCall; RemRet (Some [2]) 0; RemCall; RemRet None 0]).
  destruct (exec_trace 4 1 ([PCall [1]] ++ go 5 PGo ++ [PCall [2]] ++ go 5 PGo ++ go 4 PFlush ++ [PCall [3]] ++ go 5 PGo ++ [PCall [4]] ++ go 3 PGo ++
    [CCall [0]] ++ go 6 CGo ++ [CFlush] ++ [CCall [0]] ++ go 6 CGo ++ [CFlush] ++ [CCall [0]] ++ go 3 CGo) tr) as (c & R); [vm_compute; reflexivity|].
  exists tr, c. split; [exact R|]. change (insert_calls tr) with [([1], true); ([2], true); ([3], true); ([4], false)]. change (remove_calls tr) with [Some [1]; Some [2]; @None bytes].
  intros S.
  repeat match goal with
  | H : zlen _ < 3 |- _ => clear H
  | H : zlen _ = 3 |- _ => (discriminate H || clear H)
  | H : one_at_a_time _ _ _ _ |- _ => inversion H; clear H; subst; cbn [app] in *; try discriminate
  end.
Qed.
Print Assumptions C71_sequential_refuted.

(** The sleep and wake-up the header suggests (sleep when a removal reports empty, be woken by an insertion into an empty
    queue, one that leaves num - 2 spaces) can leave an item behind: here the consumer was told the queue is empty, the
    insertion of [2] reported one item more, and both calls are over and all stores done with [2] in the queue. *)
Theorem C71_wakeup_refuted : exists tr c, run 4 1 tr c /\ quiet c /\
  tr = [InsCall [1]; InsRet true 2; InsCall [2]; RemCall; RemRet (Some [1]) 0; RemCall; RemRet None 0; InsRet true 1] /\ inserted tr = removed tr ++ [[2]].
Proof.
  set (tr := [InsCall [1]; InsRet true 2; InsCall [2]; RemCall; RemRet (Some [1]) 0; RemCall; RemRet None 0; InsRet true 1]).
  set (chs := [PCall [1]] ++ go 5 PGo ++ go 2 PFlush ++ [PCall [2]] ++ go 2 PGo ++ [CCall [0]] ++ go 6 CGo ++ [CFlush] ++ [CCall [0]] ++ go 3 CGo ++ go 3 PGo ++ go 2 PFlush).
  destruct (exec 4 1 chs init) as [[t c]|] eqn:E; [|vm_compute in E; discriminate].
  exists tr, c. pose proof (exec_run 4 1 chs [] init t c (run_init 4 1) E) as R. vm_compute in E. injection E as E1 E2. rewrite <- E1 in R. split; [exact R|]. rewrite <- E2. split; [repeat split|]. split; reflexivity.
Qed.
Print Assumptions C71_wakeup_refuted.
