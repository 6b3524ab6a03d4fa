(** ProofQueueMutex2.v: calls on the mutex queue can always be completed. *)
From Verif Require Import Base Lib ModelQueue SpecQueue ProofQueue ProofQueue2 ProofQueue3 ProofQueue4 ModelQueueMutex SpecQueueMutex ProofQueueMutex.

Section M.
Variables num size : Z.
Lemma msteps_app : forall c t1 c1 t2 c2, msteps num size c t1 c1 -> msteps num size c1 t2 c2 -> msteps num size c (t1 ++ t2) c2.
Proof. intros c t1 c1 t2 c2 A B. induction A as [|c e c1 tr c3 S A IH]; [exact B|]. rewrite <- app_assoc. eapply msteps_cons; eauto. Qed.
Lemma mrun_msteps : forall tr c t c', msteps num size c t c' -> mrun num size tr c -> mrun num size (tr ++ t) c'.
Proof.
  intros tr c t c' A. revert tr. induction A as [|c e c1 tr' c3 S A IH]; intros tr R; [rewrite app_nil_r; exact R|]. rewrite app_assoc. apply IH. eapply mrun_step; eauto.
Qed.

Definition twork (s : tstate) : Z :=
  match s with
  | MIdle => 0 | MInsRet _ _ | MRemRet _ _ => 1 | MInsUnlock _ _ _ | MRemUnlock _ _ => 2
  | MInsCopy _ _ _ todo | MRemCopy _ _ _ todo => 3 + zlen todo
  | MInsTail _ _ | MRemTail _ _ => 4 + Z.max 0 size | MInsHead _ | MRemHead _ => 5 + Z.max 0 size | MInsWait _ | MRemWait _ => 6 + Z.max 0 size
  end.
Definition t_fine (s : tstate) : Prop := match s with MInsWait it | MInsHead it | MInsTail it _ => zlen it = size | MInsCopy it _ _ todo => zlen it = size /\ range size todo | _ => True end.
Definition can_go (c : mconfig) (t : nat) : Prop := if locked (x_thr c t) then x_lock c = Some t else match x_thr c t with MInsWait _ | MRemWait _ => x_lock c = None | _ => True end.
Definition of_thread (t : nat) (e : mevent) : Prop := match e with ERet u _ => u = t | ECall _ _ => False end.

Lemma twork_nonneg : forall s, 0 <= twork s.
Proof. intros s. destruct s; cbn [twork]; try lia; pose proof (zlen_nonneg _ todo); lia. Qed.
Lemma finish_one : forall n c t, (Z.to_nat (twork (x_thr c t)) <= n)%nat -> t_fine (x_thr c t) -> can_go c t -> 
  exists tr c', msteps num size c tr c' /\ x_thr c' t = MIdle /\ (forall u, u <> t -> x_thr c' u = x_thr c u) /\ Forall (of_thread t) tr /\ (x_thr c t <> MIdle -> exists r, tr = [ERet t r]) /\
    (locked (x_thr c t) = true \/ x_lock c = None -> x_lock c' = None).
Proof.
  induction n as [|n IH]; intros c t W F G.
  - exists [], c. assert (E : x_thr c t = MIdle). { pose proof (twork_nonneg (x_thr c t)). destruct (x_thr c t); cbn [twork] in *; try reflexivity; try (pose proof (zlen_nonneg _ todo)); lia. }
    split; [constructor|]. split; [exact E|]. split; [auto|]. split; [constructor|]. split; [congruence|]. rewrite E. intros [X|X]; [discriminate|exact X].
  - assert (Go : forall c1 s, mstep num size c None c1 -> x_thr c1 = upd (x_thr c) t s -> twork s < twork (x_thr c t) -> t_fine s -> can_go c1 t -> s <> MIdle -> (locked s = true \/ x_lock c1 = None) ->
          exists tr c', msteps num size c tr c' /\ x_thr c' t = MIdle /\ (forall u, u <> t -> x_thr c' u = x_thr c u) /\ Forall (of_thread t) tr /\ (x_thr c t <> MIdle -> exists r, tr = [ERet t r]) /\
            (locked (x_thr c t) = true \/ x_lock c = None -> x_lock c' = None)).
    { intros c1 s St E1 TW TF CG N LK. assert (E2 : x_thr c1 t = s) by (rewrite E1; apply upd_same).
      destruct (IH c1 t) as (tr & c' & A & B & C & D & H & K); [rewrite E2; lia|rewrite E2; exact TF|exact CG|].
      exists tr, c'. split; [apply (msteps_cons num size c None c1 tr c'); auto|]. split; [exact B|]. split; [intros u U; rewrite (C u U), E1; apply upd_other; exact U|].
      split; [exact D|]. split; [intros _; apply H; congruence|]. intros _. apply K. rewrite E2. exact LK. }
    unfold can_go in G. destruct (x_thr c t) as [|it|it|it h|it h sp todo|it ok sp|ok sp|got|got|got h|got tl k todo|res k|res k] eqn:E; cbn [locked t_fine] in *.
    + exists [], c. split; [constructor|]. split; [exact E|]. split; [auto|]. split; [constructor|]. split; [congruence|]. intros [X|X]; [discriminate|exact X].
    + eapply Go; [apply m_ins_lock; eauto|reflexivity|cbn [twork]; lia|exact F| |discriminate|left; reflexivity]. unfold can_go. cbn [with_lock at_thread x_thr x_lock]. rewrite upd_same. reflexivity.
    + eapply Go; [apply m_ins_head; eauto|reflexivity|cbn [twork]; lia|exact F| |discriminate|left; reflexivity]. unfold can_go. cbn [with_lock at_thread x_thr x_lock]. rewrite upd_same. exact G.
    + pose proof (m_ins_tail num size c t it h E) as St. cbn zeta in St. eapply Go; [exact St|reflexivity| | | | |]; destruct (_ >=? 1); cbn [twork t_fine locked]; rewrite ?zlen_offsets; try lia; try discriminate; auto.
      * split; [exact F|apply offsets_range].
      * unfold can_go. cbn [at_thread x_thr x_lock]. rewrite upd_same. exact G.
      * unfold can_go. cbn [at_thread x_thr x_lock]. rewrite upd_same. exact G.
    + destruct F as [F1 F2]. destruct todo as [|k b].
      * eapply Go; [eapply m_ins_pub; eauto|reflexivity|cbn [twork]; change (zlen (@nil Z)) with 0; lia|exact Logic.I| |discriminate|left; reflexivity]. unfold can_go. cbn [with_mem at_thread x_thr x_lock]. rewrite upd_same. exact G.
      * inversion F2 as [|? ? K F2']. destruct (rd_some it k) as (v & V); [rewrite F1; exact K|].
        eapply Go; [apply (m_ins_copy num size c t it h sp [] k b v E V)|reflexivity|cbn [app twork]; rewrite zlen_cons; lia|split; auto| |discriminate|left; reflexivity]. unfold can_go. cbn [assert_in with_mem at_thread x_thr x_lock]. rewrite upd_same. exact G.
    + eapply Go; [eapply m_ins_unlock; eauto|reflexivity|cbn [twork]; lia|exact Logic.I| |discriminate|right; reflexivity]. unfold can_go. cbn [with_lock at_thread x_thr x_lock]. rewrite upd_same. exact Logic.I.
    + exists [ERet t (RIns ok sp)], (at_thread c t MIdle). split; [apply (msteps_cons num size c (Some (ERet t (RIns ok sp))) (at_thread c t MIdle) []); [apply m_ins_ret; exact E|constructor]|].
      cbn [at_thread x_thr x_lock]. split; [apply upd_same|]. split; [intros u U; apply upd_other; exact U|]. split; [repeat constructor|]. split; [eauto|]. intros [X|X]; [discriminate|exact X].
    + eapply Go; [apply m_rem_lock; eauto|reflexivity|cbn [twork]; lia|exact F| |discriminate|left; reflexivity]. unfold can_go. cbn [with_lock at_thread x_thr x_lock]. rewrite upd_same. reflexivity.
    + eapply Go; [apply m_rem_head; eauto|reflexivity|cbn [twork]; lia|exact F| |discriminate|left; reflexivity]. unfold can_go. cbn [with_lock at_thread x_thr x_lock]. rewrite upd_same. exact G.
    + pose proof (m_rem_tail num size c t got h E) as St. cbn zeta in St. eapply Go; [exact St|reflexivity| | | | |]; destruct (_ >=? 1); cbn [twork t_fine locked]; rewrite ?zlen_offsets; try lia; try discriminate; auto;
        unfold can_go; cbn [at_thread x_thr x_lock]; rewrite upd_same; exact G.
    + destruct todo as [|j b].
      * eapply Go; [eapply m_rem_pub; eauto|reflexivity|cbn [twork]; change (zlen (@nil Z)) with 0; lia|exact Logic.I| |discriminate|left; reflexivity]. unfold can_go. cbn [with_mem at_thread x_thr x_lock]. rewrite upd_same. exact G.
      * eapply Go; [apply (m_rem_copy num size c t got tl k [] j b E)|reflexivity|cbn [app twork]; rewrite zlen_cons; lia|exact Logic.I| |discriminate|left; reflexivity]. unfold can_go. cbn [assert_in with_mem at_thread x_thr x_lock]. rewrite upd_same. exact G.
    + eapply Go; [eapply m_rem_unlock; eauto|reflexivity|cbn [twork]; lia|exact Logic.I| |discriminate|right; reflexivity]. unfold can_go. cbn [with_lock at_thread x_thr x_lock]. rewrite upd_same. exact Logic.I.
    + exists [ERet t (RRem res k)], (at_thread c t MIdle). split; [apply (msteps_cons num size c (Some (ERet t (RRem res k))) (at_thread c t MIdle) []); [apply m_rem_ret; exact E|constructor]|].
      cbn [at_thread x_thr x_lock]. split; [apply upd_same|]. split; [intros u U; apply upd_other; exact U|]. split; [repeat constructor|]. split; [eauto|]. intros [X|X]; [discriminate|exact X].
Qed.
Lemma minv_fine : forall c ph q t, minv num size c ph q -> t_fine (x_thr c t).
Proof.
  intros c ph q t V. pose proof (mi_rel _ _ _ _ _ V t) as R. pose proof (mi_lock _ _ _ _ _ V t) as L. pose proof (mi_ring _ _ _ _ _ V) as H.
  destruct (x_thr c t) eqn:E; cbn [related t_fine] in *; try exact Logic.I; try tauto. split; [tauto|]. cbn [locked] in L. rewrite (proj1 L eq_refl), E in H. cbn [held] in H. destruct H as (g & _ & _ & _ & _ & RG & _). exact RG.
Qed.
Hypothesis QA : queue_args num size.
Hypothesis OF : offsets_fit num size.
Lemma completes : forall tr c t, mrun num size tr c -> x_thr c t <> MIdle -> exists tr' c' r, msteps num size c (tr' ++ [ERet t r]) c' /\ x_thr c' t = MIdle /\ (tr' = [] \/ exists u r', tr' = [ERet u r']).
Proof.
  intros tr c t R N. destruct (minv_run num size QA OF tr c R) as (atr & ph & q & _ & _ & V).
  assert (Go : forall c1, minv num size c1 ph q \/ (exists tr1, mrun num size tr1 c1) -> x_thr c1 t <> MIdle -> (x_lock c1 = None \/ x_lock c1 = Some t) -> exists c' r, msteps num size c1 [ERet t r] c' /\ x_thr c' t = MIdle).
  { intros c1 V1 N1 L1. assert (V2 : exists ph q, minv num size c1 ph q). { destruct V1 as [V1|(tr1 & R1)]; [eauto|]. destruct (minv_run num size QA OF tr1 c1 R1) as (a1 & ph1 & q1 & _ & _ & V2). eauto. }
    destruct V2 as (ph1 & q1 & V2). destruct (finish_one _ c1 t (le_n _)) as (t1 & c' & A & B & _ & _ & D & _).
    - eapply minv_fine; eauto.
    - unfold can_go. destruct (locked (x_thr c1 t)) eqn:LK; [apply (mi_lock _ _ _ _ _ V2); exact LK|].
      destruct L1 as [L1|L1]; [destruct (x_thr c1 t); auto|]. apply (mi_lock _ _ _ _ _ V2) in L1. congruence.
    - destruct (D N1) as (r & ->). eauto. }
  destruct (x_lock c) as [u|] eqn:L; [|].
  - destruct (Nat.eq_dec u t) as [-> |U].
    + destruct (Go c) as (c' & r & A & B); auto. exists [], c', r. auto.
    + assert (LU : locked (x_thr c u) = true) by (apply (mi_lock _ _ _ _ _ V); exact L).
      destruct (finish_one _ c u (le_n _)) as (t1 & c1 & A & B & C & _ & D & K).
      * eapply minv_fine; eauto.
      * unfold can_go. rewrite LU. exact L.
      * assert (NU : x_thr c u <> MIdle) by (intros X; rewrite X in LU; discriminate). destruct (D NU) as (r' & ->).
        destruct (Go c1) as (c' & r & A' & B'); [right; eexists; eapply mrun_msteps; eauto|rewrite C by auto; exact N|left; apply K; auto|].
        exists [ERet u r'], c', r. split; [eapply msteps_app; eauto|]. split; [exact B'|]. right. eauto.
  - destruct (Go c) as (c' & r & A & B); auto. exists [], c', r. auto.
Qed.
End M.
