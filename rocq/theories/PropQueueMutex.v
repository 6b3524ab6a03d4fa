(** PropQueueMutex.v: C70, the mutex queue of libmy/my_queue_mutex.c with any number of threads. *)
From Verif Require Import Base Lib ModelQueue SpecQueue ModelQueueMutex SpecQueueMutex ProofQueueMutex ProofQueueMutex2.

(** Every history is linearizable against a first-in first-out queue of num - 1 items, results and reported space and count included. *)
Theorem C70_linearizable : forall num size tr c, queue_args num size -> offsets_fit num size -> mrun num size tr c -> linearizable (num - 1) tr.
Proof. intros num size tr c QA OF R. destruct (minv_run num size QA OF tr c R) as (atr & ph & q & L & V & _). exists atr, ph, q. auto. Qed.
Print Assumptions C70_linearizable.
Theorem C70_safe : forall num size tr c, queue_args num size -> offsets_fit num size -> mrun num size tr c -> x_fault c = false.
Proof. intros num size tr c QA OF R. destruct (minv_run num size QA OF tr c R) as (atr & ph & q & L & V & I). apply (mi_fault _ _ _ _ _ I). Qed.
Print Assumptions C70_safe.
(** No deadlock: any call can be completed, waiting for at most one other call, the one that holds the lock. *)
Theorem C70_completes : forall num size tr c t, queue_args num size -> offsets_fit num size -> mrun num size tr c -> x_thr c t <> MIdle ->
  exists tr' c' r, msteps num size c (tr' ++ [ERet t r]) c' /\ x_thr c' t = MIdle /\ (tr' = [] \/ exists u r', tr' = [ERet u r']).
Proof. intros num size tr c t QA OF R N. exact (completes num size QA OF tr c t R N). Qed.
Print Assumptions C70_completes.

(** What the specification says: items come out in the order in which they went in, none twice, none lost, at most [cap] held. *)
Definition lin_in (tr : list aevent) : list bytes := concat (map (fun e => match e with Lin _ (OpIns it) (RIns true _) => [it] | _ => [] end) tr).
Definition lin_out (tr : list aevent) : list bytes := concat (map (fun e => match e with Lin _ _ (RRem (Some it) _) => [it] | _ => [] end) tr).
Theorem C70_spec_fifo : forall cap tr ph q, 0 <= cap -> lin_ok cap tr ph q -> lin_in tr = lin_out tr ++ q /\ zlen q <= cap.
Proof.
  intros cap tr ph q C0 L. assert (S : forall f : aevent -> list bytes, forall a e, concat (map f (a ++ [e])) = concat (map f a) ++ f e). { intros f a e. rewrite map_app, concat_app. cbn [map concat]. rewrite app_nil_r. reflexivity. }
  induction L as [|tr ph q t o L IH P|tr ph q t o r q' L IH P A|tr ph q t r L IH P]; [split; [reflexivity|exact C0]| | |]; destruct IH as [I1 I2].
  - unfold lin_in, lin_out in *. rewrite !S, !app_nil_r. auto.
  - unfold lin_in, lin_out in *. rewrite !S, I1. destruct o as [it|]; cbn [apply] in A.
    + destruct (zlen q <? cap) eqn:Z0; injection A as <- <-; rewrite ?app_nil_r; [|auto]. rewrite app_assoc. split; [reflexivity|]. rewrite zlen_app. change (zlen [it]) with 1. lia.
    + destruct q as [|it q]; injection A as <- <-; rewrite ?app_nil_r; [auto|]. rewrite <- app_assoc. split; [reflexivity|]. rewrite zlen_cons in I2. lia.
  - unfold lin_in, lin_out in *. rewrite !S, !app_nil_r. auto.
Qed.
Print Assumptions C70_spec_fifo.

(** Two threads, one insertion and one removal overlapping: the hypotheses are met. *)
Example C70_ex : exists c, mrun 2 1 [ECall 0 (OpIns [7]); ECall 1 OpRem; ERet 0 (RIns true 0); ERet 1 (RRem (Some [7]) 0)] c.
Proof.
  eexists.
  assert (R0 := mrun_init 2 1).
  assert (R1 := mrun_step 2 1 _ _ _ _ R0 (m_ins_call 2 1 minit 0 [7] eq_refl eq_refl)).
  match type of R1 with mrun _ _ _ ?c => assert (R2 := mrun_step 2 1 _ _ _ _ R1 (m_rem_call 2 1 c 1 [0] eq_refl eq_refl)) end.
  match type of R2 with mrun _ _ _ ?c => assert (R3 := mrun_step 2 1 _ _ _ _ R2 (m_ins_lock 2 1 c 0 [7] eq_refl eq_refl)) end.
  match type of R3 with mrun _ _ _ ?c => assert (R4 := mrun_step 2 1 _ _ _ _ R3 (m_ins_head 2 1 c 0 [7] eq_refl)) end.
  match type of R4 with mrun _ _ _ ?c => assert (R5 := mrun_step 2 1 _ _ _ _ R4 (m_ins_tail 2 1 c 0 [7] 0 eq_refl)) end.
  match type of R5 with mrun _ _ _ ?c => assert (R6 := mrun_step 2 1 _ _ _ _ R5 (m_ins_copy 2 1 c 0 [7] 0 1 [] 0 [] 7 eq_refl eq_refl)) end.
  match type of R6 with mrun _ _ _ ?c => assert (R7 := mrun_step 2 1 _ _ _ _ R6 (m_ins_pub 2 1 c 0 [7] 0 1 eq_refl)) end.
  match type of R7 with mrun _ _ _ ?c => assert (R8 := mrun_step 2 1 _ _ _ _ R7 (m_ins_unlock 2 1 c 0 [7] true 0 eq_refl)) end.
  match type of R8 with mrun _ _ _ ?c => assert (R9 := mrun_step 2 1 _ _ _ _ R8 (m_rem_lock 2 1 c 1 [0] eq_refl eq_refl)) end.
  match type of R9 with mrun _ _ _ ?c => assert (Ra := mrun_step 2 1 _ _ _ _ R9 (m_ins_ret 2 1 c 0 true 0 eq_refl)) end.
  match type of Ra with mrun _ _ _ ?c => assert (Rb := mrun_step 2 1 _ _ _ _ Ra (m_rem_head 2 1 c 1 [0] eq_refl)) end.
  match type of Rb with mrun _ _ _ ?c => assert (Rc := mrun_step 2 1 _ _ _ _ Rb (m_rem_tail 2 1 c 1 [0] 1 eq_refl)) end.
  match type of Rc with mrun _ _ _ ?c => assert (Rd := mrun_step 2 1 _ _ _ _ Rc (m_rem_copy 2 1 c 1 [0] 0 1 [] 0 [] eq_refl)) end.
  match type of Rd with mrun _ _ _ ?c => assert (Re := mrun_step 2 1 _ _ _ _ Rd (m_rem_pub 2 1 c 1 [7] 0 1 eq_refl)) end.
  match type of Re with mrun _ _ _ ?c => assert (Rf := mrun_step 2 1 _ _ _ _ Re (m_rem_unlock 2 1 c 1 (Some [7]) 0 eq_refl)) end.
  match type of Rf with mrun _ _ _ ?c => assert (Rg := mrun_step 2 1 _ _ _ _ Rf (m_rem_ret 2 1 c 1 (Some [7]) 0 eq_refl)) end.
  exact Rg.
Qed.
Example C70_ex_args : queue_args 2 1 /\ offsets_fit 2 1.
Proof. split; [split; [exists 1; lia|lia]|]. unfold offsets_fit. lia. Qed.
