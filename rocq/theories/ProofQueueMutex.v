(** ProofQueueMutex.v: the mutex queue is linearizable. *)
From Verif Require Import Base Lib ModelQueue SpecQueue ProofQueue ProofQueue2 ModelQueueMutex SpecQueueMutex.

Lemma upd_same : forall A (f : nat -> A) t v, upd f t v t = v. Proof. intros. unfold upd. rewrite Nat.eqb_refl. reflexivity. Qed.
Lemma upd_other : forall A (f : nat -> A) t v u, u <> t -> upd f t v u = f u. Proof. intros. unfold upd. destruct (Nat.eqb_spec u t); [congruence|reflexivity]. Qed.

Section M.
Variables num size : Z.
Hypothesis QA : queue_args num size.
Hypothesis OF : offsets_fit num size.

Definition ring (g : Z) (q : list bytes) (m : mem) : Prop :=
  m_head m = (g + zlen q) mod num /\ m_tail m = g mod num /\ zlen q <= num - 1 /\ Forall (fun it => zlen it = size) q /\
  forall j it, 0 <= j -> nth_error q (Z.to_nat j) = Some it -> item_at num size m (g + j) it.

Definition locked (s : tstate) : bool :=
  match s with MInsHead _ | MInsTail _ _ | MInsCopy _ _ _ _ | MInsUnlock _ _ _ | MRemHead _ | MRemTail _ _ | MRemCopy _ _ _ _ | MRemUnlock _ _ => true | _ => false end.
Definition related (s : tstate) (p : phase) : Prop :=
  match s with
  | MIdle => p = TIdle
  | MInsWait it | MInsHead it | MInsTail it _ | MInsCopy it _ _ _ => p = TCalled (OpIns it) /\ zlen it = size
  | MInsUnlock it _ _ => p = TCalled (OpIns it) /\ zlen it = size
  | MInsRet ok sp => p = TDone (RIns ok sp)
  | MRemWait got | MRemHead got | MRemTail got _ | MRemCopy got _ _ _ => p = TCalled OpRem /\ zlen got = size
  | MRemUnlock _ _ => p = TCalled OpRem
  | MRemRet res n => p = TDone (RRem res n)
  end.
(** What holds of the ring while the holder of the lock is at [s]; [q] is the queue before its operation. *)
Definition held (q : list bytes) (m : mem) (s : tstate) : Prop :=
  match s with
  | MInsTail _ h => exists g, ring g q m /\ h = m_head m
  | MInsCopy it h sp todo => exists g, ring g q m /\ h = m_head m /\ sp = num - 1 - zlen q /\ 1 <= sp /\ range size todo /\
      forall k v, rd it k = Ok v -> ~ In k todo -> m_data m (slot h size + k) = v
  | MInsUnlock it ok sp => exists g q', ring g q' m /\ apply (num - 1) (OpIns it) q = (RIns ok sp, q')
  | MRemTail _ h => exists g, ring g q m /\ h = m_head m
  | MRemCopy got tl n todo => exists g, ring g q m /\ tl = m_tail m /\ n = zlen q /\ 1 <= n /\ range size todo /\
      forall it k v, nth_error q 0 = Some it -> rd it k = Ok v -> ~ In k todo -> rd got k = Ok v
  | MRemUnlock res n => exists g q', ring g q' m /\ apply (num - 1) OpRem q = (RRem res n, q')
  | _ => exists g, ring g q m
  end.
Record minv (c : mconfig) (ph : nat -> phase) (q : list bytes) : Prop := {
  mi_rel : forall t, related (x_thr c t) (ph t);
  mi_lock : forall t, locked (x_thr c t) = true <-> x_lock c = Some t;
  mi_ring : match x_lock c with None => exists g, ring g q (x_mem c) | Some t => held q (x_mem c) (x_thr c t) end;
  mi_fault : x_fault c = false
}.
Lemma minv_init : minv minit (fun _ => TIdle) [].
Proof.
  pose proof (num_pos num size QA) as NP. constructor; cbn [minit x_mem x_lock x_thr x_fault].
  - reflexivity.
  - intros t. split; discriminate.
  - exists 0. unfold ring. change (zlen (@nil bytes)) with 0. cbn [init_mem m_head m_tail]. split; [symmetry; apply Z.mod_0_l; lia|]. split; [symmetry; apply Z.mod_0_l; lia|]. split; [lia|]. split; [constructor|].
    intros j it J E. destruct (Z.to_nat j); discriminate.
  - reflexivity.
Qed.
Lemma ring_head : forall g q m, ring g q m -> q_space (m_head m) (m_tail m) num = num - 1 - zlen q /\ q_count (m_head m) (m_tail m) num = zlen q.
Proof.
  intros g q m (A & B & C & _). rewrite A, B. pose proof (zlen_nonneg _ q). rewrite (space_val num size QA), (count_val num size QA) by lia. lia.
Qed.

(** A step of thread t that changes neither its phase nor whether it holds the lock. *)
Lemma local_ok : forall c ph q t s m f, minv c ph q -> related s (ph t) -> locked s = locked (x_thr c t) ->
  (locked s = true -> held q m s) -> (locked s = false -> m = x_mem c) -> f = false ->
  minv {| x_mem := m; x_lock := x_lock c; x_thr := upd (x_thr c) t s; x_fault := f |} ph q.
Proof.
  intros c ph q t s m f V R L H M F. destruct V as [V1 V2 V3 V4]. constructor; cbn [x_mem x_lock x_thr x_fault]; auto.
  - intros u. unfold upd. destruct (Nat.eqb_spec u t) as [-> |N]; auto.
  - intros u. unfold upd. destruct (Nat.eqb_spec u t) as [-> |N]; auto. rewrite L. auto.
  - destruct (locked s) eqn:LS.
    + assert (X : x_lock c = Some t) by (apply V2; congruence). rewrite X, upd_same. auto.
    + rewrite M by reflexivity. destruct (x_lock c) as [u|] eqn:X; [|exact V3]. assert (U : u <> t). { intros ->. assert (locked (x_thr c t) = true) by (apply V2; first [exact X|reflexivity]). congruence. } rewrite upd_other by exact U. exact V3.
Qed.
Lemma item_kept : forall m i v j it, item_at num size m j it -> (forall k w, rd it k = Ok w -> slot (j mod num) size + k <> i) -> item_at num size (store m (LData i, v)) j it.
Proof. intros m i v j it A N k w W. cbn. destruct (slot (j mod num) size + k =? i) eqn:E; [exfalso; apply (N k w W); lia|apply A; exact W]. Qed.

Theorem minv_step : forall c e c' ph q, minv c ph q -> mstep num size c e c' ->
  (exists ph', minv c' ph' q /\ match e with
     | Some (ECall t o) => ph t = TIdle /\ ph' = upd ph t (TCalled o)
     | Some (ERet t r) => ph t = TDone r /\ ph' = upd ph t TIdle
     | None => ph' = ph end) \/
  (e = None /\ exists t o r q', ph t = TCalled o /\ apply (num - 1) o q = (r, q') /\ minv c' (upd ph t (TDone r)) q').
Proof.
  intros c e c' ph q V St. pose proof (num_pos num size QA) as NP.
  assert (LK : forall t, locked (x_thr c t) = true -> held q (x_mem c) (x_thr c t)). { intros t L. pose proof (mi_ring _ _ _ V) as X. apply (mi_lock _ _ _ V) in L. rewrite L in X. exact X. }
  pose proof (mi_fault _ _ _ V) as FF.
  assert (CALL : forall t s o, x_thr c t = MIdle -> related s (TCalled o) -> locked s = false -> minv (at_thread c t s) (upd ph t (TCalled o)) q).
  { intros t s o E R L. destruct V as [V1 V2 V3 V4]. constructor; cbn [at_thread x_mem x_lock x_thr x_fault]; auto.
    - intros u. unfold upd. destruct (Nat.eqb_spec u t) as [-> |N]; auto.
    - intros u. unfold upd. destruct (Nat.eqb_spec u t) as [-> |N]; auto. rewrite <- V2, E, L. cbn. tauto.
    - destruct (x_lock c) as [u|] eqn:X; auto. assert (U : u <> t). { intros ->. assert (Y : locked (x_thr c t) = true) by (apply V2; first [exact X|reflexivity]). rewrite E in Y. discriminate. } rewrite upd_other by exact U. exact V3. }
  assert (RET : forall t r, locked (x_thr c t) = false -> related (x_thr c t) (TDone r) -> minv (at_thread c t MIdle) (upd ph t TIdle) q).
  { intros t r L R. destruct V as [V1 V2 V3 V4]. constructor; cbn [at_thread x_mem x_lock x_thr x_fault]; auto.
    - intros u. unfold upd. destruct (Nat.eqb_spec u t) as [-> |N]; auto. reflexivity.
    - intros u. unfold upd. destruct (Nat.eqb_spec u t) as [-> |N]; auto. rewrite <- V2, L. cbn. tauto.
    - destruct (x_lock c) as [u|] eqn:X; auto. assert (U : u <> t). { intros ->. assert (Y : locked (x_thr c t) = true) by (apply V2; first [exact X|reflexivity]). congruence. } rewrite upd_other by exact U. exact V3. }
  assert (LOCK : forall t s, x_lock c = None -> locked s = true -> related s (ph t) -> (forall m, (exists g, ring g q m) -> held q m s) -> minv (with_lock (at_thread c t s) (Some t)) ph q).
  { intros t s X L R H. destruct V as [V1 V2 V3 V4]. rewrite X in V3. constructor; cbn [with_lock at_thread x_mem x_lock x_thr x_fault]; auto.
    - intros u. unfold upd. destruct (Nat.eqb_spec u t) as [-> |N]; auto.
    - intros u. unfold upd. destruct (Nat.eqb_spec u t) as [-> |N]; [tauto|]. rewrite V2, X. split; [discriminate|]. intros E. injection E as E. congruence.
    - rewrite upd_same. auto. }
  assert (UNLOCK : forall t s o r q', locked (x_thr c t) = true -> locked s = false -> related s (TDone r) -> ph t = TCalled o -> (exists g, ring g q' (x_mem c)) -> apply (num - 1) o q = (r, q') ->
     exists t' o r q', ph t' = TCalled o /\ apply (num - 1) o q = (r, q') /\ minv (with_lock (at_thread c t s) None) (upd ph t' (TDone r)) q').
  { intros t s o r q' L LS R P RG A. exists t, o, r, q'. split; [exact P|]. split; [exact A|]. destruct V as [V1 V2 V3 V4]. constructor; cbn [with_lock at_thread x_mem x_lock x_thr x_fault]; auto.
    - intros u. unfold upd. destruct (Nat.eqb_spec u t) as [-> |N]; auto.
    - intros u. apply V2 in L. unfold upd. destruct (Nat.eqb_spec u t) as [-> |N]; [rewrite LS; split; discriminate|]. split; [|discriminate]. intros Y. apply V2 in Y. congruence. }
  destruct St as [c t it E L|c t it E X|c t it E|c t it h E sp|c t it h sp a k b v E R|c t it h sp E|c t it ok sp E|c t ok sp E|c t got E L|c t got E X|c t got E|c t got h E tl n|c t got tl n a k b E|c t got tl n E|c t res n E|c t res n E];
    pose proof (mi_rel _ _ _ V t) as RT; rewrite E in RT; cbn [related] in RT.
  - left. exists (upd ph t (TCalled (OpIns it))). split; [|auto]. apply CALL; auto. cbn. auto.
  - left. exists ph. split; [|reflexivity]. apply LOCK; auto.
  - left. exists ph. split; [|reflexivity]. apply local_ok; auto; try (rewrite E; reflexivity); try discriminate.
    intros _. pose proof (LK t) as H. rewrite E in H. destruct (H eq_refl) as (g & G). exists g. auto.
  - left. exists ph. split; [|reflexivity]. pose proof (LK t) as H. rewrite E in H. destruct (H eq_refl) as (g & G & Hh). destruct (ring_head g q _ G) as [SP _].
    assert (SPE : sp = num - 1 - zlen q) by (unfold sp; rewrite Hh; exact SP). clearbody sp.
    destruct (sp >=? 1) eqn:T; apply local_ok; auto; try (rewrite E; reflexivity); try discriminate; intros _; cbn [held].
    + exists g. split; [exact G|]. split; [exact Hh|]. split; [exact SPE|]. split; [lia|]. split; [apply offsets_range|]. intros k v RV N. exfalso. apply N. apply offsets_in. pose proof (rd_range _ _ _ RV). lia.
    + exists g, q. split; [exact G|]. cbn [apply]. destruct G as (_ & _ & GC & _). replace (zlen q <? num - 1) with false by lia. assert (sp = 0) by lia. subst sp. congruence.
  - left. exists ph. split; [|reflexivity]. pose proof (LK t) as H. rewrite E in H. destruct (H eq_refl) as (g & G & Hh & SP & S1 & RG & CP).
    assert (KR : 0 <= k < size) by (unfold range in RG; rewrite Forall_forall in RG; apply RG, in_elt).
    pose proof G as (G1 & G2 & G3 & G4 & G5). pose proof (zlen_nonneg _ q) as ZQ.
    assert (RG' : range size (a ++ b)). { apply Forall_app in RG as [A B]. inversion B; subst. apply Forall_app. auto. }
    apply (local_ok c ph q t (MInsCopy it h sp (a ++ b)) _ _ V); auto; try (rewrite E; reflexivity); try discriminate.
    + intros _. exists g. split; [|split; [exact Hh|split; [exact SP|split; [exact S1|split; [exact RG'|]]]]].
      * split; [exact G1|]. split; [exact G2|]. split; [exact G3|]. split; [exact G4|]. intros j it' J N. apply item_kept; [apply (G5 j it' J N)|]. intros k' w W.
        assert (j < zlen q). { assert (Z.to_nat j < length q)%nat by (apply nth_error_Some; congruence). unfold zlen. lia. }
        assert (K' : 0 <= k' < size). { pose proof (rd_range _ _ _ W). apply nth_error_In in N. rewrite Forall_forall in G4. rewrite (G4 _ N) in *. lia. }
        rewrite Hh, G1. intros Q. symmetry in Q. revert Q. apply (slot_apart num size QA OF); lia.
      * intros k' w W N. cbn. destruct (slot h size + k' =? slot h size + k) eqn:Q; [assert (k' = k) by lia; subst k'; congruence|]. apply (CP k' w W). apply removal; auto. intros ->. lia.
    + cbn [with_mem at_thread x_fault]. rewrite FF, Hh, G1, (slot_in num size QA OF) by exact KR. reflexivity.
  - left. exists ph. split; [|reflexivity]. pose proof (LK t) as H. rewrite E in H. destruct (H eq_refl) as (g & G & Hh & SP & S1 & RG & CP).
    pose proof G as (G1 & G2 & G3 & G4 & G5). destruct RT as [RT1 RT2].
    apply (local_ok c ph q t (MInsUnlock it true (sp - 1)) _ _ V); auto; try (rewrite E; reflexivity); try discriminate; try (split; auto; fail).
    intros _. exists g, (q ++ [it]). split; [|cbn [apply]; replace (zlen q <? num - 1) with true by lia; f_equal; f_equal; lia].
    pose proof (zlen_nonneg _ q) as ZQ. unfold ring. rewrite zlen_app. change (zlen [it]) with 1. cbn [store fst snd m_head m_tail m_data].
    split; [rewrite Hh, G1, (next_val num size QA); f_equal; lia|]. split; [exact G2|]. split; [lia|]. split; [apply Forall_app; auto|].
    intros j it' J N. assert (j < zlen q \/ j = zlen q) as [JL| ->].
    { assert (Z.to_nat j < length (q ++ [it]))%nat by (apply nth_error_Some; congruence). rewrite app_length in *. cbn [length] in *. unfold zlen. lia. }
    + rewrite nth_error_app1 in N by (unfold zlen in JL; lia). intros k v W. cbn. exact (G5 j it' J N k v W).
    + rewrite nth_error_app2 in N by (unfold zlen; lia). replace (Z.to_nat (zlen q) - length q)%nat with 0%nat in N by (unfold zlen; lia). injection N as <-.
      intros k v W. cbn. rewrite <- G1, <- Hh. apply CP; auto.
  - right. split; [reflexivity|]. pose proof (LK t) as H. rewrite E in H. destruct (H eq_refl) as (g & q' & G & A). apply (UNLOCK t (MInsRet ok sp) (OpIns it) (RIns ok sp) q'); auto; first [rewrite E; reflexivity|reflexivity|tauto|eauto].
  - left. exists (upd ph t TIdle). split; [|auto]. apply (RET t (RIns ok sp)); rewrite E; reflexivity.
  - left. exists (upd ph t (TCalled OpRem)). split; [|auto]. apply CALL; auto. cbn. auto.
  - left. exists ph. split; [|reflexivity]. apply LOCK; auto.
  - left. exists ph. split; [|reflexivity]. apply local_ok; auto; try (rewrite E; reflexivity); try discriminate.
    intros _. pose proof (LK t) as H. rewrite E in H. destruct (H eq_refl) as (g & G). exists g. auto.
  - left. exists ph. split; [|reflexivity]. pose proof (LK t) as H. rewrite E in H. destruct (H eq_refl) as (g & G & Hh). destruct (ring_head g q _ G) as [_ SP].
    assert (SPE : n = zlen q) by (unfold n, tl; rewrite Hh; exact SP). clearbody n.
    destruct (n >=? 1) eqn:T; apply local_ok; auto; try (rewrite E; reflexivity); try discriminate; try (cbn; tauto); intros _; cbn [held].
    + exists g. split; [exact G|]. split; [reflexivity|]. split; [exact SPE|]. split; [lia|]. split; [apply offsets_range|]. intros it k v N RV X. exfalso. apply X. apply offsets_in. pose proof (rd_range _ _ _ RV).
      destruct G as (_ & _ & _ & G4 & _). apply nth_error_In in N. rewrite Forall_forall in G4. rewrite (G4 _ N) in *. lia.
    + exists g, q. split; [exact G|]. destruct q as [|x q]; [|rewrite zlen_cons in SPE; pose proof (zlen_nonneg _ q); lia]. change (zlen (@nil bytes)) with 0 in SPE. subst n. reflexivity.
  - left. exists ph. split; [|reflexivity]. pose proof (LK t) as H. rewrite E in H. destruct (H eq_refl) as (g & G & Ht & N & N1 & RG & CP). destruct RT as [RT1 RT2].
    assert (KR : 0 <= k < size) by (unfold range in RG; rewrite Forall_forall in RG; apply RG, in_elt).
    pose proof G as (G1 & G2 & G3 & G4 & G5).
    assert (RG' : range size (a ++ b)). { apply Forall_app in RG as [A B]. inversion B; subst. apply Forall_app. auto. }
    apply (local_ok c ph q t (MRemCopy (setz got k (m_data (x_mem c) (slot tl size + k))) tl n (a ++ b)) (x_mem c) _ V); auto; try (rewrite E; reflexivity); try discriminate.
    + split; [exact RT1|]. rewrite zlen_setz by lia. exact RT2.
    + intros _. exists g. split; [exact G|]. split; [exact Ht|]. split; [exact N|]. split; [exact N1|]. split; [exact RG'|].
      intros it k' v Hd W X. destruct (Z.eq_dec k' k) as [-> |D].
      * rewrite rd_setz_same by lia. f_equal. rewrite Ht, G2. replace (g mod num) with ((g + 0) mod num) by (f_equal; lia). apply (G5 0 it); auto. lia.
      * rewrite rd_setz_other by (first [lia|auto]). apply (CP it k' v Hd W). apply removal; auto.
    + cbn [at_thread x_fault]. rewrite FF, Ht, G2, (slot_in num size QA OF) by exact KR. reflexivity.
  - left. exists ph. split; [|reflexivity]. pose proof (LK t) as H. rewrite E in H. destruct (H eq_refl) as (g & G & Ht & N & N1 & RG & CP). destruct RT as [RT1 RT2].
    pose proof G as (G1 & G2 & G3 & G4 & G5).
    apply (local_ok c ph q t (MRemUnlock (Some got) (n - 1)) _ _ V); auto; try (rewrite E; reflexivity); try discriminate.
    intros _. destruct q as [|x q]; [change (zlen (@nil bytes)) with 0 in N; lia|]. exists (g + 1), q. rewrite zlen_cons in N, G1, G3. inversion G4 as [|? ? G4a G4b]; subst.
    split.
    + unfold ring. cbn [store fst snd m_head m_tail m_data]. split; [rewrite G1; f_equal; lia|]. split; [rewrite G2, (next_val num size QA); f_equal; lia|]. split; [lia|]. split; [exact G4b|].
      intros j it J X k v W. cbn. replace (g + 1 + j) with (g + (j + 1)) by lia. apply (G5 (j + 1) it); [lia| |exact W]. replace (Z.to_nat (j + 1)) with (S (Z.to_nat j)) by lia. exact X.
    + cbn [apply]. f_equal. f_equal; [|lia]. f_equal. apply rd_all; [congruence|]. intros k v W. apply (CP x k v); auto.
  - right. split; [reflexivity|]. pose proof (LK t) as H. rewrite E in H. destruct (H eq_refl) as (g & q' & G & A). apply (UNLOCK t (MRemRet res n) OpRem (RRem res n) q'); auto; first [rewrite E; reflexivity|reflexivity|eauto].
  - left. exists (upd ph t TIdle). split; [|auto]. apply (RET t (RRem res n)); rewrite E; reflexivity.
Qed.

Theorem minv_run : forall tr c, mrun num size tr c -> exists atr ph q, lin_ok (num - 1) atr ph q /\ visible atr = tr /\ minv c ph q.
Proof.
  assert (VS : forall a e, visible (a ++ [e]) = visible a ++ match e with Vis x => [x] | _ => [] end). { intros a e. unfold visible. rewrite map_app, concat_app. cbn [map concat]. rewrite app_nil_r. reflexivity. }
  intros tr c R. induction R as [|tr c e c' R IH St].
  - exists [], (fun _ => TIdle), []. split; [constructor|]. split; [reflexivity|apply minv_init].
  - destruct IH as (atr & ph & q & L & Vi & V). destruct (minv_step c e c' ph q V St) as [(ph' & V' & C)|(-> & t & o & r & q' & P & A & V')].
    + destruct e as [[t o|t r]|].
      * destruct C as [C ->]. exists (atr ++ [Vis (ECall t o)]), (upd ph t (TCalled o)), q. split; [apply lin_call; auto|]. rewrite VS, Vi. auto.
      * destruct C as [C ->]. exists (atr ++ [Vis (ERet t r)]), (upd ph t TIdle), q. split; [apply lin_ret; auto|]. rewrite VS, Vi. auto.
      * subst ph'. exists atr, ph, q. rewrite app_nil_r. auto.
    + exists (atr ++ [Lin t o r]), (upd ph t (TDone r)), q'. split; [eapply lin_lin; eauto|]. rewrite VS, Vi. auto.
Qed.
End M.
