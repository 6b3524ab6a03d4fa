(** PropThreadnum.v: C132 (libmy/threadnum.c), for every schedule of the threads' steps. *)
From Verif Require Import Base Lib Libc ModelSpool SpecSpool.

Lemma tset_same : forall A (f : Z -> A) t v, tn_set f t v t = v. Proof. intros. unfold tn_set. rewrite Z.eqb_refl. auto. Qed.
Lemma tset_other : forall A (f : Z -> A) t v x, x <> t -> tn_set f t v x = f x. Proof. intros. unfold tn_set. destruct (Z.eqb_spec x t); congruence. Qed.

Record tn_inv (s : tn_state) : Prop := {
  ti_next : 0 <= tn_next s;
  ti_lock : forall t, tn_pcs s t = TnLocked \/ tn_pcs s t = TnStored <-> tn_lock s = Some t;
  ti_stored : forall t, tn_pcs s t = TnStored -> tn_local s t = tn_next s;
  ti_idle : forall t, tn_pcs s t = TnIdle -> tn_local s t = 0;
  ti_done : forall t, tn_pcs s t = TnDone -> 0 <= tn_local s t < tn_next s;
  ti_dist : forall t u, tn_pcs s t = TnDone -> tn_pcs s u = TnDone -> tn_local s t = tn_local s u -> t = u;
  ti_dense : forall k, 0 <= k < tn_next s -> exists t, tn_pcs s t = TnDone /\ tn_local s t = k }.

Lemma tn_inv_init : tn_inv tn_init.
Proof. split; cbn; intros; try lia; try discriminate; auto. split; [intros [A|A]; discriminate|discriminate]. Qed.
Lemma tn_inv_step : forall t s s', tn_inv s -> tn_step t s = Some s' -> tn_inv s'.
Proof.
  intros t s s' I E. destruct I as [N L St Id D Di De]. unfold tn_step in E. destruct (tn_pcs s t) eqn:P; try discriminate.
  - destruct (tn_lock s) eqn:K; [discriminate|]. injection E as <-. split; cbn [tn_lock tn_next tn_local tn_pcs].
    + exact N.
    + intros u. destruct (Z.eq_dec u t) as [->|Q]; [rewrite tset_same; tauto|]. rewrite tset_other by auto. rewrite L. split; congruence.
    + intros u. destruct (Z.eq_dec u t) as [->|Q]; [rewrite tset_same; discriminate|]. rewrite tset_other by auto. apply St.
    + intros u. destruct (Z.eq_dec u t) as [->|Q]; [rewrite tset_same; discriminate|]. rewrite tset_other by auto. apply Id.
    + intros u. destruct (Z.eq_dec u t) as [->|Q]; [rewrite tset_same; discriminate|]. rewrite tset_other by auto. apply D.
    + intros u v. destruct (Z.eq_dec u t) as [->|Q]; [rewrite tset_same; discriminate|]. rewrite (tset_other _ _ _ _ u) by auto. destruct (Z.eq_dec v t) as [->|Q2]; [rewrite tset_same; discriminate|]. rewrite tset_other by auto. apply Di.
    + intros k R. destruct (De k R) as (u & U & V). exists u. rewrite tset_other; auto. congruence.
  - injection E as <-. assert (K : tn_lock s = Some t) by (apply L; auto). split; cbn [tn_lock tn_next tn_local tn_pcs].
    + exact N.
    + intros u. destruct (Z.eq_dec u t) as [->|Q]; [rewrite tset_same; tauto|]. rewrite tset_other by auto. apply L.
    + intros u. destruct (Z.eq_dec u t) as [->|Q]; [rewrite !tset_same; auto|]. rewrite !tset_other by auto. apply St.
    + intros u. destruct (Z.eq_dec u t) as [->|Q]; [rewrite !tset_same; discriminate|]. rewrite !tset_other by auto. apply Id.
    + intros u. destruct (Z.eq_dec u t) as [->|Q]; [rewrite !tset_same; discriminate|]. rewrite !tset_other by auto. apply D.
    + intros u v. destruct (Z.eq_dec u t) as [->|Q]; [rewrite tset_same; discriminate|]. rewrite (tset_other _ (tn_pcs s) _ _ u) by auto. destruct (Z.eq_dec v t) as [->|Q2]; [rewrite tset_same; discriminate|]. rewrite !tset_other by auto. apply Di.
    + intros k R. destruct (De k R) as (u & U & V). assert (u <> t) by congruence. exists u. rewrite !tset_other by auto. auto.
  - injection E as <-. assert (K : tn_lock s = Some t) by (apply L; auto). pose proof (St t P) as Lt. split; cbn [tn_lock tn_next tn_local tn_pcs].
    + lia.
    + intros u. destruct (Z.eq_dec u t) as [->|Q]; [rewrite tset_same; split; [intros [A|A]; discriminate|discriminate]|]. rewrite tset_other by auto. rewrite L, K. split; congruence.
    + intros u. destruct (Z.eq_dec u t) as [->|Q]; [rewrite tset_same; discriminate|]. rewrite tset_other by auto. intros A. exfalso. apply Q. assert (tn_lock s = Some u) by (apply L; auto). congruence.
    + intros u. destruct (Z.eq_dec u t) as [->|Q]; [rewrite tset_same; discriminate|]. rewrite tset_other by auto. apply Id.
    + intros u. destruct (Z.eq_dec u t) as [->|Q]; [intros _; lia|]. rewrite tset_other by auto. intros A. specialize (D u A). lia.
    + intros u v. destruct (Z.eq_dec u t) as [->|Q], (Z.eq_dec v t) as [->|Q2]; auto.
      * rewrite (tset_other _ _ _ _ v) by auto. intros _ A B. specialize (D v A). lia.
      * rewrite (tset_other _ _ _ _ u) by auto. intros A _ B. specialize (D u A). lia.
      * rewrite !tset_other by auto. apply Di.
    + intros k R. destruct (Z.eq_dec k (tn_next s)) as [->|Q]; [exists t; rewrite tset_same; auto|]. destruct (De k ltac:(lia)) as (u & U & V). exists u. rewrite tset_other by congruence. auto.
Qed.
Lemma tn_run_app : forall a b s, tn_run (a ++ b) s = tn_run b (tn_run a s). Proof. induction a as [|x a IH]; cbn [app tn_run]; auto. Qed.
Lemma tn_inv_run : forall sched s, tn_inv s -> tn_inv (tn_run sched s).
Proof. induction sched as [|t l IH]; intros s I; cbn [tn_run]; auto. apply IH. destruct (tn_step t s) eqn:E; auto. eapply tn_inv_step; eauto. Qed.
Lemma tn_reach : forall sched, tn_inv (tn_run sched tn_init). Proof. intros. apply tn_inv_run, tn_inv_init. Qed.

(** ** C132 *)
(** Two threads that have registered have different numbers. *)
Theorem C132_distinct : forall sched t u, let s := tn_run sched tn_init in registered t s -> registered u s -> my_threadnum t s = my_threadnum u s -> t = u.
Proof. intros sched t u s T U E. exact (ti_dist s (tn_reach sched) t u T U E). Qed.
Print Assumptions C132_distinct.
(** The numbers given out are 0, 1, ..., n-1 without a gap. *)
Theorem C132_dense : forall sched, let s := tn_run sched tn_init in exists n, 0 <= n /\ forall k, 0 <= k < n <-> exists t, registered t s /\ my_threadnum t s = k.
Proof.
  intros sched s. pose proof (tn_reach sched) as I. exists (tn_next s). split; [apply (ti_next s I)|]. intros k. split; [apply (ti_dense s I)|]. intros (t & T & <-). apply (ti_done s I t T).
Qed.
Print Assumptions C132_dense.
(** The number of a thread does not change after it has registered. *)
Theorem C132_kept : forall sched more t, let s := tn_run sched tn_init in registered t s -> registered t (tn_run more s) /\ my_threadnum t (tn_run more s) = my_threadnum t s.
Proof.
  intros sched more t s. generalize s as s0. clear s. induction more as [|u l IH]; intros s T; cbn [tn_run]; [auto|]. destruct (tn_step u s) as [s'|] eqn:E; [|auto].
  assert (Q : registered t s' /\ my_threadnum t s' = my_threadnum t s).
  { unfold registered, my_threadnum in *. unfold tn_step in E. assert (Ne : u = t -> tn_pcs s u = TnDone) by congruence. destruct (tn_pcs s u) eqn:P; try discriminate.
    - destruct (tn_lock s); [discriminate|]. injection E as <-. cbn. rewrite tset_other by (intros ->; specialize (Ne eq_refl); discriminate). auto.
    - injection E as <-. cbn. rewrite !tset_other by (intros ->; specialize (Ne eq_refl); discriminate). auto.
    - injection E as <-. cbn. rewrite !tset_other by (intros ->; specialize (Ne eq_refl); discriminate). auto. }
  destruct Q as [Q1 Q2]. rewrite <- Q2. apply IH. exact Q1.
Qed.
Print Assumptions C132_kept.
Lemma finish : forall t s, tn_inv s -> tn_lock s = Some t -> exists more, tn_lock (tn_run more s) = None /\ registered t (tn_run more s) /\ forall u, u <> t -> tn_pcs (tn_run more s) u = tn_pcs s u.
Proof.
  intros t s I K. destruct (proj2 (ti_lock s I t) K) as [P|P].
  - exists [t; t]. unfold registered. cbn [tn_run]. unfold tn_step. rewrite P. repeat (cbn [tn_pcs tn_lock tn_next tn_local]; rewrite tset_same). cbn [tn_pcs tn_lock tn_next tn_local]. split; [auto|split; auto]. intros u U. rewrite !tset_other by auto. auto.
  - exists [t]. cbn [tn_run]. unfold tn_step. rewrite P. unfold registered. cbn. rewrite tset_same. split; [auto|split; auto]. intros u U. rewrite !tset_other by auto. auto.
Qed.
(** From every reachable state every thread can still complete its registration: there is no deadlock. *)
Theorem C132_progress : forall sched t, exists more, registered t (tn_run more (tn_run sched tn_init)).
Proof.
  intros sched t. set (s := tn_run sched tn_init). assert (I : tn_inv s) by apply tn_reach. clearbody s. clear sched.
  assert (Free : forall s, tn_inv s -> tn_lock s = None -> exists more, registered t (tn_run more s)).
  { clear s I. intros s I K. destruct (tn_pcs s t) eqn:P.
    - exists [t; t; t]. unfold registered. cbn [tn_run]. unfold tn_step. rewrite P, K. repeat (cbn [tn_pcs tn_lock tn_next tn_local]; rewrite tset_same). cbn [tn_pcs tn_lock tn_next tn_local]. reflexivity.
    - assert (tn_lock s = Some t) by (apply (ti_lock s I); auto). congruence.
    - assert (tn_lock s = Some t) by (apply (ti_lock s I); auto). congruence.
    - exists []. exact P. }
  destruct (tn_lock s) as [h|] eqn:K; [|auto]. destruct (finish h s I K) as (m & A & _ & _). destruct (Free (tn_run m s) (tn_inv_run m s I) A) as (m2 & B). exists (m ++ m2). rewrite tn_run_app. exact B.
Qed.
Print Assumptions C132_progress.
Lemma stays_idle : forall sched t s, tn_pcs s t = TnIdle -> ~ In t sched -> tn_pcs (tn_run sched s) t = TnIdle.
Proof.
  induction sched as [|u l IH]; intros t s P N; cbn [tn_run]; [auto|]. assert (t <> u) by (intros ->; apply N; left; auto). apply IH; [|intros O; apply N; right; auto].
  destruct (tn_step u s) as [s'|] eqn:E; [|auto]. unfold tn_step in E. destruct (tn_pcs s u); try discriminate; [destruct (tn_lock s); [discriminate|]| |]; injection E as <-; cbn; rewrite tset_other; auto.
Qed.
(** A thread that has not begun to register has the number 0, like the first that did. *)
Theorem C132_before : forall sched t, ~ In t sched -> my_threadnum t (tn_run sched tn_init) = 0.
Proof. intros sched t N. apply (ti_idle _ (tn_reach sched)). apply stays_idle; auto. Qed.
Print Assumptions C132_before.
(** Two threads, one waiting while the other holds the lock. *)
Example C132_example : let s := tn_run [5; 5; 9; 9; 5; 9; 9; 9] tn_init in registered 5 s /\ registered 9 s /\ my_threadnum 5 s = 0 /\ my_threadnum 9 s = 1.
Proof. vm_compute. auto. Qed.
