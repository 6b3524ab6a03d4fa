(** PropSpool.v: C129-C131 (libmy/spooldir.c) and C132 (libmy/threadnum.c). *)
From Verif Require Import Base Lib Libc ModelSpool SpecSpool.

Lemma at_same : forall f n v, at_name f n v n = v. Proof. intros. unfold at_name. destruct (list_eq_dec Z.eq_dec n n); congruence. Qed.
Lemma at_other : forall f n v x, x <> n -> at_name f n v x = f x. Proof. intros. unfold at_name. destruct (list_eq_dec Z.eq_dec x n); congruence. Qed.
Definition moved (fs : spoolfs) (f : bytes) (id : Z) : spoolfs := {| s_inc := at_name (s_inc fs) f None; s_act := at_name (at_name (s_act fs) f None) f (Some (Reg id)) |}.
Definition cleared (fs : spoolfs) (f : bytes) : spoolfs := {| s_inc := s_inc fs; s_act := at_name (s_act fs) f None |}.
Lemma dec_eligible : forall fs f, {eligible fs f} + {~ eligible fs f}.
Proof.
  intros fs f. unfold eligible. destruct (Z.eq_dec (hd 0 f) 46) as [E|E]; [right; intros [A _]; auto|]. destruct (s_inc fs f) as [[i|]|] eqn:F; [left; split; eauto|right; intros [_ [i H]]; discriminate|right; intros [_ [i H]]; discriminate].
Qed.
Lemma first_dec : forall fs names, (exists f, first_eligible fs names f) \/ forall f, In f names -> ~ eligible fs f.
Proof.
  intros fs. induction names as [|n ns IH]; [right; intros f []|]. destruct (dec_eligible fs n) as [E|E].
  - left. exists n, [], ns. repeat split; try apply E. intros g [].
  - destruct IH as [(f & a & b & A & B & C)|N].
    + left. exists f, (n :: a), b. rewrite A. split; [reflexivity|]. split; [exact B|]. intros g [->|I]; auto.
    + right. intros f [->|I]; auto.
Qed.
(** A name that is not taken is passed over. *)
Lemma skip_one : forall dir fs n ns fuel, ~ eligible fs n -> spool_run (S fuel) dir (Scan (n :: ns)) fs = (let '(p, fs', l) := spool_run fuel dir (Scan ns) fs in (p, fs', fs :: l)).
Proof.
  intros dir fs n ns fuel N. cbn [spool_run]. assert (E : spool_step dir (Scan (n :: ns)) fs = (Scan ns, fs)); [|rewrite E; reflexivity].
  unfold spool_step. destruct n as [|c n].
  - destruct (s_inc fs []) as [[i|]|] eqn:F; auto. exfalso. apply N. split; [cbn; lia|eauto].
  - destruct (Z.eq_dec c 46) as [->|C]; [reflexivity|]. assert (Q : s_inc fs (c :: n) <> None -> s_inc fs (c :: n) <> Some Other -> False).
    { intros A B. apply N. split; [exact C|]. destruct (s_inc fs (c :: n)) as [[i|]|]; [eauto|contradiction|contradiction]. }
    destruct (s_inc fs (c :: n)) as [[i|]|] eqn:F.
    + exfalso. apply Q; discriminate.
    + destruct c as [|q|q]; try reflexivity. repeat (destruct q as [q|q|]; try reflexivity).
    + destruct c as [|q|q]; try reflexivity. repeat (destruct q as [q|q|]; try reflexivity).
Qed.
Lemma found_one : forall dir fs n ns, eligible fs n -> spool_step dir (Scan (n :: ns)) fs = (Found n, fs).
Proof.
  intros dir fs n ns [C [i I]]. unfold spool_step. destruct n as [|c n]; [rewrite I; reflexivity|]. cbn [hd] in C. rewrite I. destruct c as [|q|q]; try reflexivity. repeat (destruct q as [q|q|]; try reflexivity). exfalso. apply C. reflexivity.
Qed.
Lemma same_all : forall (l : list spoolfs) fs, (forall x, In x l -> x = fs) -> forall x, In x (fs :: l) -> x = fs. Proof. intros l fs H x [->|I]; auto. Qed.
Lemma scan_none : forall dir fs names fuel, (length names < fuel)%nat -> (forall f, In f names -> ~ eligible fs f) -> exists l, spool_run fuel dir (Scan names) fs = (None, fs, l) /\ forall x, In x l -> x = fs.
Proof.
  intros dir fs. induction names as [|n ns IH]; intros fuel L N; (destruct fuel as [|fuel]; [cbn in L; lia|]).
  - cbn [spool_run spool_step]. destruct fuel; cbn [spool_run]; eexists; (split; [reflexivity|]); intros x [<-|[<-|[]]]; auto.
  - rewrite skip_one by (apply N; left; auto). destruct (IH fuel ltac:(cbn in L; lia) ltac:(intros; apply N; right; auto)) as (l & E & A). rewrite E. eexists. split; [reflexivity|]. apply same_all. auto.
Qed.
Lemma scan_found : forall dir fs f b a fuel, (forall g, In g a -> ~ eligible fs g) -> eligible fs f ->
  exists l, spool_run (length a + S fuel) dir (Scan (a ++ f :: b)) fs = (let '(p, fs', l2) := spool_run fuel dir (Found f) fs in (p, fs', l ++ l2)) /\ forall x, In x l -> x = fs.
Proof.
  intros dir fs f b. induction a as [|n a IH]; intros fuel N E.
  - cbn [length Nat.add app spool_run]. rewrite found_one by auto. exists [fs]. destruct (spool_run fuel dir (Found f) fs) as [[p fs'] l2]. split; [reflexivity|]. intros x [<-|[]]. auto.
  - cbn [length Nat.add app]. rewrite skip_one by (apply N; left; auto). destruct (IH fuel ltac:(intros; apply N; right; auto) E) as (l & Q & A). rewrite Q. destruct (spool_run fuel dir (Found f) fs) as [[p fs'] l2]. exists (fs :: l). split; [reflexivity|]. apply same_all. auto.
Qed.
Lemma run_found : forall dir fs f id fuel, s_inc fs f = Some (Reg id) -> (3 <= fuel)%nat -> exists p fs' l, spool_run fuel dir (Found f) fs = (p, fs', l) /\
  ((s_act fs f = Some Other /\ p = None /\ fs' = fs /\ (forall x, In x l -> x = fs)) \/
   (s_act fs f <> Some Other /\ p = Some (active_path dir f) /\ (forall n, s_inc fs' n = at_name (s_inc fs) f None n) /\ (forall n, s_act fs' n = at_name (s_act fs) f (Some (Reg id)) n) /\
    In fs' l /\ forall x, In x l -> x = fs \/ x = cleared fs f \/ x = fs')).
Proof.
  intros dir fs f id fuel I L. destruct fuel as [|[|[|fuel]]]; try lia. cbn [spool_run spool_step]. destruct (s_act fs f) as [[i|]|] eqn:A.
  - cbn [spool_run spool_step]. rewrite A. cbn [spool_run spool_step s_inc s_act]. rewrite I, at_same. destruct fuel; cbn [spool_run]; (do 3 eexists; split; [reflexivity|]; right; repeat split; try discriminate; cbn [s_inc s_act]; auto;
      [intros n; unfold at_name; destruct (list_eq_dec Z.eq_dec n f); auto | cbn; auto | intros x [<-|[<-|[<-|[<-|[]]]]]; auto]).
  - cbn [spool_run spool_step]. rewrite A. cbn [spool_run spool_step]. rewrite I, A. destruct fuel; cbn [spool_run]; (do 3 eexists; split; [reflexivity|]; left; repeat split; auto; intros x [<-|[<-|[<-|[<-|[]]]]]; auto).
  - cbn [spool_run spool_step]. rewrite I, A. cbn [spool_run]. do 3 eexists. split; [reflexivity|]. right. repeat split; try discriminate; cbn [s_inc s_act]; auto; [cbn; auto|]. intros x [<-|[<-|[<-|[]]]]; auto.
Qed.
Lemma next_found : forall dir fs names f id, first_eligible fs names f -> s_inc fs f = Some (Reg id) -> exists p fs' l, spooldir_next dir names fs = (p, fs', l) /\
  ((s_act fs f = Some Other /\ p = None /\ fs' = fs /\ (forall x, In x l -> x = fs)) \/
   (s_act fs f <> Some Other /\ p = Some (active_path dir f) /\ (forall n, s_inc fs' n = at_name (s_inc fs) f None n) /\ (forall n, s_act fs' n = at_name (s_act fs) f (Some (Reg id)) n) /\
    In fs' l /\ forall x, In x l -> x = fs \/ x = cleared fs f \/ x = fs')).
Proof.
  intros dir fs names f id (a & b & E & El & N) I. unfold spooldir_next. rewrite E. rewrite app_length. cbn [length]. replace (length a + S (length b) + 4)%nat with (length a + S (length b + 4))%nat by lia.
  destruct (scan_found dir fs f b a (length b + 4) N El) as (l & Q & A). rewrite Q. destruct (run_found dir fs f id (length b + 4) I ltac:(lia)) as (p & fs' & l2 & Q2 & H). rewrite Q2. exists p, fs', (l ++ l2). split; [reflexivity|].
  destruct H as [(H1 & H2 & H3 & H4)|(H1 & H2 & H3 & H4 & H5 & H6)]; [left|right]; repeat split; auto.
  - intros x X. apply in_app_or in X as [X|X]; auto.
  - apply in_or_app. auto.
  - intros x X. apply in_app_or in X as [X|X]; auto.
Qed.
Lemma path_inj : forall dir f g, active_path dir f = active_path dir g -> f = g.
Proof. intros dir f g E. unfold active_path in E. apply app_inv_head in E. apply app_inv_head in E. exact E. Qed.

(** ** C130: what one call does *)
(** The first name that may be taken is moved to active/, replacing a file of this name there, and its new path is returned. *)
Theorem C130_take : forall dir fs names f id, first_eligible fs names f -> s_inc fs f = Some (Reg id) -> s_act fs f <> Some Other ->
  exists fs' l, spooldir_next dir names fs = (Some (active_path dir f), fs', l) /\ (forall n, s_inc fs' n = at_name (s_inc fs) f None n) /\ (forall n, s_act fs' n = at_name (s_act fs) f (Some (Reg id)) n).
Proof.
  intros dir fs names f id F I A. destruct (next_found dir fs names f id F I) as (p & fs' & l & E & [(H1 & _)|(_ & H2 & H3 & H4 & _)]); [contradiction|]. exists fs', l. rewrite E, H2. auto.
Qed.
Print Assumptions C130_take.
(** In all other cases nothing happens: no name may be taken, or something that is not a file is in its way. *)
Theorem C130_null : forall dir fs names p fs' l, spooldir_next dir names fs = (p, fs', l) -> (forall f, In f names -> ~ eligible fs f) \/ (exists f, first_eligible fs names f /\ s_act fs f = Some Other) ->
  p = None /\ fs' = fs.
Proof.
  intros dir fs names p fs' l E [N|(f & F & O)].
  - unfold spooldir_next in E. destruct (scan_none dir fs names (length names + 4) ltac:(lia) N) as (l2 & E2 & _). rewrite E2 in E. split; congruence.
  - pose proof F as (a & b & _ & (_ & id & I) & _). destruct (next_found dir fs names f id F I) as (p2 & fs2 & l2 & E2 & [(H1 & H2 & H3 & _)|(H1 & _)]); [|contradiction]. split; congruence.
Qed.
Print Assumptions C130_null.
Definition fs_ex : spoolfs := {| s_inc := at_name (at_name (at_name (fun _ => None) (lit "a") (Some (Reg 7))) (lit ".b") (Some (Reg 8))) (lit "d") (Some Other); s_act := at_name (fun _ => None) (lit "a") (Some (Reg 5)) |}.
Example C130_example : first_eligible fs_ex [lit "."; lit "gone"; lit ".b"; lit "d"; lit "a"] (lit "a") /\ s_inc fs_ex (lit "a") = Some (Reg 7) /\
  fst (fst (spooldir_next (lit "/spool") [lit "."; lit "gone"; lit ".b"; lit "d"; lit "a"] fs_ex)) = Some (lit "/spool/active/a").
Proof.
  split; [|split; vm_compute; reflexivity]. exists [lit "."; lit "gone"; lit ".b"; lit "d"], []. split; [reflexivity|]. split.
  - split; [vm_compute; discriminate|exists 7; vm_compute; reflexivity].
  - intros g [<-|[<-|[<-|[<-|[]]]]] [A [i B]]; vm_compute in A, B; congruence.
Qed.

(** ** C129: exactly once *)
Lemma reached_inv : forall dir added out fs, reached dir added out fs ->
  NoDup out /\ (forall id, In id added <-> In id out \/ exists n, s_inc fs n = Some (Reg id)) /\ (forall id n, In id out -> s_inc fs n <> Some (Reg id)) /\ (forall m n id, s_inc fs m = Some (Reg id) -> s_inc fs n = Some (Reg id) -> m = n).
Proof.
  intros dir added out fs R. induction R as [fs added A U|added out fs n id R (I1 & I2 & I3 & I4) N F|added out fs n v R (I1 & I2 & I3 & I4) N V|added out fs act R (I1 & I2 & I3 & I4)|added out fs names fs' l R (I1 & I2 & I3 & I4) E|added out fs names f id fs' l R (I1 & I2 & I3 & I4) E A].
  - split; [constructor|]. split; [intros id; rewrite A; cbn; tauto|]. split; [intros id n []|exact U].
  - cbn [s_inc]. split; [exact I1|]. split; [|split].
    + intros i. cbn [In]. rewrite I2. split.
      * intros [<-|[O|[m M]]]; [right; exists n; apply at_same|auto|]. right. exists m. rewrite at_other; auto. congruence.
      * intros [O|[m M]]; [auto|]. destruct (list_eq_dec Z.eq_dec m n) as [->|E]; [rewrite at_same in M; left; congruence|]. rewrite at_other in M by auto. eauto.
    + intros i m O. destruct (list_eq_dec Z.eq_dec m n) as [->|E]; [rewrite at_same; intros Q; apply F; apply I2; left; congruence|]. rewrite at_other by auto. apply I3. auto.
    + assert (Fr : forall m, s_inc fs m <> Some (Reg id)) by (intros m M; apply F, I2; eauto). intros m k i M K. destruct (list_eq_dec Z.eq_dec m n) as [->|Em], (list_eq_dec Z.eq_dec k n) as [->|Ek]; auto.
      * rewrite at_same in M. rewrite at_other in K by auto. exfalso. apply (Fr k). congruence.
      * rewrite at_same in K. rewrite at_other in M by auto. exfalso. apply (Fr m). congruence.
      * rewrite at_other in M, K by auto. eauto.
  - cbn [s_inc]. assert (Q : forall m i, at_name (s_inc fs) n v m = Some (Reg i) <-> s_inc fs m = Some (Reg i)).
    { intros m i. destruct (list_eq_dec Z.eq_dec m n) as [->|E]; [rewrite at_same|rewrite at_other by auto; tauto]. destruct N as [->| ->], V as [->| ->]; split; discriminate. }
    split; [exact I1|]. split; [|split].
    + intros i. rewrite I2. split; (intros [O|[m M]]; [auto|right; exists m; apply Q; auto]).
    + intros i m O M. apply Q in M. eapply I3; eauto.
    + intros m k i M K. apply Q in M, K. eauto.
  - cbn [s_inc]. auto.
  - assert (fs' = fs) as ->; [|auto]. destruct (first_dec fs names) as [(f & F)|N].
    + pose proof F as (a & b & _ & (_ & id & I) & _). destruct (next_found dir fs names f id F I) as (p2 & fs2 & l2 & E2 & [(H1 & H2 & H3 & _)|(H1 & H2 & _)]); congruence.
    + eapply C130_null; eauto.
  - destruct (first_dec fs names) as [(g & F)|N].
    + pose proof F as (a & b & _ & (_ & j & I) & _). destruct (next_found dir fs names g j F I) as (p2 & fs2 & l2 & E2 & [(H1 & H2 & H3 & _)|(H1 & H2 & H3 & H4 & _)]); [congruence|].
      assert (fs2 = fs') by congruence. subst fs2. assert (g = f) by (apply (path_inj dir); congruence). subst g. rewrite H4, at_same in A. assert (j = id) by congruence. subst j.
      split; [apply (NoDup_Add (a := id) (l := out)); [rewrite <- (app_nil_r out) at 1; apply Add_app|split; auto; intros O; eapply I3; eauto]|]. split; [|split].
      * intros i. rewrite I2, in_app_iff. cbn [In]. split.
        { intros [O|[m M]]; [auto|]. destruct (list_eq_dec Z.eq_dec m f) as [->|Em]; [left; right; left; congruence|]. right. exists m. rewrite H3, at_other by auto. auto. }
        { intros [[O|[<-|[]]]|[m M]]; [auto|right; eauto|]. rewrite H3 in M. destruct (list_eq_dec Z.eq_dec m f) as [->|Em]; [rewrite at_same in M; discriminate|]. rewrite at_other in M by auto. eauto. }
      * intros i m O. rewrite H3. destruct (list_eq_dec Z.eq_dec m f) as [->|Em]; [rewrite at_same; discriminate|]. rewrite at_other by auto. apply in_app_or in O as [O|[<-|[]]]; [apply I3; auto|]. intros M. apply Em. eapply I4; eauto.
      * intros m k i M K. rewrite H3 in M, K. destruct (list_eq_dec Z.eq_dec m f) as [->|Em]; [rewrite at_same in M; discriminate|]. destruct (list_eq_dec Z.eq_dec k f) as [->|Ek]; [rewrite at_same in K; discriminate|]. rewrite at_other in M, K by auto. eauto.
    + exfalso. destruct (C130_null dir fs names _ fs' l E (or_introl N)) as [Q _]. discriminate.
Qed.
(** After any history of one consumer: no file was returned twice, and a file that was put there was returned or is still in incoming/, not both. *)
Theorem C129_once : forall dir added out fs, reached dir added out fs ->
  NoDup out /\ (forall id, In id added <-> In id out \/ exists n, s_inc fs n = Some (Reg id)) /\ (forall id n, In id out -> s_inc fs n <> Some (Reg id)).
Proof. intros dir added out fs R. apply reached_inv in R as (A & B & C & _). auto. Qed.
Print Assumptions C129_once.
(** At every moment inside a call, so also after a crash, a file not yet returned is in incoming/ or in active/. *)
Theorem C129_moment : forall dir added out fs names p fs' l x id, reached dir added out fs -> spooldir_next dir names fs = (p, fs', l) -> In x l -> In id added -> ~ In id out ->
  exists n, s_inc x n = Some (Reg id) \/ s_act x n = Some (Reg id).
Proof.
  intros dir added out fs names p fs' l x id R E X A O. apply reached_inv in R as (_ & I2 & _ & I4). apply I2 in A as [A|[n N]]; [contradiction|]. exists n. destruct (first_dec fs names) as [(f & F)|No].
  - pose proof F as (a & b & _ & (_ & j & I) & _). destruct (next_found dir fs names f j F I) as (p2 & fs2 & l2 & E2 & H). assert (p2 = p /\ fs2 = fs' /\ l2 = l) as (-> & -> & ->) by (split; [|split]; congruence).
    destruct H as [(_ & _ & _ & H)|(_ & _ & H3 & H4 & _ & H)]; [rewrite (H x X); auto|]. destruct (H x X) as [->|[->| ->]]; [auto|cbn; auto|]. rewrite H3, H4. destruct (list_eq_dec Z.eq_dec n f) as [->|En]; [rewrite !at_same; right; congruence|rewrite !at_other by auto; auto].
  - unfold spooldir_next in E. destruct (scan_none dir fs names (length names + 4) ltac:(lia) No) as (l2 & E2 & H). rewrite E2 in E. rewrite (H x); [auto|]. congruence.
Qed.
Print Assumptions C129_moment.
(** A file is returned as soon as readdir shows it before all others and nothing but a file is in its way. *)
Theorem C129_progress : forall dir added out fs n id names, reached dir added out fs -> s_inc fs n = Some (Reg id) -> hd 0 n <> 46 -> In n names -> (forall f, In f names -> s_act fs f <> Some Other) ->
  exists f fs' l, spooldir_next dir names fs = (Some (active_path dir f), fs', l) /\ In f names.
Proof.
  intros dir added out fs n id names R I H In_ A. destruct (first_dec fs names) as [(f & F)|N]; [|exfalso; apply (N n In_); split; eauto]. pose proof F as (a & b & E & (_ & j & J) & _).
  assert (If : In f names) by (rewrite E; apply in_or_app; right; left; auto). destruct (C130_take dir fs names f j F J (A f If)) as (fs' & l & Q & _). exists f, fs', l. auto.
Qed.
Print Assumptions C129_progress.
Example C129_example : exists fs, reached (lit "/s") [2; 1] [1] fs /\ s_inc fs (lit "b") = Some (Reg 2).
Proof.
  pose (fs0 := {| s_inc := fun _ : bytes => @None node; s_act := fun _ : bytes => @None node |}). pose (fs1 := {| s_inc := at_name (s_inc fs0) (lit "a") (Some (Reg 1)); s_act := s_act fs0 |}).
  pose (fs2 := {| s_inc := at_name (s_inc fs1) (lit "b") (Some (Reg 2)); s_act := s_act fs1 |}).
  assert (R0 : reached (lit "/s") [] [] fs0) by (apply r_start; [intros id; split; [intros []|intros [n N]; discriminate]|intros m n id M; discriminate]).
  assert (R1 : reached (lit "/s") [1] [] fs1) by (apply r_add; auto). assert (R2 : reached (lit "/s") [2; 1] [] fs2) by (apply r_add; [auto|reflexivity|intros [Q|[]]; lia]).
  destruct (C130_take (lit "/s") fs2 [lit "."; lit "a"; lit "b"] (lit "a") 1) as (fs' & l & E & I & A).
  - exists [lit "."], [lit "b"]. split; [reflexivity|]. split; [split; [vm_compute; discriminate|exists 1; reflexivity]|]. intros g [<-|[]] [Q _]. vm_compute in Q. congruence.
  - reflexivity.
  - vm_compute. discriminate.
  - exists fs'. split; [|rewrite I; reflexivity]. apply (r_take _ [2; 1] [] fs2 _ (lit "a") 1 fs' l R2 E). rewrite A. reflexivity.
Qed.

(** ** C131: two consumers, and restarts *)
(** Two processes on the same directory: one has been given the file, then the other removes it. *)
Theorem C131_two_refuted : forall dir f id, hd 0 f <> 46 -> exists sched fs a fs',
  (forall n, s_inc fs n = at_name (fun _ => None) f (Some (Reg id)) n) /\ (forall n, s_act fs n = None) /\
  spool_two dir sched (Scan [f]) (Scan [f]) fs = (Return (Some (active_path dir f)), a, fs') /\ (forall n, s_inc fs' n = None /\ s_act fs' n = None).
Proof.
  intros dir f id H. pose (fs := {| s_inc := at_name (fun _ => None) f (Some (Reg id)); s_act := fun _ => None |}). exists [true; false; true; true; false; false; false], fs. assert (E : eligible fs f) by (split; [exact H|exists id; apply at_same]).
  cbn [spool_two]. rewrite (found_one dir fs f [] E). cbn [spool_two]. rewrite (found_one dir fs f [] E). cbn [spool_two spool_step]. change (s_act fs f) with (@None node). cbn [spool_two spool_step]. change (s_act fs f) with (@None node). change (s_inc fs f) with (at_name (fun _ => None) f (Some (Reg id)) f). rewrite at_same.
  cbn [spool_two spool_step s_act s_inc]. rewrite at_same. cbn [spool_two spool_step s_act s_inc]. rewrite at_same. cbn [spool_two spool_step s_act s_inc]. rewrite !at_same. do 2 eexists. split; [reflexivity|]. split; [reflexivity|]. split; [reflexivity|].
  intros n. cbn [s_inc s_act]. unfold fs, at_name. cbn. destruct (list_eq_dec Z.eq_dec n f); auto.
Qed.
Print Assumptions C131_two_refuted.
(** A crash after the rename and before the caller has done its work: no later history returns this file. *)
Theorem C131_restart_refuted : forall dir fs names f id, first_eligible fs names f -> s_inc fs f = Some (Reg id) -> s_act fs f <> Some Other -> (forall m, s_inc fs m = Some (Reg id) -> m = f) ->
  exists p fs' l x, spooldir_next dir names fs = (p, fs', l) /\ In x l /\ s_act x f = Some (Reg id) /\
  forall added out fs2, reached dir added out fs2 -> ~ In id added -> ~ In id out.
Proof.
  intros dir fs names f id F I A U. destruct (next_found dir fs names f id F I) as (p & fs' & l & E & [(H1 & _)|(_ & H2 & H3 & H4 & H5 & _)]); [contradiction|]. exists p, fs', l, fs'. split; [exact E|]. split; [exact H5|].
  split; [rewrite H4; apply at_same|]. intros added out fs2 R N O. apply N. eapply C129_once; eauto.
Qed.
Print Assumptions C131_restart_refuted.
