(** PropList.v: C123 (a list is the sequence the calls made) and C124 (what the macros do not check), libmy/list.h. *)
From Verif Require Import Base Lib ModelList SpecList ProofList.

(** C123: after any history of legal calls from fresh memory nothing has faulted; every list read forwards from its head gives exactly
    the sequence, read backwards from its tail the reverse; ISC_LIST_EMPTY tells whether it is empty; and ISC_LINK_LINKED is false of
    exactly the elements in no list. *)
Theorem C123_history : forall m os s, fresh_mem m -> history (fun _ => []) os s ->
  exists m', run_ops os m = Ok m' /\
    (forall l n, (length (s l) < n)%nat -> walk n (d_head m' l) m' = Ok (s l) /\ walk_back n (d_tail m' l) m' = Ok (rev (s l))) /\
    (forall l, list_empty l m' = true <-> s l = []) /\
    (forall e, 0 < e -> exists b, link_linked e m' = Ok b /\ (b = false <-> forall l, ~ In e (s l))).
Proof.
  intros m os s F H. destruct (history_ok _ _ _ H m (fresh_repr m F)) as (m' & E & R). exists m'. split; [exact E|]. split; [|split].
  - intros l n Ln. destruct R as (R1 & R2 & R3 & R4). destruct (R1 l) as (A & B & C), (R2 l) as (D & P). rewrite A, B. destruct m'. split; [eapply walk_seg|eapply walk_back_seg]; eauto.
  - intros l. destruct R as (R1 & R2 & R3 & R4). unfold list_empty. destruct (R1 l) as (A & _), (R2 l) as (_ & P). rewrite A. destruct (s l) as [|x r]; [tauto|]. inversion P; subst. cbn [hd]. split; [lia|discriminate].
  - intros e Pe. unfold link_linked. rewrite get_prev_do by auto. cbn [bind]. eexists. split; [reflexivity|]. split.
    + intros B l I. destruct (in_split _ _ I) as (a & b & L). destruct (at_e m' s l R a e b L) as (_ & Q & _ & _ & _ & _ & P). rewrite Q in B. apply Forall_app in P as [P _].
      destruct a as [|z a]; [discriminate|]. assert (0 < last (z :: a) 0) by (rewrite Forall_forall in P; apply P, last_in; discriminate). lia.
    + intros N. destruct R as (_ & _ & _ & R4). rewrite (R4 e N). reflexivity.
Qed.
Print Assumptions C123_history.
(** The same said of each further call: a call that is legal after a history is carried out, and the lists are the new sequences. *)
Theorem C123_step : forall m os s o s', fresh_mem m -> history (fun _ => []) os s -> legal s o s' ->
  exists m1 m2, run_ops os m = Ok m1 /\ run_op o m1 = Ok m2 /\ forall l n, (length (s' l) < n)%nat -> walk n (d_head m2 l) m2 = Ok (s' l) /\ walk_back n (d_tail m2 l) m2 = Ok (rev (s' l)).
Proof.
  intros m os s o s' F H L. destruct (history_ok _ _ _ H m (fresh_repr m F)) as (m1 & E & R). destruct (step_ok _ _ _ _ R L) as (m2 & E2 & R'). exists m1, m2. repeat (split; [assumption|]).
  destruct R' as (R1 & R2 & _). intros l n Ln. destruct (R1 l) as (A & B & C), (R2 l) as (D & P). rewrite A, B. destruct m2. split; [eapply walk_seg|eapply walk_back_seg]; eauto.
Qed.
Print Assumptions C123_step.

(** Two lists, every macro used, and the second list joined to the first. *)
Definition ex_ops : list list_op :=
  [OInit 1; OInit 2; OAppend 1 10; OPrepend 1 11; OBefore 1 10 12; OAfter 1 10 13; OAppend 2 20; OBefore 2 20 21; OAfter 2 21 22; OUnlink 1 12; OAppend 2 12; OAppendList 1 2].
Definition fresh0 : dmem := {| d_head := fun _ => 0; d_tail := fun _ => 0; d_prev := fun _ => -1; d_next := fun _ => -1 |}.
Example C123_fresh : fresh_mem fresh0.
Proof. split; intros; split; reflexivity. Qed.
Example C123_legal : exists s, history (fun _ => []) [OInit 1; OAppend 1 10; OPrepend 1 11; OBefore 1 10 12; OUnlink 1 11; OAppend 2 11; OAppendList 1 2] s /\ s 1 = [12; 10; 11] /\ s 2 = [].
Proof.
  set (up := fun (s : Z -> list Z) (l : Z) (v : list Z) (k : Z) => if k =? l then v else s k).
  assert (U : forall s l v, up s l v l = v) by (intros; unfold up; rewrite Z.eqb_refl; auto). assert (V : forall s l v k, k <> l -> up s l v k = s k) by (intros; unfold up; replace (k =? l) with false by lia; auto).
  set (s0 := fun _ : Z => @nil Z). set (s1 := up s0 1 [10]). set (s2 := up s1 1 [11; 10]). set (s3 := up s2 1 [11; 12; 10]). set (s4 := up s3 1 [12; 10]). set (s5 := up s4 2 [11]). set (s6 := up (up s5 1 [12; 10; 11]) 2 []).
  exists s6. split; [|split; reflexivity].
  apply hs_cons with s0; [apply lg_init; auto|]. apply hs_cons with s1; [apply lg_append; [lia|intros k []|reflexivity|intros; apply V; auto]|].
  apply hs_cons with s2; [apply lg_prepend; [lia| |reflexivity|intros; apply V; auto]|].
  { intros k. unfold s1, up, s0. destruct (k =? 1); cbn; intuition lia. }
  apply hs_cons with s3; [apply lg_before with [11] []; [lia| |reflexivity|reflexivity|intros; apply V; auto]|].
  { intros k. unfold s2, s1, up, s0. destruct (k =? 1); cbn; intuition lia. }
  apply hs_cons with s4; [apply lg_unlink with [] [12; 10]; [reflexivity|reflexivity|intros; apply V; auto]|].
  apply hs_cons with s5; [apply lg_append; [lia| |reflexivity|intros; apply V; auto]|].
  { intros k. unfold s4, s3, s2, s1, up, s0. destruct (k =? 1); cbn; intuition lia. }
  apply hs_cons with s6; [apply lg_appendlist; [lia|reflexivity|reflexivity|]|apply hs_nil].
  intros i E1 E2. unfold s6. rewrite !V by auto. reflexivity.
Qed.
Example C123_example : (m <- run_ops ex_ops fresh0 ;; a <- walk 20 (d_head m 1) m ;; b <- walk_back 20 (d_tail m 1) m ;; c <- walk 20 (d_head m 2) m ;; Ok (a, b, c)) =
  Ok ([11; 10; 13; 21; 22; 20; 12], [12; 20; 22; 21; 13; 10; 11], []).
Proof. vm_compute. reflexivity. Qed.

(** C124: the macros check nothing (ISC_LINK_INSIST is empty). After any legal history, taking an element out that is in no list writes
    through the unlinked mark, whatever list is named. *)
Theorem C124_unlink_unlinked : forall m os s e l m', fresh_mem m -> history (fun _ => []) os s -> 0 < e -> (forall k, ~ In e (s k)) -> run_ops os m = Ok m' -> unlink l e m' = UB NullDeref.
Proof.
  intros m os s e l m' F H Pe N E. destruct (history_ok _ _ _ H m (fresh_repr m F)) as (m2 & E2 & R). assert (m2 = m') by congruence. subst m2. destruct R as (_ & _ & _ & R4). specialize (R4 e N).
  unfold unlink. rewrite get_next_do by auto. cbn [bind]. rewrite get_prev_do by auto. cbn [bind]. rewrite R4. destruct (d_next m' e =? 0) eqn:Z0; cbn [negb].
  - cbn [bind]. unfold set_tail. rewrite get_prev_do by auto. cbn [bind d_prev]. rewrite R4. change (negb (-1 =? 0)) with true. cbv iota. rewrite get_next_do by auto. cbn [bind]. unfold set_next. reflexivity.
  - unfold set_prev at 1. destruct (d_next m' e >? 0) eqn:G; [|reflexivity]. cbn [bind]. destruct (Z.eq_dec e (d_next m' e)) as [Q|Q].
    + rewrite <- Q. rewrite get_prev_do by auto. cbn [bind d_prev]. rewrite put_same. change (negb (-1 =? 0)) with true. cbv iota. rewrite get_next_do by auto. reflexivity.
    + rewrite get_prev_do by auto. cbn [bind d_prev]. rewrite put_other by auto. rewrite R4. change (negb (-1 =? 0)) with true. cbv iota. rewrite get_next_do by auto. reflexivity.
Qed.
Print Assumptions C124_unlink_unlinked.
Lemma walk_next_only : forall n x m m', d_next m = d_next m' -> walk n x m = walk n x m'.
Proof.
  induction n as [|n IH]; intros x m m' E; [reflexivity|]. cbn [walk]. destruct (x =? 0); [reflexivity|]. unfold get_next. destruct (x >? 0); [|reflexivity]. cbn [bind]. rewrite E, (IH _ m m' E). reflexivity.
Qed.
Lemma seg_back_in : forall pf nf xs p n y, seg pf nf p xs n -> In y xs -> In (pf y) (p :: xs).
Proof.
  intros pf nf. induction xs as [|x xs IH]; intros p n y S I; [contradiction|]. destruct S as (A & B & C). destruct I as [->|I]; [left; auto|]. right. eapply IH; eauto.
Qed.
(** ISC_LIST_APPEND of an element that is in the list already is not noticed either: the elements behind it are no longer reached from
    the head, and walking back from the tail never ends. *)
Theorem C124_append_twice : forall m os s l a e b m', fresh_mem m -> history (fun _ => []) os s -> s l = a ++ e :: b -> run_ops os m = Ok m' ->
  exists m2, append l e m' = Ok m2 /\ (forall n, (length (a ++ [e]) < n)%nat -> walk n (d_head m2 l) m2 = Ok (a ++ [e])) /\ forall n, walk_back n (d_tail m2 l) m2 = NoFuel.
Proof.
  intros m os s l a e b m' F H L E. destruct (history_ok _ _ _ H m (fresh_repr m F)) as (m3 & E3 & R). assert (m3 = m') by congruence. subst m3.
  destruct (at_e m' s l R a e b L) as (Pe & Hp & Hn & Sa & Sb & N & P). destruct R as (R1 & _). destruct (R1 l) as (Hl & Tl & _). rewrite L in Hl, Tl. destruct (nodup_parts _ _ N) as (Na & Nb & Dab).
  assert (Tl' : d_tail m' l = last (e :: b) 0). { rewrite Tl. clear. induction a as [|z a IH]; [reflexivity|]. cbn [app]. destruct a; exact IH. }
  assert (Iw : In (last (e :: b) 0) (e :: b)) by (apply last_in; discriminate). pose proof P as P0. apply Forall_app in P as [Pa Pb]. assert (Pw : 0 < last (e :: b) 0) by (rewrite Forall_forall in Pb; apply Pb; auto).
  unfold append. rewrite Tl'. set (w := last (e :: b) 0) in *. replace (w =? 0) with false by lia. cbn [negb]. go. rewrite Tl'. eexists. split; [reflexivity|]. dl. split.
  - intros n Ln. rewrite Hl. replace (hd 0 (a ++ e :: b)) with (hd 0 (a ++ [e])) by (destruct a; reflexivity).
    rewrite (walk_next_only _ _ _ {| d_head := d_head m'; d_tail := d_tail m'; d_prev := d_prev m'; d_next := put (put (d_next m') w e) e 0 |}) by reflexivity.
    apply walk_seg with 0; [exact Ln|apply Forall_app; split; auto; inversion Pb; auto|]. apply seg_app. cbn [hd last]. split.
    + apply seg_next; [intros Q; apply (Dab e Q); left; auto|]. apply seg_next; [intros Q; apply (Dab w Q); auto|]. exact Sa.
    + apply seg_cons; [exact Hp|apply put_same|exact I].
  - assert (G : forall n x, In x (e :: b) -> walk_back n x {| d_head := d_head m'; d_tail := put (d_tail m') l e; d_prev := put (d_prev m') e w; d_next := put (put (d_next m') w e) e 0 |} = NoFuel).
    { induction n as [|n IH]; intros x Ix; [reflexivity|]. cbn [walk_back]. assert (Px : 0 < x) by (rewrite Forall_forall in Pb; apply Pb; auto). replace (x =? 0) with false by lia. rewrite get_prev_do by auto. cbn [bind d_prev].
      rewrite IH; [reflexivity|]. destruct (Z.eq_dec x e) as [->|Nx]; [rewrite put_same; exact Iw|]. rewrite put_other by auto. destruct Ix as [Q|Ix]; [congruence|]. eapply seg_back_in; eauto. }
    intros n. apply G. left. auto.
Qed.
Print Assumptions C124_append_twice.
(** Linking an element that is in another list takes the tail of that other list with it. *)
Example C124_two_lists : (m <- run_ops [OAppend 1 10; OAppend 1 11; OAppend 1 12; OAppend 2 11] fresh0 ;; a <- walk 20 (d_head m 1) m ;; b <- walk 20 (d_head m 2) m ;; Ok (a, b, d_tail m 1)) =
  Ok ([10; 11], [11], 12).
Proof. vm_compute. reflexivity. Qed.
Example C124_unlinked : run_ops [OAppend 1 10; OUnlink 1 11] fresh0 = UB NullDeref /\ run_ops [OAppend 1 10; OUnlink 1 10; OUnlink 1 10] fresh0 = UB NullDeref.
Proof. vm_compute. auto. Qed.
