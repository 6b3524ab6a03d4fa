(** ProofQueue4.v: calls run to completion by their own thread alone; whole calls with nothing else under way; the event that ends a history. *)
From Verif Require Import Base Lib ModelQueue SpecQueue ProofQueue ProofQueue2 ProofQueue3.

Section S.
Variables num size : Z.

Lemma steps_trans : forall c t1 c1 t2 c2, steps num size c t1 c1 -> steps num size c1 t2 c2 -> steps num size c (t1 ++ t2) c2.
Proof.
  intros c t1 c1 t2 c2 A B. induction B as [|tr c3 e c4 B IH St]; [rewrite app_nil_r; exact A|]. rewrite app_assoc. eapply steps_snoc; eauto.
Qed.
Lemma steps_one : forall c e c', step num size c e c' -> steps num size c (match e with Some x => [x] | None => [] end) c'.
Proof. intros c e c' St. apply (steps_snoc num size c [] c e c'); [constructor|exact St]. Qed.

Lemma run_event : forall tr e c, run num size (tr ++ [e]) c -> exists c0 c1, run num size tr c0 /\ step num size c0 (Some e) c1 /\ run num size (tr ++ [e]) c1.
Proof.
  intros tr e c R. remember (tr ++ [e]) as t eqn:E. revert tr e E. induction R as [|t0 c0 e0 c1 R IH St]; intros tr e E.
  - destruct tr; discriminate.
  - destruct e0 as [x|].
    + apply app_inj_tail in E as [-> ->]. exists c0, c1. split; [exact R|]. split; [exact St|]. apply (run_step num size tr c0 (Some e) c1); auto.
    + rewrite app_nil_r in *. subst t0. destruct (IH tr e eq_refl) as (a & b & A & B & C). exists a, b. auto.
Qed.

(** ** Progress *)
Lemma pwork_step : forall c e c', step num size c e c' -> q_prod c <> PIdle -> q_prod c' = q_prod c \/ pwork size (q_prod c') < pwork size (q_prod c).
Proof.
  intros c e c' St N. destruct St as [c1 w b E|c1 w b E|c1 it E L|c1 it E|c1 it h E sp|c1 it h sp a k b v E R|c1 it h sp E|c1 it ok sp E|c1 got E L|c1 got E|c1 got h E t cnt|c1 got t cnt a k b E|c1 got t cnt E EB|c1 got t cnt E|c1 res cnt E];
    try (left; reflexivity); try congruence; right; cbn [set_prod put_prod check q_prod]; rewrite E; cbn [pwork]; try lia.
  - destruct (sp >=? 1); cbn [pwork]; [rewrite zlen_offsets|]; lia.
  - rewrite !zlen_app, zlen_cons. lia.
  - change (zlen (@nil Z)) with 0. lia.
Qed.
Lemma cwork_step : forall c e c', step num size c e c' -> q_cons c <> CIdle -> q_cons c' = q_cons c \/ cwork size (q_cons c') < cwork size (q_cons c).
Proof.
  intros c e c' St N. destruct St as [c1 w b E|c1 w b E|c1 it E L|c1 it E|c1 it h E sp|c1 it h sp a k b v E R|c1 it h sp E|c1 it ok sp E|c1 got E L|c1 got E|c1 got h E t cnt|c1 got t cnt a k b E|c1 got t cnt E EB|c1 got t cnt E|c1 res cnt E];
    try (left; reflexivity); try congruence; right; cbn [set_cons put_cons check q_cons]; rewrite E; cbn [cwork]; try lia.
  - destruct (cnt >=? 1); cbn [cwork]; [rewrite zlen_offsets|]; lia.
  - rewrite !zlen_app, zlen_cons. lia.
  - change (zlen (@nil Z)) with 0. lia.
Qed.

Definition p_fine (p : pstate) : Prop := match p with PEnter it | PHead it _ => zlen it = size | PCopy it _ _ todo => zlen it = size /\ range size todo | _ => True end.
Lemma rd_some : forall (it : bytes) k, 0 <= k < zlen it -> exists v, rd it k = Ok v.
Proof. intros it k K. unfold rd. destruct (k <? 0) eqn:X; [lia|]. unfold zlen in K. destruct (nth_error it (Z.to_nat k)) eqn:Y; [eauto|]. apply nth_error_None in Y. lia. Qed.
Lemma finish_ins : forall n c, (Z.to_nat (pwork size (q_prod c)) <= n)%nat -> p_fine (q_prod c) -> q_prod c <> PIdle ->
  exists ok s c', steps num size c [InsRet ok s] c' /\ q_prod c' = PIdle /\ q_cons c' = q_cons c /\ q_cbuf c' = q_cbuf c.
Proof.
  induction n as [|n IH]; intros c L F N.
  - exfalso. destruct (q_prod c) as [|it|it h|it h sp todo|it ok sp] eqn:P; cbn [pwork] in L; try (unfold zlen in L); solve [congruence|lia].
  - destruct (q_prod c) as [|it|it h|it h sp todo|it ok sp] eqn:P; [congruence| | | |]; cbn [p_fine] in F.
    + assert (St : step num size c None (set_prod c (PHead it (sees (q_pbuf c) (q_mem c) LHead)))) by (apply s_phead; auto).
      destruct (IH (set_prod c (PHead it (sees (q_pbuf c) (q_mem c) LHead)))) as (ok & s & c' & A & B & C & D); cbn [set_prod q_prod]; [cbn [pwork] in *; lia|exact F|discriminate|].
      exists ok, s, c'. split; [|auto]. eapply (steps_trans c [] _ [InsRet ok s] c'); [apply (steps_one c None); exact St|exact A].
    + assert (St := s_ptail num size c it h P). cbn zeta in St.
      set (p' := if _ >=? 1 then _ else _) in St.
      assert (X : p_fine p' /\ p' <> PIdle /\ pwork size p' < pwork size (PHead it h)).
      { unfold p'. destruct (_ >=? 1); cbn [p_fine pwork]; rewrite ?zlen_offsets; split; auto; try (split; [discriminate|lia]). split; auto. apply offsets_range. }
      destruct X as (X1 & X2 & X3).
      destruct (IH (set_prod c p')) as (ok & s & c' & A & B & C & D); cbn [set_prod q_prod]; auto; [lia|].
      exists ok, s, c'. split; [|auto]. eapply (steps_trans c [] _ [InsRet ok s] c'); [apply (steps_one c None); exact St|exact A].
    + destruct F as [F1 F2]. destruct todo as [|k b].
      * assert (St := s_ppub num size c it h sp P).
        destruct (IH (put_prod (set_prod c (PRet it true (sp - 1))) (LHead, next h num))) as (ok & s & c' & A & B & C & D); cbn [set_prod put_prod q_prod]; [cbn [pwork] in *; change (zlen (@nil Z)) with 0 in L; lia|exact Logic.I|discriminate|].
        exists ok, s, c'. split; [|auto]. eapply (steps_trans c [] _ [InsRet ok s] c'); [apply (steps_one c None); exact St|exact A].
      * inversion F2 as [|? ? K F2']. destruct (rd_some it k) as (v & V); [rewrite L || rewrite F1; exact K|].
        assert (St := s_pcopy num size c it h sp [] k b v P V). cbn [app] in St.
        match type of St with step _ _ _ _ ?x => destruct (IH x) as (ok & s & c' & A & B & C & D) end; cbn [check set_prod put_prod q_prod]; [cbn [pwork] in *; rewrite zlen_cons in L; lia|split; auto|discriminate|].
        exists ok, s, c'. split; [|auto]. eapply (steps_trans c [] _ [InsRet ok s] c'); [apply (steps_one c None); exact St|exact A].
    + exists ok, sp, (set_prod c PIdle). split; [|auto]. apply (steps_one c (Some (InsRet ok sp))). eapply s_pret. eauto.
Qed.
Lemma flush_cbuf : forall b c, q_cbuf c = b -> exists c', steps num size c [] c' /\ q_cbuf c' = [] /\ q_cons c' = q_cons c /\ q_prod c' = q_prod c /\ q_pbuf c' = q_pbuf c.
Proof.
  induction b as [|w b IH]; intros c E; [exists c; repeat split; auto; constructor|].
  destruct (IH {| q_mem := store (q_mem c) w; q_pbuf := q_pbuf c; q_cbuf := b; q_prod := q_prod c; q_cons := q_cons c; q_fault := q_fault c |} eq_refl) as (c' & A & B & C & D & F).
  exists c'. split; [|auto]. eapply (steps_trans c [] _ [] c'); [|exact A]. apply (steps_one c None). apply s_cflush. auto.
Qed.
Lemma flush_pbuf : forall b c, q_pbuf c = b -> exists c', steps num size c [] c' /\ q_pbuf c' = [] /\ q_prod c' = q_prod c /\ q_cons c' = q_cons c /\ q_cbuf c' = q_cbuf c.
Proof.
  induction b as [|w b IH]; intros c E; [exists c; repeat split; auto; constructor|].
  destruct (IH {| q_mem := store (q_mem c) w; q_pbuf := b; q_cbuf := q_cbuf c; q_prod := q_prod c; q_cons := q_cons c; q_fault := q_fault c |} eq_refl) as (c' & A & B & C & D & F).
  exists c'. split; [|auto]. eapply (steps_trans c [] _ [] c'); [|exact A]. apply (steps_one c None). apply s_pflush. auto.
Qed.
Lemma finish_rem : forall n c, (Z.to_nat (cwork size (q_cons c)) <= n)%nat -> q_cons c <> CIdle ->
  exists res k c', steps num size c [RemRet res k] c' /\ q_cons c' = CIdle /\ q_prod c' = q_prod c /\ q_pbuf c' = q_pbuf c.
Proof.
  induction n as [|n IH]; intros c L N.
  - exfalso. destruct (q_cons c) as [|got|got h|got t k todo|got t k|res k] eqn:P; cbn [cwork] in L; try (unfold zlen in L); solve [congruence|lia].
  - assert (Go : forall c1, step num size c None c1 -> q_cons c1 <> CIdle -> cwork size (q_cons c1) < cwork size (q_cons c) -> q_prod c1 = q_prod c -> q_pbuf c1 = q_pbuf c ->
        exists res k c', steps num size c [RemRet res k] c' /\ q_cons c' = CIdle /\ q_prod c' = q_prod c /\ q_pbuf c' = q_pbuf c).
    { intros c1 St N1 L1 E1 E2. destruct (IH c1) as (res & k & c' & A & B & C & D); auto; [lia|]. exists res, k, c'. rewrite C, D. split; auto.
      eapply (steps_trans c [] c1 [RemRet res k] c'); [apply (steps_one c None); exact St|exact A]. }
    destruct (q_cons c) as [|got|got h|got t k todo|got t k|res k] eqn:P; [congruence| | | | |].
    + eapply Go; [apply s_chead; exact P|discriminate|cbn [set_cons q_cons cwork]; lia|reflexivity|reflexivity].
    + assert (St := s_ctail num size c got h P). cbn zeta in St. eapply Go; [exact St|cbn [set_cons q_cons]; destruct (_ >=? 1); discriminate| |reflexivity|reflexivity].
      cbn [set_cons q_cons]. destruct (_ >=? 1); cbn [cwork]; rewrite ?zlen_offsets; lia.
    + destruct todo as [|j b].
      * destruct (flush_cbuf (q_cbuf c) c eq_refl) as (c1 & A & B & C & D & F).
        assert (St : step num size c1 None (set_cons c1 (CFence got t k))) by (apply s_cfence; congruence).
        destruct (IH (set_cons c1 (CFence got t k))) as (res & k' & c' & A' & B' & C' & D'); cbn [set_cons q_cons]; [cbn [cwork] in *; change (zlen (@nil Z)) with 0 in L; lia|discriminate|].
        exists res, k', c'. cbn [set_cons q_prod q_pbuf] in *. rewrite C', D', D, F. split; auto.
        eapply (steps_trans c [] c1 [RemRet res k'] c' A). eapply (steps_trans c1 [] _ [RemRet res k'] c'); [apply (steps_one c1 None); exact St|exact A'].
      * assert (St := s_ccopy num size c got t k [] j b P). cbn [app] in St. eapply Go; [exact St|discriminate| |reflexivity|reflexivity]. cbn [check set_cons q_cons cwork]. rewrite zlen_cons. lia.
    + eapply Go; [apply s_cpub; exact P|discriminate|cbn [put_cons set_cons q_cons cwork]; lia|reflexivity|reflexivity].
    + exists res, k, (set_cons c CIdle). split; [|auto]. apply (steps_one c (Some (RemRet res k))). apply s_cret. auto.
Qed.

(** ** Whole calls, every store reaching memory at once *)
Lemma copy_in : forall todo c it h sp, q_prod c = PCopy it h sp todo -> q_pbuf c = [] -> zlen it = size -> range size todo ->
  exists c', steps num size c [] c' /\ q_prod c' = PCopy it h sp [] /\ q_pbuf c' = [] /\ q_cons c' = q_cons c /\ q_cbuf c' = q_cbuf c /\
    m_head (q_mem c') = m_head (q_mem c) /\ m_tail (q_mem c') = m_tail (q_mem c) /\
    (forall i, ~ slot h size <= i < slot h size + size -> m_data (q_mem c') i = m_data (q_mem c) i) /\
    (forall k v, rd it k = Ok v -> In k todo \/ m_data (q_mem c) (slot h size + k) = v -> m_data (q_mem c') (slot h size + k) = v).
Proof.
  induction todo as [|k todo IH]; intros c it h sp P B L R.
  - exists c. repeat split; auto; [constructor|]. intros k v V [[]|X]. exact X.
  - inversion R as [|? ? K R']. clear R. destruct (rd_some it k) as (v & V); [rewrite L || rewrite F1; exact K|].
    assert (St := s_pcopy num size c it h sp [] k todo v P V). cbn [app] in St.
    match type of St with step _ _ _ _ ?x => set (c1 := x) in St end.
    set (c2 := {| q_mem := store (q_mem c1) (LData (slot h size + k), v); q_pbuf := []; q_cbuf := q_cbuf c1; q_prod := q_prod c1; q_cons := q_cons c1; q_fault := q_fault c1 |}).
    assert (St2 : step num size c1 None c2). { apply s_pflush. unfold c1. cbn [check put_prod set_prod q_pbuf]. rewrite B. reflexivity. }
    destruct (IH c2 it h sp) as (c' & A1 & A2 & A3 & A4 & A5 & A6 & A7 & A8 & A9); auto.
    exists c'. split. { eapply (steps_trans c [] c1 [] c'); [apply (steps_one c None); exact St|]. eapply (steps_trans c1 [] c2 [] c'); [apply (steps_one c1 None); exact St2|exact A1]. }
    repeat split; auto.
    + intros i Hi. rewrite A8 by exact Hi. cbn. destruct (i =? slot h size + k) eqn:X; [lia|reflexivity].
    + intros j w W J. apply A9; [exact W|]. destruct (Z.eq_dec j k) as [-> |D].
      * right. cbn. rewrite Z.eqb_refl. congruence.
      * destruct J as [[J|J]|J]; [congruence|auto|]. right. cbn. destruct (slot h size + j =? slot h size + k) eqn:X; [lia|exact J].
Qed.
Lemma ins_go : forall c it, quiet c -> zlen it = size -> 1 <= q_space (m_head (q_mem c)) (m_tail (q_mem c)) num ->
  exists c', steps num size c [InsCall it; InsRet true (q_space (m_head (q_mem c)) (m_tail (q_mem c)) num - 1)] c' /\ quiet c' /\
    m_head (q_mem c') = next (m_head (q_mem c)) num /\ m_tail (q_mem c') = m_tail (q_mem c) /\
    (forall i, ~ slot (m_head (q_mem c)) size <= i < slot (m_head (q_mem c)) size + size -> m_data (q_mem c') i = m_data (q_mem c) i) /\
    (forall k v, rd it k = Ok v -> m_data (q_mem c') (slot (m_head (q_mem c)) size + k) = v).
Proof.
  intros c it (Q1 & Q2 & Q3 & Q4) L SP. set (H := m_head (q_mem c)) in *. set (T := m_tail (q_mem c)) in *. set (sp := q_space H T num) in *.
  set (c1 := set_prod c (PEnter it)). set (c2 := set_prod c1 (PHead it H)). set (c3 := set_prod c2 (PCopy it H sp (offsets size))).
  assert (S1 : step num size c (Some (InsCall it)) c1) by (apply s_pcall; auto).
  assert (S2 : step num size c1 None c2). { assert (X := s_phead num size c1 it eq_refl). cbn [c1 set_prod q_pbuf q_mem] in X. rewrite Q3 in X. exact X. }
  assert (S3 : step num size c2 None c3). { assert (X := s_ptail num size c2 it H eq_refl). cbn zeta in X. cbn [c1 c2 set_prod q_pbuf q_mem] in X. rewrite Q3 in X. cbn [sees drain fold_left load] in X.
    change (m_tail (q_mem c)) with T in X. fold sp in X. replace (sp >=? 1) with true in X by lia. exact X. }
  destruct (copy_in (offsets size) c3 it H sp eq_refl Q3 L (offsets_range size)) as (c4 & A1 & A2 & A3 & A4 & A5 & A6 & A7 & A8 & A9).
  assert (S5 := s_ppub num size c4 it H sp A2). set (c5 := put_prod _ _) in S5.
  set (c6 := {| q_mem := store (q_mem c5) (LHead, next H num); q_pbuf := []; q_cbuf := q_cbuf c5; q_prod := q_prod c5; q_cons := q_cons c5; q_fault := q_fault c5 |}).
  assert (S6 : step num size c5 None c6). { apply s_pflush. unfold c5. cbn [put_prod set_prod q_pbuf]. rewrite A3. reflexivity. }
  assert (S7 : step num size c6 (Some (InsRet true (sp - 1))) (set_prod c6 PIdle)) by (apply (s_pret num size c6 it); reflexivity).
  exists (set_prod c6 PIdle). split; [|split; [|split; [|split; [|split]]]].
  - eapply (steps_trans c [InsCall it] c1 [InsRet true (sp - 1)] _); [apply (steps_one c (Some (InsCall it))); exact S1|].
    eapply (steps_trans c1 [] c2 [InsRet true (sp - 1)] _); [apply (steps_one c1 None); exact S2|].
    eapply (steps_trans c2 [] c3 [InsRet true (sp - 1)] _); [apply (steps_one c2 None); exact S3|].
    eapply (steps_trans c3 [] c4 [InsRet true (sp - 1)] _ A1).
    eapply (steps_trans c4 [] c5 [InsRet true (sp - 1)] _); [apply (steps_one c4 None); exact S5|].
    eapply (steps_trans c5 [] c6 [InsRet true (sp - 1)] _); [apply (steps_one c5 None); exact S6|].
    apply (steps_one c6 (Some (InsRet true (sp - 1)))). exact S7.
  - split; [reflexivity|]. cbn [set_prod c6 c5 put_prod q_cons q_pbuf q_cbuf]. rewrite A4, A5. cbn [c3 c2 c1 set_prod q_cons q_cbuf]. auto.
  - reflexivity.
  - cbn. rewrite A7. reflexivity.
  - intros i Hi. cbn. rewrite A8 by exact Hi. reflexivity.
  - intros k v V. cbn. apply (A9 k v V). left. apply offsets_in. pose proof (rd_range _ _ _ V). lia.
Qed.
Lemma copy_out : forall todo c got t n, q_cons c = CCopy got t n todo -> q_cbuf c = [] -> zlen got = size -> range size todo ->
  exists c' got', steps num size c [] c' /\ q_cons c' = CCopy got' t n [] /\ q_cbuf c' = [] /\ q_prod c' = q_prod c /\ q_pbuf c' = q_pbuf c /\ q_mem c' = q_mem c /\
    zlen got' = size /\ (forall k, In k todo \/ rd got k = Ok (m_data (q_mem c) (slot t size + k)) -> 0 <= k < size -> rd got' k = Ok (m_data (q_mem c) (slot t size + k))).
Proof.
  induction todo as [|k todo IH]; intros c got t n P B L R.
  - exists c, got. repeat split; auto; [constructor|]. intros k [[]|X] _. exact X.
  - inversion R as [|? ? K R']. clear R.
    assert (St := s_ccopy num size c got t n [] k todo P). cbn [app] in St. rewrite B in St. cbn [sees drain fold_left load] in St.
    match type of St with step _ _ _ _ ?x => set (c1 := x) in St end.
    set (got1 := setz got k (m_data (q_mem c) (slot t size + k))) in *.
    assert (L1 : zlen got1 = zlen got) by (apply zlen_setz; lia).
    destruct (IH c1 got1 t n) as (c' & got' & A1 & A2 & A3 & A4 & A5 & A6 & A7 & A8); auto; [congruence|].
    exists c', got'. split; [eapply (steps_trans c [] c1 [] c'); [apply (steps_one c None); exact St|exact A1]|]. repeat split; auto.
    intros j J JR. apply (A8 j); [|exact JR]. destruct (Z.eq_dec j k) as [-> |D]; [right; apply rd_setz_same; lia|].
    destruct J as [[J|J]|J]; [congruence|auto|]. right. unfold got1. rewrite rd_setz_other by (first [lia|auto]). exact J.
Qed.
Lemma rem_go : forall c, quiet c -> 0 <= size -> 1 <= q_count (m_head (q_mem c)) (m_tail (q_mem c)) num ->
  exists c' got, steps num size c [RemCall; RemRet (Some got) (q_count (m_head (q_mem c)) (m_tail (q_mem c)) num - 1)] c' /\ quiet c' /\
    zlen got = size /\ forall k, 0 <= k < size -> rd got k = Ok (m_data (q_mem c) (slot (m_tail (q_mem c)) size + k)).
Proof.
  intros c (Q1 & Q2 & Q3 & Q4) SZ SP. set (H := m_head (q_mem c)) in *. set (T := m_tail (q_mem c)) in *. set (n := q_count H T num) in *.
  set (g0 := repeat 0 (Z.to_nat size)). assert (L0 : zlen g0 = size) by (unfold g0, zlen; rewrite repeat_length; lia).
  set (c1 := set_cons c (CEnter g0)). set (c2 := set_cons c1 (CHead g0 H)). set (c3 := set_cons c2 (CCopy g0 T n (offsets size))).
  assert (S1 : step num size c (Some RemCall) c1) by (apply s_ccall; auto).
  assert (S2 : step num size c1 None c2). { assert (X := s_chead num size c1 g0 eq_refl). cbn [c1 set_cons q_cbuf q_mem] in X. rewrite Q4 in X. exact X. }
  assert (S3 : step num size c2 None c3). { assert (X := s_ctail num size c2 g0 H eq_refl). cbn zeta in X. cbn [c1 c2 set_cons q_cbuf q_mem] in X. rewrite Q4 in X. cbn [sees drain fold_left load] in X.
    change (m_tail (q_mem c)) with T in X. fold n in X. replace (n >=? 1) with true in X by lia. exact X. }
  destruct (copy_out (offsets size) c3 g0 T n eq_refl Q4 L0 (offsets_range size)) as (c4 & got & A1 & A2 & A3 & A4 & A5 & A6 & A7 & A8).
  assert (S5 : step num size c4 None (set_cons c4 (CFence got T n))) by (apply s_cfence; auto). set (c5 := set_cons c4 (CFence got T n)) in S5.
  assert (S6 := s_cpub num size c5 got T n eq_refl). set (c6 := put_cons _ _) in S6.
  set (c7 := {| q_mem := store (q_mem c6) (LTail, next T num); q_pbuf := q_pbuf c6; q_cbuf := []; q_prod := q_prod c6; q_cons := q_cons c6; q_fault := q_fault c6 |}).
  assert (S7 : step num size c6 None c7). { apply s_cflush. unfold c6, c5. cbn [put_cons set_cons q_cbuf]. rewrite A3. reflexivity. }
  assert (S8 : step num size c7 (Some (RemRet (Some got) (n - 1))) (set_cons c7 CIdle)) by (apply s_cret; reflexivity).
  set (e := RemRet (Some got) (n - 1)) in *.
  exists (set_cons c7 CIdle), got. split; [|split; [|split; [exact A7|]]].
  - eapply (steps_trans c [RemCall] c1 [e] _); [apply (steps_one c (Some RemCall)); exact S1|].
    eapply (steps_trans c1 [] c2 [e] _); [apply (steps_one c1 None); exact S2|].
    eapply (steps_trans c2 [] c3 [e] _); [apply (steps_one c2 None); exact S3|].
    eapply (steps_trans c3 [] c4 [e] _ A1).
    eapply (steps_trans c4 [] c5 [e] _); [apply (steps_one c4 None); exact S5|].
    eapply (steps_trans c5 [] c6 [e] _); [apply (steps_one c5 None); exact S6|].
    eapply (steps_trans c6 [] c7 [e] _); [apply (steps_one c6 None); exact S7|].
    apply (steps_one c7 (Some e)). exact S8.
  - split; [|split; [reflexivity|split; [|reflexivity]]]; cbn [set_cons c7 c6 c5 put_cons q_prod q_pbuf]; rewrite ?A4, ?A5; cbn [c3 c2 c1 set_cons q_prod q_pbuf]; auto.
  - intros k K. apply (A8 k); [|exact K]. left. apply offsets_in. exact K.
Qed.
End S.
