(** ProofGroup2.v: the grouping invariants hold in every state of the parser, whatever the packet. *)
From Verif Require Import Base Lib ModelName ModelParse SpecGroup.

Lemma dc_lower : forall b, dc b = lower_octet b.
Proof.
  intros b. unfold dc, lower_octet. destruct ((65 <=? b) && (b <=? 90)) eqn:E; auto.
  assert (65 <= b <= 90) as B by lia. clear E. 
  assert (In b (map Z.of_nat (seq 65 26))) as I by (apply in_map_iff; exists (Z.to_nat b); split; [lia|apply in_seq; lia]).
  revert I. clear. cbn [seq map]. intros I. repeat (destruct I as [<- | I]; [reflexivity|]). contradiction.
Qed.

Lemma compare_belongs : forall r s, compare_rr_rrset r s = belongs r s.
Proof.
  intros r s. unfold compare_rr_rrset, belongs, lower_octets.
  rewrite (map_ext dc lower_octet dc_lower (rr_name r)), (map_ext dc lower_octet dc_lower (rs_name s)).
  destruct (list_eq_dec Z.eq_dec (map lower_octet (rr_name r)) (map lower_octet (rs_name s))) as [E|E].
  - assert (zlen (rr_name r) = zlen (rs_name s)) as L.
    { unfold zlen. rewrite <- (map_length lower_octet (rr_name r)), E, map_length. reflexivity. }
    rewrite L, Z.eqb_refl. cbn [andb]. destruct ((rr_type r =? rs_type s) && (rr_class r =? rs_class s)); reflexivity.
  - cbn [andb]. destruct ((zlen (rr_name r) =? zlen (rs_name s)) && (rr_type r =? rs_type s) && (rr_class r =? rs_class s)); reflexivity.
Qed.

Lemma belongs_iff : forall r s, belongs r s = true <->
  lower_octets (rr_name r) = lower_octets (rs_name s) /\ rr_type r = rs_type s /\ rr_class r = rs_class s.
Proof.
  intros r s. unfold belongs. destruct (list_eq_dec _ _ _) as [E|E]; cbn [andb]; [|intuition congruence].
  rewrite andb_true_iff, !Z.eqb_eq. tauto.
Qed.

Lemma belongs_key : forall r s t, same_key s t -> belongs r s = belongs r t.
Proof.
  intros r s t (A & B & C). apply eq_true_iff_eq. rewrite !belongs_iff, A, B, C. tauto.
Qed.
Lemma belongs_both : forall r s t, belongs r s = true -> belongs r t = true -> same_key s t.
Proof. intros r s t. rewrite !belongs_iff. unfold same_key. intuition congruence. Qed.

(** All invariants of an ordinary section at once. [rep rrs s]: [s] represents its RRs. *)
Definition rep (rrs : list rr) (s : rrset) : Prop :=
  let l := filter (fun r => belongs r s) rrs in
  l <> [] /\ map Some (rs_rdatas s) = map rr_rdata l /\
  (exists r, In r l /\ rr_ttl r = rs_ttl s) /\ (forall r, In r l -> rs_ttl s <= rr_ttl r).
Definition inv (a : rrset_array) : Prop :=
  (forall r, In r (a_rrs a) -> exists s, In s (a_rrsets a) /\ belongs r s = true) /\
  (forall i j s t, nth_error (a_rrsets a) i = Some s -> nth_error (a_rrsets a) j = Some t -> same_key s t -> i = j) /\
  Forall (rep (a_rrs a)) (a_rrsets a).

Lemma rep_other : forall rrs s r, rep rrs s -> belongs r s = false -> rep (rrs ++ [r]) s.
Proof. intros rrs s r H E. unfold rep in *. rewrite filter_app. cbn [filter]. rewrite E, app_nil_r. exact H. Qed.

Lemma join_key : forall r d s, same_key (join_rrset r d s) s.
Proof. repeat split. Qed.

Lemma rep_join : forall rrs s r d, rep rrs s -> belongs r s = true -> rr_rdata r = Some d -> rep (rrs ++ [r]) (join_rrset r d s).
Proof.
  intros rrs s r d H E D. unfold rep in *. cbv zeta in *.
  replace (filter (fun r0 => belongs r0 (join_rrset r d s)) (rrs ++ [r])) with (filter (fun r => belongs r s) rrs ++ [r]).
  - destruct H as (H1 & H2 & (r0 & I0 & T0) & H4). cbn [join_rrset rs_rdatas rs_ttl].
    split; [intros X; apply app_eq_nil in X as [_ X]; discriminate|]. split; [rewrite !map_app; cbn [map]; rewrite H2, D; reflexivity|].
    split.
    + destruct (rr_ttl r <? rs_ttl s); [exists r|exists r0]; rewrite in_app_iff; cbn; auto.
    + intros x X. apply in_app_iff in X as [X|[<- |[]]]; [apply H4 in X|]; destruct (rr_ttl r <? rs_ttl s) eqn:C; lia.
  - rewrite filter_app. cbn [filter]. rewrite (belongs_key r _ s (join_key r d s)), E. f_equal.
Qed.

Lemma rep_new : forall rrs r d, rr_rdata r = Some d ->
  let s := {| rs_name := rr_name r; rs_type := rr_type r; rs_class := rr_class r; rs_ttl := rr_ttl r; rs_rdatas := [d] |} in
  (forall x, In x rrs -> belongs x s = false) -> rep (rrs ++ [r]) s /\ belongs r s = true.
Proof.
  intros rrs r d D s N. assert (belongs r s = true) as B by (apply belongs_iff; repeat split). split; auto.
  unfold rep. rewrite filter_app. cbn [filter]. rewrite B.
  replace (filter (fun r0 => belongs r0 s) rrs) with (@nil rr).
  - cbn. split; [discriminate|]. rewrite D. split; auto. split; [exists r; auto|]. intros x [<- | []]. lia.
  - clear D B. induction rrs as [|x rrs IH]; auto. cbn [filter]. rewrite (N x) by (left; auto). apply IH. intros y Y. apply N. right. auto.
Qed.

(** What the backwards search does when at most one RRset matches. *)
Lemma join_last_cases : forall r d sets,
  (join_last r d sets = None /\ (forall s, In s sets -> belongs r s = false)) \/
  (exists a s b, sets = a ++ s :: b /\ belongs r s = true /\ (forall t, In t b -> belongs r t = false) /\
     join_last r d sets = Some (a ++ join_rrset r d s :: b)).
Proof.
  intros r d sets. induction sets as [|s sets IH]; [left; split; auto; intros ? []|]. cbn [join_last].
  destruct IH as [(E & N)|(a & t & b & -> & B & N & E)]; rewrite E.
  - rewrite compare_belongs. destruct (belongs r s) eqn:B.
    + right. exists [], s, sets. auto.
    + left. split; auto. intros t [<- |T]; auto.
  - right. exists (s :: a), t, b. auto.
Qed.

Lemma inv_insert : forall a r sec a', inv a -> sec <> 0 -> insert_rr a r sec = Ok a' -> inv a'.
Proof.
  intros a r sec a' (Cov & Uni & Rep) Hs E. unfold insert_rr in E. replace (sec =? 0) with false in E by lia.
  destruct (rr_rdata r) as [d|] eqn:D; [|discriminate]. injection E as <-. unfold inv. cbn [a_rrs a_rrsets].
  destruct (join_last_cases r d (a_rrsets a)) as [(E & N)|(p & s & q & Eq & B & N & E)]; rewrite E.
  - set (s := {| rs_name := rr_name r; rs_type := rr_type r; rs_class := rr_class r; rs_ttl := rr_ttl r; rs_rdatas := [d] |}).
    assert (Ns : forall x, In x (a_rrs a) -> belongs x s = false).
    { intros x X. destruct (belongs x s) eqn:B; auto. destruct (Cov x X) as (t & T & Bt). specialize (N t T).
      rewrite (belongs_key r t s) in N by (eapply belongs_both; eauto). assert (belongs r s = true) by (apply belongs_iff; repeat split). congruence. }
    destruct (rep_new (a_rrs a) r d D Ns) as [Rs Bs]. fold s in Rs, Bs. split; [|split].
    + intros x X. apply in_app_iff in X as [X|[<- |[]]].
      * destruct (Cov x X) as (t & T & Bt). exists t. rewrite in_app_iff. auto.
      * exists s. rewrite in_app_iff. cbn. auto.
    + assert (K : forall i t, nth_error (a_rrsets a ++ [s]) i = Some t -> (i < length (a_rrsets a) /\ nth_error (a_rrsets a) i = Some t)%nat \/ i = length (a_rrsets a) /\ t = s).
      { intros i t T. destruct (Nat.lt_ge_cases i (length (a_rrsets a))) as [L|L].
        - rewrite nth_error_app1 in T by auto. auto.
        - right. assert (i < length (a_rrsets a ++ [s]))%nat as L2 by (apply nth_error_Some; congruence). rewrite app_length in L2. cbn in L2.
          assert (i = length (a_rrsets a)) as -> by lia. rewrite nth_error_app2, Nat.sub_diag in T by lia. cbn in T. injection T as <-. auto. }
      assert (K2 : forall t, In t (a_rrsets a) -> same_key t s -> False).
      { intros t T S. specialize (N t T). rewrite (belongs_key r t s S) in N. congruence. }
      intros i j t u T U S. apply K in T, U. destruct T as [(Li & T)|(-> & ->)], U as [(Lj & U)|(-> & ->)]; auto.
      * eapply Uni; eauto.
      * exfalso. eapply K2; eauto. eapply nth_error_In; eauto.
      * exfalso. apply (K2 u); [eapply nth_error_In; eauto|]. unfold same_key in *. intuition congruence.
    + apply Forall_app. split; [|constructor; auto]. rewrite Forall_forall in *. intros t T. apply rep_other; auto.
  - rewrite Eq in Cov, Uni, Rep.
    assert (Np : forall t, In t p -> belongs r t = false).
    { intros t T. destruct (belongs r t) eqn:Bt; auto. exfalso. apply In_nth_error in T as (i & T).
      assert (i < length p)%nat by (apply nth_error_Some; congruence).
      assert (i = length p) by (apply (Uni i (length p) t s); [rewrite nth_error_app1; auto|rewrite nth_error_app2, Nat.sub_diag by lia; auto|eapply belongs_both; eauto]). lia. }
    split; [|split].
    + intros x X. apply in_app_iff in X as [X|[<- |[]]].
      * destruct (Cov x X) as (t & T & Bt). apply in_app_iff in T as [T|[<- |T]].
        -- exists t. rewrite in_app_iff. auto.
        -- exists (join_rrset r d s). rewrite in_app_iff. split; [cbn; auto|]. rewrite (belongs_key _ _ s (join_key r d s)). auto.
        -- exists t. rewrite in_app_iff. cbn. auto.
      * exists (join_rrset r d s). rewrite in_app_iff. split; [cbn; auto|]. rewrite (belongs_key _ _ s (join_key r d s)). auto.
    + assert (K : forall i t, nth_error (p ++ join_rrset r d s :: q) i = Some t -> exists t', nth_error (p ++ s :: q) i = Some t' /\ same_key t t').
      { intros i t T. destruct (Nat.lt_ge_cases i (length p)) as [L|L].
        - rewrite nth_error_app1 in * by auto. exists t. repeat split; auto.
        - rewrite nth_error_app2 in * by auto. destruct (i - length p)%nat as [|k]; cbn in *.
          + injection T as <-. exists s. repeat split; auto.
          + exists t. repeat split; auto. }
      intros i j t u T U S. apply K in T as (t' & T & S1). apply K in U as (u' & U & S2). apply (Uni i j t' u'); auto.
      unfold same_key in *. intuition congruence.
    + apply Forall_app in Rep as [R1 R2]. inversion R2; subst. apply Forall_app. split; [|constructor].
      * rewrite Forall_forall in *. intros t T. apply rep_other; auto.
      * apply rep_join; auto.
      * rewrite Forall_forall in *. intros t T. apply rep_other; auto.
Qed.

Definition qinv (a : rrset_array) : Prop := questions_ok a.
Lemma qinv_insert : forall a r a', qinv a -> rr_ttl r = 0 -> insert_rr a r 0 = Ok a' -> qinv a'.
Proof.
  intros a r a' (F & E) T H. unfold insert_rr in H. cbn [Z.eqb] in H. injection H as <-. unfold qinv, questions_ok. cbn [a_rrs a_rrsets].
  rewrite T. split; [apply Forall_app; split; auto|]. rewrite map_app, E. reflexivity.
Qed.

Definition minv (M : message) : Prop := qinv (m_qd M) /\ inv (m_an M) /\ inv (m_ns M) /\ inv (m_ar M).

Lemma inv_empty : inv empty_array.
Proof. split; [intros ? []|]. split; [intros [|i] ? ? ?; discriminate|constructor]. Qed.
Lemma qinv_empty : qinv empty_array.
Proof. split; [constructor|reflexivity]. Qed.
Lemma minv_clear : forall M, minv (clear_message M).
Proof. intros. repeat split; try apply inv_empty; apply qinv_empty. Qed.

Lemma minv_set : forall M sec a, minv M -> (sec = 0 -> qinv a) -> (sec <> 0 -> inv a) -> minv (set_sec M sec a).
Proof.
  intros M sec a (A & B & C & D) H H'. unfold minv, set_sec. cbn [m_qd m_an m_ns m_ar].
  split; [destruct (sec =? 0) eqn:E; auto; apply H; lia|]. split; [destruct (sec =? 1) eqn:E; auto; apply H'; lia|].
  split; [destruct (sec =? 2) eqn:E; auto; apply H'; lia|destruct (sec =? 3) eqn:E; auto; apply H'; lia].
Qed.
Lemma minv_get : forall M sec, minv M -> (sec = 0 -> qinv (get_sec M sec)) /\ (sec <> 0 -> inv (get_sec M sec)).
Proof.
  intros M sec (A & B & C & D). unfold get_sec. split; intros H; [subst; exact A|]. replace (sec =? 0) with false by lia.
  destruct (sec =? 1); auto. destruct (sec =? 2); auto.
Qed.

Lemma question_ttl : forall fuel m eop i r k, parse_message_rr fuel 0 m eop i = Ok (r, k) -> rr_ttl r = 0 /\ rr_rdata r = None.
Proof.
  intros fuel m eop i r k E. unfold parse_message_rr in E. rewrite bind_ok in E. destruct E as ([w n] & _ & E).
  rewrite bind_ok in E. destruct E as (s & _ & E). cbn [Z.eqb negb andb orb] in E.
  destruct ((s + 4 >? eop) || false); [discriminate|].
  do 2 (rewrite bind_ok in E; destruct E as (? & _ & E)). injection E as <- <-. auto.
Qed.

Lemma section_minv : forall n fuel sec pkt len p M fl, minv M -> parse_section fuel n sec pkt len p M = Ok fl ->
  match fl with Continue _ M' | Return _ M' => minv M' end.
Proof.
  induction n as [|n IH]; intros fuel sec pkt len p M fl H E; cbn [parse_section] in E.
  - injection E as <-. auto.
  - destruct (p =? len); [injection E as <-; auto|].
    destruct (parse_message_rr fuel sec pkt len p) as [[r k]|e|f|] eqn:P; try discriminate; [|injection E as <-; apply minv_clear].
    destruct ((rr_type r =? 41) && negb (e_present (m_edns M))); [eapply IH; [|exact E]; exact H|].
    rewrite bind_ok in E. destruct E as (a & I & E). eapply IH; [|exact E]. destruct (minv_get M sec H) as [G1 G2].
    apply minv_set; auto; intros S.
    + subst. eapply qinv_insert; eauto. eapply question_ttl; eauto.
    + eapply inv_insert; eauto.
Qed.

Theorem message_minv : forall fuel pkt len r M, parse_message fuel pkt len = Ok (r, M) -> minv M.
Proof.
  intros fuel pkt len r M E. unfold parse_message in E. destruct (len <? 12); [injection E as <- <-; apply (minv_clear empty_message)|].
  do 6 (rewrite bind_ok in E; destruct E as (? & _ & E)). cbv zeta in E.
  match goal with E : parse_sections _ ?s _ _ _ ?M0 = _ |- _ => assert (minv M0) as H by (repeat split; try apply inv_empty; apply qinv_empty); revert H E; generalize M0; generalize s end.
  generalize 12 as p. intros p secs. revert p. induction secs as [|[sec n] secs IH]; intros p M0 H E; cbn [parse_sections] in E.
  - injection E as <- <-. auto.
  - rewrite bind_ok in E. destruct E as (fl & P & E). apply section_minv in P; auto. destruct fl as [p' M'|r' M'].
    + eapply IH; eauto.
    + injection E as <- <-. auto.
Qed.

Lemma inv_spec : forall a, inv a -> partition_ok a /\ ttl_is_min a.
Proof.
  intros a (C & U & R). rewrite Forall_forall in R. split; [split; [|split]|]; auto.
  - intros s S. apply R in S. destruct S as (A & B & _). auto.
  - intros s S. apply R in S. destruct S as (_ & _ & A & B). auto.
Qed.
