(** ProofHeap3.v: sections and whole messages on the heap. *)
From Verif Require Import Base Lib ModelName ModelDescr ModelParse SpecName ProofUnpack ModelHeap SpecHeap ProofHeap ProofHeap2 ProofMessage.
From Coq Require Import Permutation.

Lemma rs_split : forall a s b k, Forall (fun t => zlen (rs_rdatas t) <= k) (a ++ s :: b) -> zlen (rs_rdatas s) <= k.
Proof. intros a s b k F. apply Forall_app in F as (_ & F). inversion F; auto. Qed.

Lemma insert_sizes : forall a r sec a' k, insert_rr a r sec = Ok a' -> sizes_le a k -> 0 <= k -> sizes_le a' (k + 1).
Proof.
  intros a r sec a' k E (S1 & S2 & S3) K.
  assert (W : Forall (fun t => zlen (rs_rdatas t) <= k + 1) (a_rrsets a)).
  { eapply Forall_impl; [|exact S3]. cbv beta. intros; lia. }
  unfold insert_rr in E. destruct (sec =? 0).
  - injection E as <-. unfold sizes_le. cbn [a_rrs a_rrsets]. rewrite !zlen_app.
    match goal with |- context [zlen [?x]] => change (zlen [x]) with 1 end.
    match goal with |- context [zlen (a_rrsets a) + zlen [?x]] => change (zlen [x]) with 1 end.
    split; [lia|]. split; [lia|]. apply Forall_app. split; [exact W|]. constructor; [|constructor]. cbn [rs_rdatas]. change (zlen (@nil bytes)) with 0. lia.
  - destruct (rr_rdata r) as [d|]; [|discriminate]. injection E as <-. unfold sizes_le. cbn [a_rrs a_rrsets].
    rewrite zlen_app. change (zlen [r]) with 1. split; [lia|].
    destruct (join_last r d (a_rrsets a)) as [sets|] eqn:J.
    + destruct (join_last_found r d (a_rrsets a)) as (JN & JS & JN2).
      assert (Ex : exists A s B, a_rrsets a = A ++ s :: B /\ compare_rr_rrset r s = true /\ forall t, In t B -> compare_rr_rrset r t = false).
      { clear - J JN2. revert J JN2. generalize (a_rrsets a). intros l J JN2.
        assert (D : (forall s, In s l -> compare_rr_rrset r s = false) \/ exists A s B, l = A ++ s :: B /\ compare_rr_rrset r s = true /\ forall t, In t B -> compare_rr_rrset r t = false).
        { clear. induction l as [|s l IH]; [left; intros s []|]. destruct IH as [IH|(A & t & B & -> & C & N)].
          - destruct (compare_rr_rrset r s) eqn:C.
            + right. exists [], s, l. auto.
            + left. intros t [<-|I]; auto.
          - right. exists (s :: A), t, B. auto. }
        destruct D as [D|D]; [|exact D]. rewrite (JN2 D) in J. discriminate. }
      destruct Ex as (A & s & B & EQ & C & N). rewrite (JS A s B EQ C N) in J. injection J as <-.
      rewrite EQ in *. rewrite !zlen_app, !zlen_cons in *. split; [lia|].
      apply Forall_app in W as (W1 & W2). inversion W2 as [|? ? W3 W4]. apply Forall_app. split; [exact W1|]. constructor; [|exact W4].
      pose proof (rs_split _ _ _ _ S3). unfold join_rrset. cbn [rs_rdatas]. rewrite zlen_app. change (zlen [d]) with 1. lia.
    + rewrite zlen_app. match goal with |- context [zlen [?x]] => change (zlen [x]) with 1 end. split; [lia|].
      apply Forall_app. split; [exact W|]. constructor; [|constructor]. cbn [rs_rdatas]. change (zlen [d]) with 1. lia.
Qed.

Lemma edns_wp : forall m x fm r y fr h L (Q : hmsg -> heap -> Prop), own_msg m x fm -> e_present (m_edns m) = false ->
  e_options (m_edns m) = None -> own_rr r y fr -> owns h (fm ++ fr ++ L) ->
  (forall x' f' h', own_msg (parse_edns m r) x' f' -> owns h' (f' ++ L) -> Q x' h') -> wp (parse_edns_h x y) h Q.
Proof.
  intros m x fm r y fr h L Q (f0 & f1 & f2 & f3 & O0 & O1 & O2 & O3 & P & V & F & S & I & FL & RC & OP) NP NO (R1 & R2 & R3 & R4 & R5 & R6) O K.
  rewrite NO in OP. destruct OP as (OP & ->).
  unfold parse_edns_h, clear_rr_h. cbn [hr_name hr_rdata].
  set (fd := match rr_rdata r with None => [] | Some d => [(hr_rdata y, CRdata d)] end).
  assert (EF : fr = (hr_name y, CBytes (rr_name r)) :: fd). { unfold fd. destruct (rr_rdata r); [auto|destruct R6 as (_ & ->); auto]. }
  apply wp_bind. apply wp_bind. eapply (wp_free (hr_name y) (CBytes (rr_name r)) h (f0 ++ f1 ++ f2 ++ f3 ++ fd ++ L)); [exact O|rewrite EF; perm|].
  intros h1 O1'. apply wp_bind. apply wp_free_null. apply wp_ret. apply wp_ret.
  apply (K _ (fd ++ f0 ++ f1 ++ f2 ++ f3)).
  - exists f0, f1, f2, f3. cbn [hm_qd hm_an hm_ns hm_ar hm_present hm_version hm_eflags hm_size hm_options hm_id hm_flags hm_rcode
      m_qd m_an m_ns m_ar m_edns m_id m_flags m_rcode parse_edns e_present e_version e_flags e_size e_options].
    rewrite R4, R5, RC. repeat (split; [auto|]). unfold fd. destruct (rr_rdata r); [reflexivity|]. destruct R6 as (-> & _). auto.
  - eapply owns_perm; [exact O1'|]. perm.
Qed.

(** The blocks of one section taken out of those of the message. *)
Lemma own_msg_sec : forall m x fm sec, 0 <= sec <= 3 -> own_msg m x fm ->
  exists fa rest, own_arr (get_sec m sec) (hget_sec x sec) fa /\ Permutation fm (fa ++ rest) /\
    forall a xa fa', own_arr a xa fa' -> exists fm', own_msg (set_sec m sec a) (hset_sec x sec xa) fm' /\ Permutation fm' (fa' ++ rest).
Proof.
  intros m x fm sec B (f0 & f1 & f2 & f3 & O0 & O1 & O2 & O3 & P & V & F & S & I & FL & RC & OP).
  assert (D : sec = 0 \/ sec = 1 \/ sec = 2 \/ sec = 3) by lia.
  destruct D as [-> |[-> |[-> | ->]]]; [exists f0|exists f1|exists f2|exists f3];
    unfold own_msg; cbn [get_sec hget_sec set_sec hset_sec Z.eqb Pos.eqb m_qd m_an m_ns m_ar m_edns m_id m_flags m_rcode
      hm_qd hm_an hm_ns hm_ar hm_present hm_version hm_eflags hm_size hm_options hm_id hm_flags hm_rcode];
    (destruct (e_options (m_edns m)) as [d|]; [subst fm|destruct OP as (OP & ->)]).
  - exists ((hm_options x, CRdata d) :: f1 ++ f2 ++ f3). split; [exact O0|]. split; [perm|]. intros a xa fa' OA.
    exists ((hm_options x, CRdata d) :: fa' ++ f1 ++ f2 ++ f3). split; [|perm]. exists fa', f1, f2, f3. repeat (split; [auto|]). auto.
  - exists (f1 ++ f2 ++ f3). split; [exact O0|]. split; [perm|]. intros a xa fa' OA.
    exists (fa' ++ f1 ++ f2 ++ f3). split; [|perm]. exists fa', f1, f2, f3. repeat (split; [auto|]). auto.
  - exists ((hm_options x, CRdata d) :: f0 ++ f2 ++ f3). split; [exact O1|]. split; [perm|]. intros a xa fa' OA.
    exists ((hm_options x, CRdata d) :: f0 ++ fa' ++ f2 ++ f3). split; [|perm]. exists f0, fa', f2, f3. repeat (split; [auto|]). auto.
  - exists (f0 ++ f2 ++ f3). split; [exact O1|]. split; [perm|]. intros a xa fa' OA.
    exists (f0 ++ fa' ++ f2 ++ f3). split; [|perm]. exists f0, fa', f2, f3. repeat (split; [auto|]). auto.
  - exists ((hm_options x, CRdata d) :: f0 ++ f1 ++ f3). split; [exact O2|]. split; [perm|]. intros a xa fa' OA.
    exists ((hm_options x, CRdata d) :: f0 ++ f1 ++ fa' ++ f3). split; [|perm]. exists f0, f1, fa', f3. repeat (split; [auto|]). auto.
  - exists (f0 ++ f1 ++ f3). split; [exact O2|]. split; [perm|]. intros a xa fa' OA.
    exists (f0 ++ f1 ++ fa' ++ f3). split; [|perm]. exists f0, f1, fa', f3. repeat (split; [auto|]). auto.
  - exists ((hm_options x, CRdata d) :: f0 ++ f1 ++ f2). split; [exact O3|]. split; [perm|]. intros a xa fa' OA.
    exists ((hm_options x, CRdata d) :: f0 ++ f1 ++ f2 ++ fa'). split; [|perm]. exists f0, f1, f2, fa'. repeat (split; [auto|]). auto.
  - exists (f0 ++ f1 ++ f2). split; [exact O3|]. split; [perm|]. intros a xa fa' OA.
    exists (f0 ++ f1 ++ f2 ++ fa'). split; [|perm]. exists f0, f1, f2, fa'. repeat (split; [auto|]). auto.
Qed.

(** Edns options only appear with the present flag. *)
Definition opt_ok (m : message) : Prop := e_present (m_edns m) = false -> e_options (m_edns m) = None.

Definition flow_rel (L : list (Z * cell)) (a : pflow) (b : hflow) (h' : heap) : Prop :=
  exists M x fp, own_msg M x fp /\ owns h' (fp ++ L) /\ opt_ok M /\
    match a, b with
    | Continue p m, HContinue p' m' => p' = p /\ m = M /\ m' = x
    | Return r m, HReturn r' m' => r' = r /\ m = M /\ m' = x /\ (r <> res_success -> fp = [])
    | _, _ => False
    end.

Lemma section_sim : forall fuel sec pkt len L, bytes_ok pkt -> 0 <= sec <= 3 -> forall n p m x fm h,
  own_msg m x fm -> opt_ok m -> owns h (fm ++ L) -> Z.of_nat n <= 65535 -> sizes_le (get_sec m sec) (65535 - Z.of_nat n) ->
  sim (parse_section fuel n sec pkt len p m) (parse_section_h fuel n sec pkt len p x) h (flow_rel L) (fun _ => False).
Proof.
  intros fuel sec pkt len L HB SC n. induction n as [|n IH]; intros p m x fm h OM OK O N SZ.
  - cbn [parse_section parse_section_h]. apply sim_ok. apply wp_ret. exists m, x, fm. auto 10.
  - cbn [parse_section parse_section_h]. destruct (p =? len).
    { apply sim_ok. apply wp_ret. exists m, x, fm. split; [auto|]. split; [auto|]. split; [auto|]. repeat (split; [auto|]). intros X. contradiction X. reflexivity. }
    pose proof (parse_rr_sim fuel sec pkt len p h (fm ++ L) HB O) as S.
    destruct (parse_message_rr fuel sec pkt len p) as [(r, rl)|e|f|] eqn:PR; cbn [sim] in S.
    + destruct S as ((y, rl') & h1 & E1 & EQ & N0 & NN & fr & OR & O1). cbn [fst snd] in *. subst rl'.
      match goal with |- sim ?o (fun h0 => match _ h0 with _ => _ end) _ _ _ => set (oo := o) end.
      assert (G : sim oo ((if (hr_type y =? 41) && negb (hm_present x) then
           m0 <-- parse_edns_h x y ;;; parse_section_h fuel n sec pkt len (p + rl) m0
         else
           a <-- insert_h (hget_sec x sec) y sec ;;; parse_section_h fuel n sec pkt len (p + rl) (hset_sec x sec a))) h1 (flow_rel L) (fun _ => False)).
      { subst oo. assert (OM2 := OM). destruct OM2 as (f0 & f1 & f2 & f3 & _ & _ & _ & _ & P & _). assert (OR2 := OR). destruct OR2 as (_ & _ & RT & _).
        rewrite P, RT. destruct ((rr_type r =? 41) && negb (e_present (m_edns m))) eqn:C.
        - assert (NP : e_present (m_edns m) = false). { destruct (e_present (m_edns m)); auto. rewrite andb_false_r in C. discriminate. }
          assert (W : wp (parse_edns_h x y) h1 (fun x' h' => exists f', own_msg (parse_edns m r) x' f' /\ owns h' (f' ++ L))).
          { eapply (edns_wp m x fm r y fr h1 L); [exact OM|exact NP|exact (OK NP)|exact OR| |].
            - eapply owns_perm; [exact O1|]. perm.
            - intros x' f' h' A B. exists f'. auto. }
          eapply sim_wp; [exact W|]. cbv beta. intros x' h2 (f' & OM' & O2).
          apply (IH (p + rl) (parse_edns m r) x' f' h2 OM'); [intros X; discriminate|exact O2|lia|].
          assert (SG : get_sec (parse_edns m r) sec = get_sec m sec) by reflexivity. rewrite SG.
          destruct SZ as (Z1 & Z2 & Z3). split; [lia|]. split; [lia|]. eapply Forall_impl; [|exact Z3]. cbv beta. intros; lia.
        - destruct (own_msg_sec m x fm sec SC OM) as (fa & rest & OA & PM & BACK).
          assert (SI : sim (insert_rr (get_sec m sec) r sec) (insert_h (hget_sec x sec) y sec) h1
             (fun a' xa' h' => exists fa', own_arr a' xa' fa' /\ owns h' (fa' ++ rest ++ L)) (fun _ => False)).
          { eapply (insert_sim (get_sec m sec) (hget_sec x sec) fa r y fr sec h1 (rest ++ L)); [exact OA|exact OR|exact NN|exact N0| |].
            - destruct SZ as (Z1 & Z2 & Z3). split; [lia|]. split; [lia|]. eapply Forall_impl; [|exact Z3]. cbv beta. intros; lia.
            - eapply owns_perm; [exact O1|]. rewrite PM. perm. }
          eapply sim_bind; [exact SI| |auto]. cbv beta. intros a xa h2 EI (fa' & OA' & O2).
          destruct (BACK a xa fa' OA') as (fm' & OM' & PM').
          apply (IH (p + rl) (set_sec m sec a) (hset_sec x sec xa) fm' h2 OM').
          + exact OK.
          + eapply owns_perm; [exact O2|]. rewrite PM'. perm.
          + lia.
          + assert (GS : get_sec (set_sec m sec a) sec = a).
            { assert (D : sec = 0 \/ sec = 1 \/ sec = 2 \/ sec = 3) by lia. destruct D as [-> |[-> |[-> | ->]]]; reflexivity. }
            rewrite GS. replace (65535 - Z.of_nat n) with (65535 - Z.of_nat (S n) + 1) by lia.
            eapply insert_sizes; [exact EI|exact SZ|lia]. }
      clearbody oo. unfold sim in G |- *. destruct oo; rewrite E1; exact G.
    + destruct S as (h1 & E1 & O1). apply sim_ok. unfold wp. rewrite E1.
      assert (W : wp (m0 <-- clear_message_h x ;;; ret (HReturn e m0)) h1 (flow_rel L (Return e (clear_message m)))).
      { apply wp_bind. eapply clear_message_wp; [exact OM|exact O1|]. intros x' h' OM' O'. apply wp_ret.
        exists (clear_message m), x', []. split; [exact OM'|]. split; [exact O'|]. split; [intros _; reflexivity|]. auto. }
      exact W.
    + cbn [sim]. rewrite S. reflexivity.
    + cbn [sim]. rewrite S. reflexivity.
Qed.

Lemma get_set_other : forall m a s s', s <> s' -> 0 <= s <= 3 -> 0 <= s' <= 3 -> get_sec (set_sec m s a) s' = get_sec m s'.
Proof.
  intros m a s s' N B B'. assert (D : s = 0 \/ s = 1 \/ s = 2 \/ s = 3) by lia. assert (D' : s' = 0 \/ s' = 1 \/ s' = 2 \/ s' = 3) by lia.
  destruct D as [-> |[-> |[-> | ->]]]; destruct D' as [-> |[-> |[-> | ->]]]; try contradiction; reflexivity.
Qed.

Lemma section_other : forall fuel sec pkt len s', 0 <= sec <= 3 -> 0 <= s' <= 3 -> sec <> s' -> forall n p m p' m',
  parse_section fuel n sec pkt len p m = Ok (Continue p' m') -> get_sec m' s' = get_sec m s'.
Proof.
  intros fuel sec pkt len s' B B' N n. induction n as [|n IH]; intros p m p' m' E; cbn [parse_section] in E.
  - congruence.
  - destruct (p =? len); [discriminate|]. destruct (parse_message_rr fuel sec pkt len p) as [(r, rl)|e|f|]; try discriminate.
    destruct ((rr_type r =? 41) && negb (e_present (m_edns m))).
    + apply IH in E. rewrite E. reflexivity.
    + apply bind_ok in E as (a & _ & E). apply IH in E. rewrite E. apply get_set_other; auto.
Qed.

Lemma sizes_empty : forall k, 0 <= k -> sizes_le empty_array k.
Proof. intros k K. split; [exact K|]. split; [exact K|constructor]. Qed.

Definition msg_rel (L : list (Z * cell)) (a : res * message) (b : res * hmsg) (h' : heap) : Prop :=
  fst b = fst a /\ exists fp, own_msg (snd a) (snd b) fp /\ owns h' (fp ++ L) /\ (fst a <> res_success -> fp = []).

Lemma sections_sim : forall fuel pkt len L, bytes_ok pkt -> forall secs p m x fm h,
  NoDup (map fst secs) -> Forall (fun s => 0 <= fst s <= 3 /\ 0 <= snd s <= 65535 /\ get_sec m (fst s) = empty_array) secs ->
  own_msg m x fm -> opt_ok m -> owns h (fm ++ L) ->
  sim (parse_sections fuel secs pkt len p m) (parse_sections_h fuel secs pkt len p x) h (msg_rel L) (fun _ => False).
Proof.
  intros fuel pkt len L HB secs. induction secs as [|(s, c) secs IH]; intros p m x fm h ND F OM OK O; cbn [parse_sections parse_sections_h].
  - apply sim_ok. apply wp_ret. split; [reflexivity|]. exists fm. split; [auto|]. split; [auto|]. intros X. contradiction X. reflexivity.
  - inversion F as [|? ? (B & C & G) F']; subst. cbn [fst snd] in *. inversion ND as [|? ? NI ND']; subst.
    eapply sim_bind; [apply (section_sim fuel s pkt len L HB B (Z.to_nat c) p m x fm h OM OK O)| |auto].
    + lia.
    + rewrite G. apply sizes_empty. lia.
    + intros a b h1 E (M & x1 & fp & OM1 & O1 & OK1 & R). destruct a as [p1 m1|r1 m1], b as [p2 m2|r2 m2]; try contradiction.
      * destruct R as (-> & -> & ->). apply (IH p1 M x1 fp h1 ND'); auto.
        rewrite Forall_forall in *. intros (s', c') I. specialize (F' _ I). cbn [fst snd] in *. destruct F' as (X & Y & W). split; [auto|]. split; [auto|].
        rewrite (section_other fuel s pkt len s' B X ltac:(intros ->; apply NI; apply in_map_iff; exists (s', c'); auto) _ _ _ _ _ E). exact W.
      * destruct R as (-> & -> & -> & R). apply sim_ok. apply wp_ret. split; [reflexivity|]. exists fp. auto.
Qed.

Lemma get16_range : forall m i v, bytes_ok m -> get16 m i = Ok v -> 0 <= v <= 65535.
Proof.
  intros m i v B E. unfold get16 in E. apply bind_ok in E as (a & A & E). apply bind_ok in E as (b & C & E). injection E as <-.
  pose proof (rd_byte _ _ _ B A). pose proof (rd_byte _ _ _ B C). unfold be16. lia.
Qed.

Lemma message_sim : forall fuel pkt len h L, bytes_ok pkt -> owns h L ->
  sim (parse_message fuel pkt len) (parse_message_h fuel pkt len) h (msg_rel L) (fun h' => owns h' L).
Proof.
  intros fuel pkt len h L HB O. unfold parse_message, parse_message_h. destruct (len <? 12).
  - apply sim_ok. apply wp_ret. split; [reflexivity|]. exists []. split; [|auto].
    exists [], [], [], []. cbn. pose proof own_arr_empty. repeat (split; [auto|]). auto.
  - assert (LIFT : forall o : outcome Z, sim o (lift o) h (fun a b h' => b = a /\ h' = h) (fun h' => owns h' L)) by (intros; apply sim_lift; exact O).
    eapply sim_bind; [apply LIFT| |auto]. intros id ? h1 _ (-> & ->).
    eapply sim_bind; [apply LIFT| |auto]. intros fl ? h1 _ (-> & ->).
    eapply sim_bind; [apply LIFT| |auto]. intros qd ? h1 E0 (-> & ->).
    eapply sim_bind; [apply LIFT| |auto]. intros an ? h1 E1 (-> & ->).
    eapply sim_bind; [apply LIFT| |auto]. intros ns ? h1 E2 (-> & ->).
    eapply sim_bind; [apply LIFT| |auto]. intros ar ? h1 E3 (-> & ->).
    apply get16_range in E0, E1, E2, E3; auto. cbv zeta.
    eapply sim_mono; [eapply (sections_sim fuel pkt len L HB) with (fm := [])| |].
    + cbn [map fst]. repeat constructor; cbn; intuition lia.
    + repeat (constructor; [cbn [fst snd]; split; [lia|]; split; [lia|]; reflexivity|]). constructor.
    + exists [], [], [], []. cbn. pose proof own_arr_empty. repeat (split; [auto|]). auto.
    + intros _. reflexivity.
    + exact O.
    + auto.
    + intros h' [].
Qed.

(** ** Programs *)
Lemma block_nil : forall p c, block p c = [] -> p = 0.
Proof. intros p c. unfold block. destruct (p =? 0) eqn:E; [lia|discriminate]. Qed.

Lemma own_arr_nil : forall a x, own_arr a x [] -> x = harr0.
Proof.
  intros a x (xs & f1 & ys & f2 & _ & _ & N1 & N2 & Z1 & Z2 & E). symmetry in E.
  apply app_eq_nil in E as (E1 & E). apply app_eq_nil in E as (_ & E). apply app_eq_nil in E as (E2 & _).
  apply block_nil in E1, E2. specialize (Z1 E1). specialize (Z2 E2). subst xs ys. destruct x as [q1 q2 q3 q4]. cbn [ha_nrrs ha_rrs ha_nsets ha_sets] in *. subst. reflexivity.
Qed.

Lemma own_msg_nil : forall M x, own_msg M x [] -> hm_options x = 0 /\ hm_qd x = harr0 /\ hm_an x = harr0 /\ hm_ns x = harr0 /\ hm_ar x = harr0.
Proof.
  intros M x (f0 & f1 & f2 & f3 & O0 & O1 & O2 & O3 & _ & _ & _ & _ & _ & _ & _ & OP).
  destruct (e_options (m_edns M)); [discriminate|]. destruct OP as (-> & E). symmetry in E.
  apply app_eq_nil in E as (-> & E). apply app_eq_nil in E as (-> & E). apply app_eq_nil in E as (-> & ->).
  apply own_arr_nil in O0, O1, O2, O3. auto.
Qed.

Lemma message_wp : forall fuel pkt len h L r M (Q : res * hmsg -> heap -> Prop), bytes_ok pkt -> owns h L -> parse_message fuel pkt len = Ok (r, M) ->
  (forall x h' fp, own_msg M x fp -> owns h' (fp ++ L) -> (r <> res_success -> fp = []) -> Q (r, x) h') -> wp (parse_message_h fuel pkt len) h Q.
Proof.
  intros fuel pkt len h L r M Q HB O E K. pose proof (message_sim fuel pkt len h L HB O) as S. rewrite E in S. cbn [sim] in S.
  destruct S as ((r', x) & h' & E1 & R & fp & OM & O1 & NS). cbn [fst snd] in *. subst r'. exists (r, x), h'. eauto.
Qed.

Lemma failed_present : forall fuel pkt len r M, parse_message fuel pkt len = Ok (r, M) -> r <> res_success -> e_present (m_edns M) = false.
Proof.
  intros fuel m len r M E Ne. apply message_flow in E. destruct E as [(L & _ & ->)|(L & i0 & i1 & f0 & f1 & O & M1 & A & B & C & [(D & _)|(_ & ->)])].
  - reflexivity.
  - contradiction.
  - reflexivity.
Qed.

Lemma slot_clear_wp : forall o x fp h L (Q : hmsg -> heap -> Prop), own_slot o x fp -> owns h (fp ++ L) ->
  (forall x' h', own_slot None x' [] -> owns h' L -> Q x' h') -> wp (clear_message_h x) h Q.
Proof.
  intros o x fp h L Q OS O K. destruct o as [M|].
  - eapply clear_message_wp; [exact OS|exact O|]. intros x' h' OM' O'. apply K; [|exact O'].
    assert (P : hm_present x' = false). { destruct OM' as (f0 & f1 & f2 & f3 & _ & _ & _ & _ & P & _). rewrite P. reflexivity. }
    apply own_msg_nil in OM' as (A & B & C & D & E). cbn [own_slot]. auto 10.
  - destruct OS as (-> & A & P & B & C & D & E). unfold clear_message_h. rewrite A, B, C, D, E.
    exists (mkHmsg harr0 harr0 harr0 harr0 false (hm_version x) (hm_eflags x) (hm_size x) 0 (hm_id x) (hm_flags x) (hm_rcode x)), h.
    split; [reflexivity|]. apply K; [|exact O]. cbn [own_slot hm_options hm_present hm_qd hm_an hm_ns hm_ar]. auto 10.
Qed.

Lemma run_wp : forall fuel ops s s', client fuel ops s s' -> forall xs fp h L, own_list own_slot s xs fp -> owns h (fp ++ L) ->
  wp (run fuel ops xs) h (fun xs' h' => exists fp', own_list own_slot s' xs' fp' /\ owns h' (fp' ++ L)).
Proof.
  intros fuel ops s s' C. induction C as [s|pkt a b r M ops s' HB E C IH|a o b ops s' C IH]; intros xs fp h L OL O; cbn [run].
  - apply wp_ret. exists fp. auto.
  - apply own_list_split in OL as (m1 & x & m2 & f1 & g & f2 & -> & -> & A & X & B). destruct X as (-> & _).
    assert (LA : zlen m1 = zlen a). { unfold zlen. rewrite (own_list_len _ _ _ _ _ _ A). reflexivity. }
    apply wp_bind. eapply message_wp; [exact HB|exact O|exact E|]. intros x' h' g OM O' NS.
    apply wp_bind. eapply wp_upd; [exact LA|]. cbn [snd].
    eapply (IH (m1 ++ x' :: m2) (f1 ++ g ++ f2) h' L).
    + apply own_list_join; auto. destruct r; [exact OM|..]; (rewrite NS in OM by discriminate; rewrite NS by discriminate;
        assert (P : hm_present x' = false) by (destruct OM as (? & ? & ? & ? & _ & _ & _ & _ & P & _); rewrite P; eapply failed_present; [exact E|discriminate]);
        apply own_msg_nil in OM as (A1 & B1 & C1 & D1 & E1); cbn [own_slot]; auto 10).
    + eapply owns_perm; [exact O'|]. perm.
  - apply own_list_split in OL as (m1 & x & m2 & f1 & g & f2 & -> & -> & A & X & B).
    assert (LA : zlen m1 = zlen a). { unfold zlen. rewrite (own_list_len _ _ _ _ _ _ A). reflexivity. }
    apply wp_bind. eapply wp_elem; [exact LA|].
    apply wp_bind. eapply (slot_clear_wp o x g h (f1 ++ f2 ++ L)); [exact X|eapply owns_perm; [exact O|perm]|].
    intros x' h' X' O'. apply wp_bind. eapply wp_upd; [exact LA|].
    eapply (IH (m1 ++ x' :: m2) (f1 ++ [] ++ f2) h' L).
    + apply own_list_join; auto.
    + eapply owns_perm; [exact O'|]. perm.
Qed.
