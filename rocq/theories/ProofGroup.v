(** ProofGroup.v: RRset grouping and EDNS, i.e. what insert_rr / parse_edns make of a list of RRs. *)
From Verif Require Import Base Lib SpecName ModelParse SpecMessage SpecParsed ProofUnpack ProofCopy ProofNameOps.

Lemma same_iff : forall a b, same a b = true <-> key a = key b.
Proof. intros a b. unfold same. destruct (key_eq_dec (key a) (key b)); intuition congruence. Qed.
Lemma same_refl : forall a, same a a = true.
Proof. intros. apply same_iff. auto. Qed.
Lemma same_sym : forall a b, same a b = same b a.
Proof. intros. unfold same. destruct (key_eq_dec (key a) (key b)), (key_eq_dec (key b) (key a)); congruence. Qed.
Lemma same_trans_eq : forall a b c, same a b = true -> same a c = same b c.
Proof. intros a b c H. apply same_iff in H. unfold same. rewrite H. reflexivity. Qed.

(** compare_rr_rrset is [same]. *)
Lemma compare_same : forall r g rs, valid_labels (s_name r) -> valid_labels (s_name g) ->
  compare_rr_rrset (rr_of r) (set_of rs g) = same g r.
Proof.
  intros r g rs V1 V2. rewrite same_sym. unfold compare_rr_rrset, same, rr_of, set_of. cbn [rr_name rs_name rr_type rs_type rr_class rs_class].
  destruct (key_eq_dec (key r) (key g)) as [E|E].
  - unfold key in E. injection E as E1 E2 E3. rewrite !map_dc_wire by auto. rewrite E1.
    assert (zlen (wire (s_name r)) = zlen (wire (s_name g))) as ->.
    { rewrite <- (zlen_map _ _ dc (wire (s_name r))), <- (zlen_map _ _ dc (wire (s_name g))), !map_dc_wire, E1 by auto. reflexivity. }
    rewrite E2, E3, !Z.eqb_refl. cbn [andb]. destruct (list_eq_dec _ _ _); congruence.
  - destruct (_ && _) eqn:B; auto. destruct (list_eq_dec _ _ _) as [L|]; auto. exfalso. apply E.
    rewrite !map_dc_wire in L by auto. apply wire_inj in L; auto using lower_valid_labels.
    unfold key. rewrite L. f_equal; [f_equal|]; lia.
Qed.

(** ** leaders *)
Lemma leaders_app : forall a seen b, leaders seen (a ++ b) = leaders seen a ++ leaders (seen ++ a) b.
Proof.
  induction a as [|x a IH]; intros seen b; cbn [app leaders]; [rewrite app_nil_r; reflexivity|].
  rewrite IH, <- app_assoc. cbn [app]. destruct (existsb (same x) seen); reflexivity.
Qed.

Lemma leaders_incl : forall a seen x, In x (leaders seen a) -> In x a /\ existsb (same x) seen = false.
Proof.
  induction a as [|y a IH]; intros seen x H; [contradiction|]. cbn [leaders] in H.
  assert (In x (leaders (seen ++ [y]) a) -> In x (y :: a) /\ existsb (same x) seen = false) as K.
  { intros X. apply IH in X as [X1 X2]. rewrite existsb_app in X2. apply orb_false_elim in X2. split; [right; auto|tauto]. }
  destruct (existsb (same y) seen) eqn:E; [auto|]. destruct H as [<-|H]; [|auto]. split; [left; auto|auto].
Qed.

Lemma leaders_cover : forall a seen x, In x a -> existsb (same x) seen = false -> exists l, In l (leaders seen a) /\ same l x = true.
Proof.
  induction a as [|y a IH]; intros seen x H E; [contradiction|]. cbn [leaders]. destruct H as [->|H].
  - rewrite E. exists x. split; [left; auto|apply same_refl].
  - destruct (same x y) eqn:S.
    + assert (existsb (same y) seen = false) as ->.
      { destruct (existsb (same y) seen) eqn:Q; auto. apply existsb_exists in Q as (z & Z1 & Z2).
        rewrite <- E. symmetry. apply existsb_exists. exists z. split; auto. rewrite (same_trans_eq x y z S). auto. }
      exists y. split; [left; auto|rewrite same_sym; auto].
    + destruct (IH (seen ++ [y]) x H) as (l & L1 & L2).
      { rewrite existsb_app, E. cbn. rewrite S. reflexivity. }
      exists l. split; auto. destruct (existsb (same y) seen); [auto|right; auto].
Qed.

(** Distinct leaders have distinct keys. *)
Inductive pairwise_diff : list srr -> Prop :=
| pd_nil : pairwise_diff []
| pd_cons : forall x l, (forall y, In y l -> same x y = false) -> pairwise_diff l -> pairwise_diff (x :: l).

Lemma leaders_diff : forall a seen, pairwise_diff (leaders seen a).
Proof.
  induction a as [|x a IH]; intros seen; [constructor|]. cbn [leaders]. destruct (existsb (same x) seen); auto.
  constructor; auto. intros y H. apply leaders_incl in H as [_ H]. rewrite existsb_app in H. apply orb_false_elim in H as [_ H].
  cbn in H. rewrite orb_false_r in H. rewrite same_sym. auto.
Qed.

Lemma members_app : forall r a b, members r (a ++ b) = members r a ++ members r b.
Proof. intros. unfold members. apply filter_app. Qed.

Lemma min_ttl_snoc : forall r l x, min_ttl r (l ++ [x]) = Z.min (min_ttl r l) (s_ttl x).
Proof.
  intros r l x. unfold min_ttl. rewrite map_app, fold_right_app. cbn [map fold_right].
  induction (map s_ttl l) as [|y ys IH]; cbn [fold_right]; [lia|]. rewrite IH. lia.
Qed.

Lemma set_of_diff : forall rs r x, same r x = false -> set_of (rs ++ [x]) r = set_of rs r.
Proof. intros rs r x H. unfold set_of. rewrite members_app. cbn [members filter]. unfold members at 2 4. cbn [filter]. rewrite H, !app_nil_r. reflexivity. Qed.

Lemma set_of_same : forall rs r x d, same r x = true -> s_data x = Some d ->
  set_of (rs ++ [x]) r = join_rrset (rr_of x) (stored d) (set_of rs r).
Proof.
  intros rs r x d H D. unfold set_of, join_rrset. rewrite members_app. unfold members at 2 4. cbn [filter]. rewrite H.
  cbn [rs_name rs_type rs_class rs_ttl rs_rdatas rr_of rr_ttl]. rewrite min_ttl_snoc, map_app. cbn [map].
  assert (data_of x = stored d) as -> by (unfold data_of; rewrite D; auto).
  f_equal. destruct (s_ttl x <? min_ttl r (members r rs)) eqn:E; lia.
Qed.

Lemma members_none : forall r rs, existsb (same r) rs = false -> members r rs = [].
Proof.
  intros r rs. induction rs as [|x rs IH]; cbn; auto. intros H. apply orb_false_elim in H as [H1 H2]. unfold members in *. cbn [filter]. rewrite H1. auto.
Qed.

(** join_last over the RRsets of the section. *)
Lemma join_last_none : forall r d rs L, valid_labels (s_name r) -> Forall (fun g => valid_labels (s_name g)) L ->
  (forall g, In g L -> same g r = false) -> join_last (rr_of r) d (map (set_of rs) L) = None.
Proof.
  induction L as [|g L IH]; intros V F H; auto. cbn [map join_last]. inversion F; subst.
  rewrite IH; auto. 2: intros; apply H; right; auto.
  rewrite compare_same by auto. rewrite (H g) by (left; auto). reflexivity.
Qed.

Lemma join_last_some : forall r d rs L, valid_labels (s_name r) -> Forall (fun g => valid_labels (s_name g)) L ->
  s_data r = Some d -> pairwise_diff L -> (exists g, In g L /\ same g r = true) ->
  join_last (rr_of r) (stored d) (map (set_of rs) L) = Some (map (set_of (rs ++ [r])) L).
Proof.
  induction L as [|g L IH]; intros V F D P (l & I & S); [contradiction|]. cbn [map join_last]. inversion F; subst. inversion P as [|? ? P1 P2]; subst.
  destruct (same g r) eqn:Sg.
  - assert (forall y, In y L -> same y r = false) as Q.
    { intros y Y. rewrite same_sym. rewrite <- (same_trans_eq g r y Sg). auto. }
    rewrite join_last_none by auto. rewrite compare_same by auto. rewrite Sg.
    rewrite (set_of_same rs g r d Sg D). do 2 f_equal. apply map_ext_in. intros y Y. symmetry. apply set_of_diff. auto.
  - destruct I as [->|I]; [congruence|]. rewrite IH; eauto. rewrite (set_of_diff rs g r Sg). reflexivity.
Qed.

Lemma existsb_sym : forall r rs, existsb (same r) rs = true <-> exists x, In x rs /\ same x r = true.
Proof. intros. rewrite existsb_exists. split; intros (x & A & B); exists x; rewrite same_sym; auto. Qed.

Lemma leaders_valid : forall rs, Forall (fun r => valid_labels (s_name r)) rs -> Forall (fun r => valid_labels (s_name r)) (leaders [] rs).
Proof. intros rs F. rewrite Forall_forall in *. intros x H. apply leaders_incl in H as [H _]. auto. Qed.

(** Inserting one more RR into a (non-question) section. *)
Lemma insert_section : forall rs r d sec, Forall (fun r => valid_labels (s_name r)) rs -> valid_labels (s_name r) -> s_data r = Some d -> sec <> 0 ->
  insert_rr (section_of rs) (rr_of r) sec = Ok (section_of (rs ++ [r])).
Proof.
  intros rs r d sec F V D Hs. unfold insert_rr. replace (sec =? 0) with false by lia.
  assert (rr_rdata (rr_of r) = Some (stored d)) as -> by (cbn [rr_of rr_rdata]; rewrite D; auto).
  unfold section_of. cbn [a_rrs a_rrsets]. rewrite map_app. cbn [map]. do 2 f_equal.
  rewrite leaders_app. cbn [app leaders].
  destruct (existsb (same r) rs) eqn:E.
  - rewrite app_nil_r. rewrite (join_last_some r d rs); auto using leaders_valid, leaders_diff.
    apply existsb_sym in E as (x & X & S). destruct (leaders_cover rs [] x X eq_refl) as (l & L1 & L2).
    exists l. split; auto. rewrite (same_trans_eq l x r L2). auto.
  - assert (forall g, In g rs -> same g r = false) as Q.
    { intros g G. destruct (same g r) eqn:S; auto. rewrite <- E. symmetry. apply existsb_sym. eauto. }
    rewrite join_last_none; auto using leaders_valid.
    2: intros g G; apply leaders_incl in G as [G _]; auto.
    rewrite map_app. cbn [map]. f_equal.
    + apply map_ext_in. intros g G. apply leaders_incl in G as [G _]. symmetry. apply set_of_diff. auto.
    + unfold set_of. rewrite members_app, (members_none r rs E). unfold members. cbn [filter app]. rewrite same_refl.
      cbn [map]. unfold min_ttl. cbn [map fold_right]. rewrite Z.min_id. unfold data_of. rewrite D. reflexivity.
Qed.

Lemma insert_question : forall rs r, s_data r = None ->
  insert_rr (question_of rs) (rr_of r) 0 = Ok (question_of (rs ++ [r])).
Proof.
  intros rs r D. unfold insert_rr. cbn [Z.eqb]. unfold question_of. cbn [a_rrs a_rrsets]. rewrite !map_app. cbn [map].
  destruct r as [n t c l d]. cbn [s_data] in D. subst d. reflexivity.
Qed.

(** ** The whole message, one entry after the other. *)
Definition entry_valid (e : Z * srr) : Prop :=
  0 <= fst e <= 3 /\ valid_labels (s_name (snd e)) /\ 0 <= s_ttl (snd e) < 2^32 /\ (s_data (snd e) = None <-> fst e = 0).

Lemma first_opt_app : forall a b, first_opt (a ++ b) = match first_opt a with Some r => Some r | None => first_opt b end.
Proof. induction a as [|[k r] a IH]; intros b; auto. cbn [app first_opt]. destruct (is_opt r); auto. Qed.
Lemma without_opt_app : forall a b, without_first_opt (a ++ b) =
  match first_opt a with Some _ => without_first_opt a ++ b | None => a ++ without_first_opt b end.
Proof.
  induction a as [|[k r] a IH]; intros b; auto. cbn [app first_opt without_first_opt]. destruct (is_opt r); auto.
  rewrite IH. destruct (first_opt a); reflexivity.
Qed.
Lemma without_opt_none : forall a, first_opt a = None -> without_first_opt a = a.
Proof. induction a as [|[k r] a IH]; auto. cbn. destruct (is_opt r); [discriminate|]. intros. rewrite IH; auto. Qed.

Lemma in_section_app : forall k a b, in_section k (a ++ b) = in_section k a ++ in_section k b.
Proof. intros. unfold in_section. rewrite filter_app, map_app. reflexivity. Qed.

Lemma without_opt_incl : forall a e, In e (without_first_opt a) -> In e a.
Proof. induction a as [|[k r] a IH]; intros e; auto. cbn. destruct (is_opt r); cbn; intuition. Qed.

Lemma in_section_valid : forall k l, Forall entry_valid l -> Forall (fun r => valid_labels (s_name r)) (in_section k l).
Proof.
  intros k l F. rewrite Forall_forall in *. intros r R. unfold in_section in R. apply in_map_iff in R as ([k' r'] & E & R). cbn in E. subst.
  apply filter_In in R as [R _]. apply F in R as (_ & V & _). auto.
Qed.

(** One step of the loop body of parse_message.c on the RR. *)
Definition take_rr (sec : Z) (m : message) (r : rr) : outcome message :=
  if (rr_type r =? 41) && negb (e_present (m_edns m)) then Ok (parse_edns m r)
  else (a <- insert_rr (get_sec m sec) r sec ;; Ok (set_sec m sec a)).

Lemma land_255 : forall x, Z.land x 255 = x mod 256.
Proof. intros. change 255 with (Z.ones 8). rewrite Z.land_ones by lia. reflexivity. Qed.
Lemma land_65535 : forall x, Z.land x 65535 = x mod 65536.
Proof. intros. change 65535 with (Z.ones 16). rewrite Z.land_ones by lia. reflexivity. Qed.
Lemma land_15 : forall x, Z.land x 15 = x mod 16.
Proof. intros. change 15 with (Z.ones 4). rewrite Z.land_ones by lia. reflexivity. Qed.

Lemma lor_add : forall a b n, 0 <= n -> 0 <= a < 2 ^ n -> 0 <= b -> Z.lor a (2 ^ n * b) = a + 2 ^ n * b.
Proof.
  intros a b n Hn Ha Hb. assert (Z.land a (2 ^ n * b) = 0) as L; [|rewrite <- Z.lxor_lor by auto; symmetry; apply Z.add_nocarry_lxor; auto]. apply Z.bits_inj'. intros i Hi. rewrite Z.land_spec, Z.bits_0, (Z.mul_comm (2 ^ n)).
  destruct (Z_lt_ge_dec i n).
  - rewrite Z.mul_pow2_bits_low by lia. apply andb_false_r.
  - destruct (Z.eq_dec a 0) as [->|]; [rewrite Z.bits_0; auto|].
    assert (Z.log2 a < n) by (apply Z.log2_lt_pow2; lia). rewrite (Z.bits_above_log2 a) by lia. reflexivity.
Qed.

Lemma ext_rcode : forall t, 0 <= t < 2 ^ 32 -> Z.land (Z.shiftr t 16) 65280 = 256 * (t / 16777216).
Proof.
  intros t H. rewrite Z.shiftr_div_pow2 by lia. change (2 ^ 16) with 65536.
  assert (0 <= t / 65536 < 65536) as B by (split; [apply Z.div_pos; lia|apply Z.div_lt_upper_bound; lia]).
  assert (t / 16777216 = t / 65536 / 256) as -> by (rewrite Z.div_div by lia; reflexivity).
  set (y := t / 65536) in *. clearbody y. change 65280 with (Z.shiftl 255 8). 
  assert (y = Z.lor (y mod 256) (2 ^ 8 * (y / 256))) as E.
  { rewrite lor_add; [pose proof (Z.div_mod y 256); lia|lia|apply Z.mod_pos_bound; lia|apply Z.div_pos; lia]. }
  apply Z.bits_inj'. intros i Hi. rewrite Z.land_spec.
  change 256 with (2 ^ 8). rewrite (Z.mul_comm (2 ^ 8)), Z.shiftl_spec by lia.
  destruct (Z_lt_ge_dec i 8).
  - rewrite Z.mul_pow2_bits_low by lia. rewrite (Z.testbit_neg_r 255) by lia. apply andb_false_r.
  - rewrite Z.mul_pow2_bits by lia. rewrite Z.div_pow2_bits by lia. replace (i - 8 + 8) with i by lia.
    destruct (Z_lt_ge_dec i 16).
    + replace (Z.testbit 255 (i - 8)) with true; [apply andb_true_r|]. change 255 with (Z.ones 8). symmetry. apply Z.ones_spec_low. lia.
    + destruct (Z.eq_dec y 0) as [->|]; [rewrite !Z.bits_0; auto|].
      assert (Z.log2 y < 16) by (apply Z.log2_lt_pow2; lia). rewrite (Z.bits_above_log2 y) by lia. reflexivity.
Qed.

Lemma rcode_step : forall f t, 0 <= t < 2 ^ 32 -> Z.lor (f mod 16 + 0) (Z.land (Z.shiftr t 16) 65280) = f mod 16 + 256 * (t / 16777216).
Proof.
  intros f t H. rewrite ext_rcode by auto. rewrite Z.add_0_r. change 256 with (2 ^ 8) at 1. rewrite lor_add; auto; try lia.
  - pose proof (Z.mod_pos_bound f 16). lia.
  - apply Z.div_pos; lia.
Qed.

Lemma in_section_one : forall k e, in_section k [e] = if fst e =? k then [snd e] else [].
Proof. intros. unfold in_section. cbn [filter]. destruct (fst e =? k); reflexivity. Qed.

Lemma insert_any : forall l sec r, Forall entry_valid l -> entry_valid (sec, r) ->
  insert_rr (if sec =? 0 then question_of (in_section 0 l) else section_of (in_section sec l)) (rr_of r) sec =
  Ok (if sec =? 0 then question_of (in_section 0 l ++ [r]) else section_of (in_section sec l ++ [r])).
Proof.
  intros l sec r F (B & V & T & D). cbn [fst snd] in *. destruct (sec =? 0) eqn:E.
  - assert (sec = 0) as -> by lia. apply insert_question. apply D. auto.
  - destruct (s_data r) as [d|] eqn:Dr; [|exfalso; assert (sec = 0) by (apply D; auto); lia].
    apply (insert_section _ r d); auto; [apply in_section_valid; auto|lia].
Qed.

Lemma take_step : forall id flags l sec r, Forall entry_valid l -> entry_valid (sec, r) ->
  take_rr sec (parsed_entries id flags l) (rr_of r) = Ok (parsed_entries id flags (l ++ [(sec, r)])).
Proof.
  intros id flags l sec r F E. pose proof E as (B & V & T & D). cbn [fst snd] in *.
  assert (forall rest, Forall entry_valid rest ->
     (a <- insert_rr (get_sec (parsed_entries id flags l) sec) (rr_of r) sec ;; Ok (set_sec (parsed_entries id flags l) sec a)) =
     Ok (set_sec (parsed_entries id flags l) sec (if sec =? 0 then question_of (in_section 0 (without_first_opt l) ++ [r]) else section_of (in_section sec (without_first_opt l) ++ [r])))) as K.
  { intros rest _. assert (Forall entry_valid (without_first_opt l)) as F' by (rewrite Forall_forall in *; intros; apply F; apply without_opt_incl; auto).
    pose proof (insert_any (without_first_opt l) sec r F' E) as I.
    assert (get_sec (parsed_entries id flags l) sec = if sec =? 0 then question_of (in_section 0 (without_first_opt l)) else section_of (in_section sec (without_first_opt l))) as ->.
    { unfold get_sec, parsed_entries. cbn [m_qd m_an m_ns m_ar].
      assert (sec = 0 \/ sec = 1 \/ sec = 2 \/ sec = 3) as [-> | [-> | [-> | ->]]] by lia; reflexivity. }
    rewrite I. reflexivity. }
  specialize (K l F).
  assert (forall rest', without_first_opt (l ++ [(sec, r)]) = without_first_opt l ++ [(sec, r)] -> first_opt (l ++ [(sec, r)]) = first_opt l -> rest' = tt ->
    set_sec (parsed_entries id flags l) sec (if sec =? 0 then question_of (in_section 0 (without_first_opt l) ++ [r]) else section_of (in_section sec (without_first_opt l) ++ [r])) =
    parsed_entries id flags (l ++ [(sec, r)])) as K2.
  { intros _ W O _. unfold parsed_entries. rewrite W, O. unfold set_sec. cbn [m_qd m_an m_ns m_ar m_edns m_id m_flags m_rcode].
    rewrite !in_section_app, !in_section_one. cbn [fst snd].
    assert (sec = 0 \/ sec = 1 \/ sec = 2 \/ sec = 3) as [-> | [-> | [-> | ->]]] by lia; cbn [Z.eqb]; rewrite ?app_nil_r; reflexivity. }
  specialize (K2 tt).
  unfold take_rr. change (rr_type (rr_of r) =? 41) with (is_opt r).
  unfold parsed_entries at 1. cbn [m_edns].
  pose proof (first_opt_app l [(sec, r)]) as FO. pose proof (without_opt_app l [(sec, r)]) as WO.
  cbn [first_opt without_first_opt] in FO, WO.
  destruct (first_opt l) as [o|] eqn:Ol.
  - cbn [edns_of e_present negb]. rewrite andb_false_r. rewrite K. f_equal. apply K2; auto.
  - cbn [edns_of e_present negb]. rewrite andb_true_r. destruct (is_opt r) eqn:Or.
    + unfold parsed_entries. rewrite FO, WO, Ol. rewrite app_nil_r, (without_opt_none l) by auto.
      unfold parse_edns. cbn [m_qd m_an m_ns m_ar m_edns m_id m_flags m_rcode edns_of rr_of rr_ttl rr_class rr_rdata].
      rewrite land_255, land_65535, Z.shiftr_div_pow2 by lia. change (2 ^ 16) with 65536.
      unfold rcode_of. rewrite <- rcode_step by auto. rewrite Z.shiftr_div_pow2 by lia. change (2 ^ 16) with 65536. reflexivity.
    + rewrite K. f_equal. apply K2; auto. rewrite WO. rewrite (without_opt_none l) by auto. reflexivity.
Qed.
