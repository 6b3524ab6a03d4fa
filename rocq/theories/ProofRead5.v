(** ProofRead5.v: all fields and the generic form, exactly. *)
From Verif Require Import Base Lib SpecName SpecStrName SpecMessage SpecFormat SpecText SpecRead Libc ModelName ModelFormat ModelTables ModelDescr ModelFromStr.
From Verif Require Import ProofUnpack ProofFormat ProofRdata ProofField ProofFromStr ProofFromSafe ProofSafe ProofRead1 ProofRead2 ProofRead3 ProofRead4.

Lemma parse_nil : forall ts, parse_text_fields ts (Some []) = Ok [].
Proof. destruct ts; reflexivity. Qed.
Lemma parse_norm : forall ts e, parse_text_fields ts e = parse_text_fields ts (Some (norm e)).
Proof. intros ts [e|]; [reflexivity|]. rewrite parse_nil. destruct ts; reflexivity. Qed.

Lemma fields_iff : forall ts s l, ends_ok ts = true -> ~ In rdf_edns_opt_rdata ts -> SpecName.c_string s ->
  (parse_text_fields ts (Some s) = Ok l <-> reads_fields (combine (map fmt_of ts) (map pres_of ts)) s l).
Proof.
  induction ts as [|t ts IH]; intros s l EN NE CS.
  - cbn [parse_text_fields map combine]. split; [intros H; injection H as <-; constructor|]. intros H. inversion H; reflexivity.
  - assert (NE' : ~ In rdf_edns_opt_rdata ts) by (intros X; apply NE; right; auto).
    assert (NE1 : t <> rdf_edns_opt_rdata) by (intros ->; apply NE; left; auto).
    apply ends_tail in EN as [EN LAST]. cbn [parse_text_fields map combine]. destruct (skip_space s) as [|c r] eqn:SK.
    { apply skip_space_nil in SK. split; [intros H; injection H as <-; apply rs_missing; auto|]. intros H. inversion H as [|? ? F|? ? ? w c0 s0 ? ? ? W N RF RS]; subst; auto. apply Forall_app in SK as [_ SK]. inversion SK; contradiction. }
    pose proof (skip_suffix s) as SS. rewrite SK in SS. destruct (skip_space_split _ _ _ SK) as (w & EQ & FW & NW). assert (W : isspace c = false) by (apply white_isspace; auto).
    assert (CS' : SpecName.c_string (c :: r)) by (eapply c_string_suffix; eauto).
    assert (REST : forall o e, parse_text_field t (c :: r) = Ok (o, e) -> forall l', parse_text_fields ts e = Ok l' <-> reads_fields (combine (map fmt_of ts) (map pres_of ts)) (skipped t e) l').
    { intros o e PF l'. unfold skipped. destruct (to_end (fmt_of t)) eqn:TE.
      - destruct ts as [|t2 ts]; [|exfalso; assert (t2 :: ts <> []) as Q by discriminate; apply LAST in Q; congruence]. cbn [parse_text_fields map combine]. split; [intros H; injection H as <-; constructor|]. intros H. inversion H; reflexivity.
      - rewrite parse_norm. apply IH; auto. apply field_rest in PF. destruct e as [e|]; cbn [norm]; [|constructor]. cbn in PF. eapply c_string_suffix; eauto. }
    split.
    + intros H. apply bind_ok in H as ([o e] & PF & H). apply bind_ok in H as (o' & PR & H). injection H as <-. rewrite EQ. apply rs_field with (e := skipped t e); auto.
      * apply field_iff; eauto.
      * apply (REST o e PF); auto.
    + intros H. inversion H as [|fs0 s0 F|f p fs w' c' r' o e o' FW' NW' RF RS Q1 Q2 Q3]; subst fs0 || subst f p fs; subst.
      { exfalso. apply Forall_app in F as [_ F]. inversion F; contradiction. }
      assert (E2 : skip_space (w' ++ c' :: r') = c' :: r') by (apply skip_space_app; auto). 
      assert (E3 : c' :: r' = c :: r). { rewrite Q2 in E2. rewrite SK in E2. congruence. }
      injection E3 as -> ->. apply field_iff in RF as (e' & PF & ->); auto. rewrite PF. cbn [bind]. apply (REST o e' PF) in RS. rewrite RS. reflexivity.
Qed.

Lemma split_space : forall s t e, split_at isspace s = (t, e) -> s = t ++ e /\ Forall (fun c => ~ white c) t /\ (e = [] \/ exists c r, e = c :: r /\ white c).
Proof.
  intros s t e H. apply split_at_eq in H as (E & H & F). split; auto. split; [eapply Forall_impl; [|exact F]; intros x X; apply white_isspace; auto|].
  destruct H as [->|(c & r & -> & W)]; auto. right. exists c, r. split; auto. apply white_iff; auto.
Qed.
Lemma generic_iff : forall s l, str_to_generic_rdata s = Ok l <-> reads_generic s l.
Proof.
  intros s l. unfold str_to_generic_rdata. split.
  - intros H. destruct s as [|a [|b s]]; [discriminate|cbn [prefix_eq] in H; rewrite andb_false_r in H; discriminate|].
    destruct (negb (prefix_eq [92; 35] (a :: b :: s))) eqn:P; [discriminate|]. cbn [prefix_eq] in P. apply negb_false_iff in P.
    assert (a = 92 /\ b = 35) as [-> ->] by lia. cbn [skipn] in H.
    destruct s as [|c s]; [discriminate|]. destruct (isspace c) eqn:W; [|discriminate]. cbn [negb] in H.
    destruct (skip_space (c :: s)) as [|d q] eqn:SK.
    { exfalso. cbn in H. discriminate. }
    destruct (skip_space_split _ _ _ SK) as (w & EQ & FW & NW). destruct (split_at isspace (d :: q)) as [t e] eqn:SP. apply split_space in SP as (EQ2 & FT & EE).
    destruct (forallb is_digit t) eqn:D; [|discriminate]. cbn [negb] in H. apply digits_forall in D.
    assert (NT : t <> []). { intros ->. cbn [app] in EQ2. destruct EE as [->|(x & y & -> & X)]; [discriminate|]. injection EQ2 as -> ->. contradiction. }
    rewrite EQ2 in H. rewrite scan_u_word in H; auto. 2:{ destruct EE as [->|(x & y & -> & X)]; [exact I|]. unfold no_digit_head, digit. unfold white in X. lia. }
    cbn [bind] in H. apply bind_ok in H as (o & G & H). destruct (zlen o =? _) eqn:L; [|discriminate]. cbn [negb] in H. injection H as <-.
    apply generic_octets_iff in G; [|lia]. rewrite EQ, EQ2. apply rg with (v := dec_value t); auto.
    + intros ->. cbn [app] in EQ. injection EQ as -> ->. apply NW. apply white_iff. auto.
    + split; auto.
    + apply Z.eqb_eq in L. exact L.
  - intros H. inversion H as [w d h v l0 NW FW (ND & FD & ->) HH LH L]; subst. cbn [prefix_eq]. change (92 =? 92) with true. change (35 =? 35) with true. cbn [andb negb skipn].
    destruct w as [|c w]; [congruence|]. cbn [app]. inversion FW as [|? ? Wc FW']; subst. rewrite (proj1 (white_iff c) Wc). cbn [negb].
    change (c :: w ++ d ++ h) with ((c :: w) ++ d ++ h). destruct d as [|x d]; [congruence|]. pose proof (Forall_inv FD) as DX. assert (NX : ~ white x) by (unfold digit in DX; unfold white; lia).
    cbn [app]. change (c :: w ++ x :: d ++ h) with ((c :: w) ++ x :: d ++ h). rewrite skip_space_app by auto. change (x :: d ++ h) with ((x :: d) ++ h).
    rewrite (split_at_app isspace (x :: d) h).
    2:{ eapply Forall_impl; [|exact FD]. intros y Y. unfold digit in Y. unfold isspace. lia. }
    2:{ destruct HH as [->|(y & z & -> & Y)]; auto. right. exists y, z. split; auto. apply white_iff. auto. }
    rewrite (proj2 (digits_forall (x :: d)) FD). cbn [negb]. rewrite scan_u_word; [|discriminate|exact FD|].
    2:{ destruct HH as [->|(y & z & -> & Y)]; [exact I|]. unfold no_digit_head, digit. unfold white in Y. lia. }
    cbn [bind]. rewrite (proj2 (generic_octets_iff (S (length h)) h l ltac:(lia)) LH). cbn [bind]. rewrite L, Z.eqb_refl. reflexivity.
Qed.
