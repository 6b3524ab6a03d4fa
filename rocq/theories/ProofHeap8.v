(** ProofHeap8.v: the text of whole messages: printable lines only. *)
From Verif Require Import Base Lib SpecSane ModelName SpecName ModelDescr ModelParse Libc ModelFormat SpecFormat SpecTables ModelTables ModelToStr SpecText ProofFormat ProofTables ProofPrint ProofVisible ProofSafe SpecMessage
  SpecMsgText ProofSafe2 ProofMsgText ProofFromSafe.

Lemma newline_lines : printable_lines [10].
Proof. constructor; [right; reflexivity|constructor]. Qed.

Lemma rr_lines : forall u r sec t, printable_lines u -> sane_rr r -> rr_to_ubuf u r sec = Ok t -> exists s, t = s ++ [10] /\ printable_lines s.
Proof.
  intros u r sec t PU ((BN & BNL) & TT & RT & RC & D) E.
  assert (DN : exists name k, domain_to_str (rr_name r) (zlen (rr_name r)) = Ok (name, k)). { unfold rr_to_ubuf in E. apply bind_ok in E as ([name k] & X & _). eauto. }
  destruct DN as (name & k & DN). pose proof (domain_printable _ _ _ _ BN DN) as PN. pose proof (cname_printable _ RC) as PC. pose proof (tname_printable _ RT) as PT.
  destruct (Z.eq_dec sec 0) as [-> |S].
  - rewrite (rr_question u r name k DN) in E. injection E as <-. exists (u ++ [59] ++ name ++ [32] ++ cname (rr_class r) ++ [32] ++ tname (rr_type r)).
    split; [rewrite <- !app_assoc; cbn [app]; rewrite <- ?app_assoc; reflexivity|]. apply lines_app. split; [exact PU|]. apply printable_lines_of. pr.
  - rewrite (rr_record u r sec name k S TT DN) in E. destruct (rr_rdata r) as [d|] eqn:ED; [|discriminate]. destruct (D d eq_refl) as [BD LD]. apply bind_ok in E as (s & E & X). injection X as <-. exists s. split; [auto|].
    assert (PH : printable (record_head name r ++ [32])). { unfold record_head. assert (printable (fmt_u (rr_ttl r))) by (apply fmt_u_printable; change (10 ^ 20) with 100000000000000000000; change (2 ^ 32) with 4294967296 in TT; lia). pr. }
    destruct (Z.eq_dec (rr_type r) 41) as [T|T].
    + rewrite T in E. destruct (opt_safe (u ++ record_head name r ++ [32]) d [] (rr_class r)) as (s' & E' & P').
      * apply lines_app. split; [exact PU|apply printable_lines_of; exact PH].
      * exact BD. * constructor. * exact LD.
      * rewrite app_nil_r in E'. congruence.
    + rewrite app_assoc in E. destruct (rdata_appends (u ++ record_head name r) d (zlen d) (rr_type r) (rr_class r)) as (b & A). rewrite A in E.
      apply bind_ok in E as (o & EO & E). injection E as <-.
      assert (NE : ~ ends_in_name (format_of (rr_type r) (rr_class r)) d). { intros X. rewrite rdata_cut in EO; auto. discriminate. }
      destruct (rdata_safe [] d [] (rr_type r) (rr_class r) T ltac:(constructor) BD ltac:(constructor) LD NE) as (s' & E' & P'). rewrite app_nil_r in E'.
      assert (s' = o) by congruence. subst s'. apply printable_app in PH as (PH & _).
      assert (PB : printable_lines (u ++ record_head name r)) by (apply lines_app; split; [exact PU|apply printable_lines_of; exact PH]).
      destruct (b o); [exact PB|]. apply lines_app. split; [exact PB|]. apply printable_lines_of. pr.
Qed.

Lemma rrs_lines : forall rs u sec t, printable_lines u -> Forall sane_rr rs -> rrs_to_ubuf u rs sec = Ok t -> printable_lines t.
Proof.
  induction rs as [|r rs IH]; intros u sec t PU F E; cbn [rrs_to_ubuf] in E; [injection E as <-; exact PU|].
  apply bind_ok in E as (v & V & E). apply Forall_cons_iff in F as (FR & F). destruct (rr_lines u r sec v PU FR V) as (s & -> & P).
  eapply IH; [|exact F|exact E]. apply lines_app. split; [exact P|]. exact newline_lines.
Qed.

(** ** Messages *)
Lemma small_printable : forall n, 0 <= n < 65536 -> printable (fmt_u n).
Proof. intros n H. apply fmt_u_printable. change (10 ^ 20) with 100000000000000000000. lia. Qed.
Lemma rcode_printable : forall c s, rcode_to_str c = Some s -> printable s.
Proof. intros c s E. apply (table_registry _ _ _ rcodes_ok) in E. apply visible_printable. eapply (mnemonic_visible iana_rcodes); eauto; vm_compute; reflexivity. Qed.
Lemma opcode_printable : forall c s, opcode_to_str c = Some s -> printable s.
Proof.
  intros c s E. pose proof (opcode_table c) as T. rewrite E in T. apply visible_printable. eapply (mnemonic_visible iana_opcodes); eauto; vm_compute; reflexivity.
Qed.
Lemma on_printable : forall b s, printable s -> printable (on b s).
Proof. intros [] s P; [exact P|constructor]. Qed.

Lemma header_lines_ok : forall m, sane_msg m -> printable_lines (header_text m).
Proof.
  intros m (I & F & R & _ & _ & _ & _ & (_ & _ & A0 & _) & (_ & _ & A1 & _) & (_ & _ & A2 & _) & (_ & _ & A3 & _)). unfold header_text. cbv zeta.
  assert (PO : printable (opcode_text m)).
  { unfold opcode_text. destruct (opcode_to_str _) eqn:E; [eapply opcode_printable; exact E|]. apply small_printable. rewrite opcode_value. pose proof (Z.mod_pos_bound (m_flags m / 2048) 16 ltac:(lia)). lia. }
  assert (PR : printable (rcode_text m)).
  { unfold rcode_text. destruct (rcode_to_str _) eqn:E; [eapply rcode_printable; exact E|]. apply small_printable. lia. }
  pose proof (small_printable _ I) as PI. 
  pose proof (small_printable _ (conj (zlen_nonneg _ (a_rrs (m_qd m))) A0)) as P0. pose proof (small_printable _ (conj (zlen_nonneg _ (a_rrs (m_an m))) A1)) as P1.
  pose proof (small_printable _ (conj (zlen_nonneg _ (a_rrs (m_ns m))) A2)) as P2. pose proof (small_printable _ (conj (zlen_nonneg _ (a_rrs (m_ar m))) A3)) as P3.
  assert (NL : printable_lines [10]) by (exact newline_lines).
  repeat (apply lines_app; split); try exact NL; apply printable_lines_of; try assumption; try plit; try (apply on_printable; plit).
Qed.

Lemma skip_delim_lines : forall c s, printable_lines s -> printable_lines (skip_delim c s).
Proof. intros c s P. induction s as [|x s IH]; cbn [skip_delim]; auto. destruct (x =? c); [|exact P]. apply IH. inversion P; auto. Qed.
Lemma split_at_lines : forall f s a b, printable_lines s -> split_at f s = (a, b) -> printable_lines a /\ printable_lines b.
Proof. intros f s a b P E. apply split_at_eq in E as (-> & _). apply lines_app. exact P. Qed.
Lemma opt_lines_lines : forall fuel s o, printable_lines s -> opt_lines fuel s = Ok o -> printable_lines o.
Proof.
  induction fuel as [|k IH]; intros s o P E; [discriminate|]. cbn [opt_lines] in E. unfold strtok in E. pose proof (skip_delim_lines 10 s P) as PS.
  destruct (skip_delim 10 s) as [|c s'] eqn:ES; [injection E as <-; constructor|].
  destruct (split_at (fun c => c =? 10) (c :: s')) as (t, r) eqn:SP. apply (split_at_lines _ _ _ _ PS) in SP as (PT & PR).
  apply bind_ok in E as (o' & E & X). injection X as <-.
  assert (PO : printable_lines o') by (eapply IH; [|exact E]; destruct r as [|x r]; [constructor|inversion PR; auto]).
  constructor; [right; reflexivity|]. constructor; [left; lia|]. constructor; [left; lia|]. apply lines_app. auto.
Qed.

Lemma edns_lines : forall m e, sane_msg m -> edns_text (m_edns m) = Ok e -> printable_lines e.
Proof.
  intros m e (_ & _ & _ & V & _ & S & O & _) E. unfold edns_text in E. destruct (negb _); [injection E as <-; constructor|].
  apply bind_ok in E as (o & EO & E). match type of E with Ok ?x = Ok _ => assert (X : e = x) by congruence end. rewrite X. clear X E.
  assert (PO : printable_lines o).
  { destruct (e_options (m_edns m)) as [d|]; [|injection EO as <-; constructor]. destruct (O d eq_refl) as (BD & LD).
    apply bind_ok in EO as (t & ET & EO). destruct (opt_safe [] d [] class_un ltac:(constructor) BD ltac:(constructor) LD) as (t' & ET' & PT). rewrite app_nil_r in ET'.
    assert (t' = t) by congruence. subst t'. eapply opt_lines_lines; eauto. }
  pose proof (small_printable (e_version (m_edns m)) ltac:(lia)). pose proof (small_printable _ S).
  assert (NL : printable_lines [10]) by (exact newline_lines).
  repeat (apply lines_app; split); try exact NL; try exact PO; apply printable_lines_of; try assumption; try plit; try (apply on_printable; plit).
Qed.

Theorem message_lines : forall m t, sane_msg m -> message_to_str m = Ok t -> printable_lines t /\ exists s, t = s ++ [10].
Proof.
  intros m t S E. pose proof (header_lines_ok m S) as PH. unfold message_to_str in E.
  apply bind_ok in E as (e & EE & E). pose proof (edns_lines m e S EE) as PE. cbv zeta in E.
  apply bind_ok in E as (u1 & E1 & E). apply bind_ok in E as (u2 & E2 & E). apply bind_ok in E as (u3 & E3 & E).
  destruct S as (_ & _ & _ & _ & _ & _ & _ & (S0 & _) & (S1 & _) & (S2 & _) & (S3 & _)). unfold rrset_array_to_ubuf in *.
  assert (NL : printable_lines [10]) by (exact newline_lines).
  apply rrs_lines in E1; [|repeat first [assumption|apply lines_app; split]; apply printable_lines_of; plit|exact S0].
  apply rrs_lines in E2; [|repeat first [assumption|apply lines_app; split]; apply printable_lines_of; plit|exact S1].
  apply rrs_lines in E3; [|repeat first [assumption|apply lines_app; split]; apply printable_lines_of; plit|exact S2].
  split; [eapply rrs_lines; [|exact S3|exact E]; repeat first [assumption|apply lines_app; split]; apply printable_lines_of; plit|].
  assert (G : forall rs u sec v, (exists s, u = s ++ [10]) -> rrs_to_ubuf u rs sec = Ok v -> exists s, v = s ++ [10]).
  { clear. induction rs as [|r rs IH]; intros u sec v U E; cbn [rrs_to_ubuf] in E; [injection E as <-; exact U|].
    apply bind_ok in E as (w & W & E). eapply IH; [|exact E]. unfold rr_to_ubuf in W. apply bind_ok in W as ([name k] & _ & W). apply bind_ok in W as (tt1 & _ & W). apply bind_ok in W as (y & _ & W). injection W as <-. eauto. }
  eapply G; [|exact E]. eexists. rewrite !app_assoc. reflexivity.
Qed.
Lemma lines_no_nul : forall s, printable_lines s -> ~ In 0 s.
Proof. intros s P I. unfold printable_lines in P. rewrite Forall_forall in P. apply P in I. lia. Qed.
