(** ProofMsgText.v: the text of RRs and messages; printing what the parser returned. *)
From Coq Require Strings.String.
From Verif Require Import Base Lib SpecName SpecMessage SpecEncode SpecParsed SpecFormat SpecTables SpecText SpecMsgText Libc ModelName ModelFormat ModelTables ModelDescr ModelToStr ModelParse
  ProofUnpack ProofCopy ProofNameStr ProofNameOps ProofFormat ProofInet ProofInet6 ProofB64 ProofB32 ProofTables ProofRdata ProofPrint ProofPrint2 ProofField ProofVisible ProofEncode ProofRdataText
  ProofFromStr ProofBitmap ProofSvc ProofRoundTrip ProofSafe ProofSafe2 ProofOptions ProofMessage.

(** ** Rdata of a message is well-formed; well-formed rdata does not stop inside a name *)
Lemma rdata_at_zero : forall m fs i vs, rdata_at m fs i 0 vs -> vs = [].
Proof.
  intros m fs i vs H. inversion H as [|fs' i' n ls e vs' D L X E R|f fs' i' n l vs' O A Z TE R]; subst; auto; exfalso; [pose proof (extent_pos _ _ _ X); lia|lia].
Qed.
Lemma rdata_at_wf : forall m fs i n vs, bytes_ok m -> rdata_at m fs i n vs -> wf_values fs vs.
Proof.
  intros m fs i n vs B H. induction H as [|fs i n ls e vs D L X E R IH|f fs i n l vs O A Z TE R IH]; [constructor| |].
  - apply wv_name; [|auto]. split; [eapply denotes_valid; eauto|auto].
  - apply wv_octets; auto.
    + eapply octets_at_bytes; eauto.
    + intros ->. cbn in Z. lia.
    + intros T. rewrite (TE T) in R. replace (n - n) with 0 in R by lia. eapply rdata_at_zero; eauto.
Qed.

Lemma front_value : forall f v v' x y, to_end f = false -> 
  holds f v -> holds f v' -> canon1 v ++ x = canon1 v' ++ y -> x = y.
Proof.
  intros f v v' x y T H H' E. destruct v as [ls|l], v' as [ls'|l']; cbn [holds canon1] in *.
  - destruct H as [-> [V _]], H' as [_ [V' _]]. eapply (wire_inj_app ls ls'); eauto.
  - destruct H as [-> _], H' as [[] _].
  - destruct H' as [-> _], H as [[] _].
  - destruct H as [H _], H' as [H' _]. destruct f; cbn [to_end] in T; try discriminate; cbn [field_octets] in *.
    + destruct H.
    + apply app_zlen_inj in E; [tauto|lia].
    + destruct H as (s & _ & ->), H' as (s' & _ & ->). unfold char_string in E. cbn [app] in E. injection E as L E. apply app_zlen_inj in E; tauto.
    + destruct H as (p & a & _ & L & ->), H' as (p' & a' & _ & L' & ->). cbn [app] in E. injection E as -> E. apply app_zlen_inj in E; [tauto|lia].
Qed.

Lemma wf_holds : forall f v fs vs, wf_values (f :: fs) (v :: vs) -> holds f v /\ wf_values fs vs.
Proof. intros f v fs vs W. inversion W; subst; cbn [holds]; auto. Qed.

Lemma wf_not_cut : forall ts vs, ends_ok ts = true -> wf_values (map fmt_of ts) vs -> ~ ends_in_name (map fmt_of ts) (canon vs).
Proof.
  intros ts vs EO W (before & after & vs' & ls & F1 & F2 & F3 & F4 & F5 & F6). change (Forall2 holds before vs') in F2. revert vs ts EO W F1 F6. induction F2 as [|f v' before vs' H F2 IH]; intros vs ts EO W F1 F6.
  - destruct ls as [|l ls]; [congruence|]. cbn [canon map concat app] in F6. destruct vs as [|v vs]; [discriminate|]. rewrite F1 in W. cbn [app] in W.
    inversion W as [|? ns ? VN W'|f fs o vs'' FO]; subst; [|destruct FO].
    assert (X : wire ns ++ canon vs ++ [0] = wire (l :: ls) ++ []). { unfold canon in F6. cbn [map concat canon1] in F6. rewrite app_assoc. change (concat (map canon1 vs)) with (canon vs) in F6. rewrite F6. rewrite app_nil_r. reflexivity. }
    apply wire_inj_app in X as [_ X]; [|apply VN|auto]. destruct (canon vs); discriminate.
  - destruct ts as [|t ts]; [discriminate|]. cbn [map app] in F1. injection F1 as FT F1. destruct (ends_tail _ _ EO) as [EO' TE].
    assert (T : to_end f = false). { rewrite <- FT. apply TE. intros ->. destruct before; discriminate. }
    destruct vs as [|v vs].
    { assert (NE : canon1 v' <> []). { destruct v' as [ns|o]; cbn [canon1]; [destruct ns; discriminate|apply H]. } unfold canon in F6. cbn [map concat] in F6. destruct (canon1 v'); [congruence|discriminate]. }
    cbn [map] in W. rewrite FT in W. apply wf_holds in W as [HV W].
    unfold canon in F6. cbn [map concat] in F6. rewrite <- app_assoc in F6. apply (front_value f) in F6; auto. apply (IH vs ts); auto.
Qed.
Lemma wf_not_cut_of : forall t c vs, wf_values (format_of t c) vs -> ~ ends_in_name (format_of t c) (canon vs).
Proof. intros t c vs W. rewrite format_of_fields in *. apply wf_not_cut; auto. apply fields_for_ends. Qed.

(** ** RR lines *)
Definition cname (v : Z) : bytes := match rrclass_to_str v with Some s => s | None => lit "CLASS" ++ fmt_u v end.
Lemma cname_text : forall v, 0 <= v < 65536 -> class_text v (cname v).
Proof.
  intros v H. unfold cname, class_text. destruct (rrclass_to_str v) as [s|] eqn:E; [left; apply (table_registry _ _ _ classes_ok); exact E|].
  right. split; [|exists (fmt_u v); split; [apply fmt_u_decimal; change (10 ^ 20) with 100000000000000000000; lia|reflexivity]].
  intros m M. apply (table_registry _ _ _ classes_ok) in M. unfold rrclass_to_str in E. congruence.
Qed.
Lemma cname_printable : forall v, 0 <= v < 65536 -> printable (cname v).
Proof.
  intros v H. unfold cname. destruct (rrclass_to_str v) as [s|] eqn:E; [eapply class_printable; eauto|].
  assert (printable (fmt_u v)) by (apply fmt_u_printable; change (10 ^ 20) with 100000000000000000000; lia). pr.
Qed.
Lemma tname_printable : forall v, 0 <= v < 65536 -> printable (tname v).
Proof. intros v H. eapply type_printable. apply tname_text. auto. Qed.

(** The line up to the rdata. *)
Definition record_head (name : bytes) (r : rr) : bytes := name ++ [32] ++ fmt_u (rr_ttl r) ++ [32] ++ cname (rr_class r) ++ [32] ++ tname (rr_type r).

Lemma rr_record : forall u r sec name k, sec <> 0 -> 0 <= rr_ttl r < 2 ^ 32 -> domain_to_str (rr_name r) (zlen (rr_name r)) = Ok (name, k) ->
  rr_to_ubuf u r sec = match rr_rdata r with None => UB NullDeref
    | Some d => x <- rdata_to_ubuf (u ++ record_head name r ++ [32]) d (zlen d) (rr_type r) (rr_class r) ;; Ok (x ++ [10]) end.
Proof.
  intros u r sec name k N T D. unfold rr_to_ubuf. rewrite D. cbn [bind]. replace (sec =? 0) with false by lia. cbn [negb].
  rewrite u64_text_fmt by (change (10 ^ (11 - 1)) with 10000000000; change (2 ^ 32) with 4294967296 in T; lia). cbn [bind].
  destruct (rr_rdata r) as [d|]; [|reflexivity]. fold (cname (rr_class r)). fold (tname (rr_type r)). unfold record_head. rewrite <- !app_assoc. reflexivity.
Qed.
Lemma rr_question : forall u r name k, domain_to_str (rr_name r) (zlen (rr_name r)) = Ok (name, k) ->
  rr_to_ubuf u r 0 = Ok (u ++ [59] ++ name ++ [32] ++ cname (rr_class r) ++ [32] ++ tname (rr_type r) ++ [10]).
Proof. intros u r name k D. unfold rr_to_ubuf. rewrite D. cbn [bind Z.eqb negb app]. fold (cname (rr_class r)). fold (tname (rr_type r)). rewrite <- !app_assoc. cbn [app]. reflexivity. Qed.

(** ** rdata_to_ubuf appends *)
Lemma strip_app : forall u t, t <> [] -> strip_blank (u ++ t) = u ++ strip_blank t.
Proof.
  intros u t N. destruct (exists_last N) as (t' & c & ->). unfold strip_blank. rewrite app_assoc, !rev_unit. destruct (c =? 32); [rewrite !rev_involutive; auto|rewrite <- app_assoc; auto].
Qed.
(** Printing behind a blank: the blank stays unless nothing is printed. *)
Lemma rdata_appends : forall u d n t c, exists k : bytes -> bool, rdata_to_ubuf (u ++ [32]) d n t c = (s <- rdata_to_ubuf [] d n t c ;; Ok (if k s then u else u ++ 32 :: s)).
Proof.
  intros u d n t c. unfold rdata_to_ubuf. destruct (lookup_descr t) as [de|].
  - destruct (negb _); [exists (fun _ : bytes => false); reflexivity|].
    destruct (fields_text (d_types de) d n) as [[o f]|e|x|]; try (exists (fun _ : bytes => false); reflexivity). cbn [bind].
    destruct f as [s' n'| |r].
    + destruct o as [|b o]; [exists (fun _ : bytes => true); cbn [bind]; rewrite app_nil_r, strip_blank_add; reflexivity|].
      exists (fun _ : bytes => false). cbn [bind app]. rewrite strip_app by discriminate. rewrite <- app_assoc. reflexivity.
    + exists (fun _ : bytes => false). cbn [bind app]. rewrite <- app_assoc. reflexivity.
    + exists (fun _ : bytes => false). cbn [bind app]. rewrite <- app_assoc. reflexivity.
  - exists (fun _ : bytes => false). destruct (u64_text 6 n) as [x|e|f|]; try reflexivity. cbn [bind]. destruct (hex_blanks _ _ _) as [y|e|f|]; try reflexivity. cbn [bind]. rewrite <- app_assoc. reflexivity.
Qed.
Lemma rdata_prefix : forall u d n t c s, rdata_to_ubuf (u ++ [32]) d n t c = Ok s -> exists x, s = u ++ x.
Proof.
  intros u d n t c s E. destruct (rdata_appends u d n t c) as (k & K). rewrite K in E. apply bind_ok in E as (y & _ & E). injection E as <-. destruct (k y); [exists []; rewrite app_nil_r; auto|eauto].
Qed.
Lemma rr_prefix : forall u r sec s, rr_to_ubuf u r sec = Ok s -> exists x, s = u ++ x.
Proof.
  intros u r sec s E. unfold rr_to_ubuf in E. apply bind_ok in E as ([name k] & D & E). apply bind_ok in E as (ttl & T & E). apply bind_ok in E as (v & V & E). injection E as <-.
  fold (cname (rr_class r)) in V. fold (tname (rr_type r)) in V.
  assert (P : exists x, v = u ++ x). { destruct (negb (sec =? 0)).
    - destruct (rr_rdata r) as [d|]; [|discriminate]. apply rdata_prefix in V as (x & ->). destruct (sec =? 0); rewrite <- !app_assoc; eauto.
    - injection V as <-. destruct (sec =? 0); rewrite <- !app_assoc; eauto. }
  destruct P as (x & ->). rewrite <- app_assoc. eauto.
Qed.
Lemma rrs_prefix : forall rs u sec s, rrs_to_ubuf u rs sec = Ok s -> exists x, s = u ++ x.
Proof.
  induction rs as [|r rs IH]; intros u sec s E; cbn [rrs_to_ubuf] in E; [injection E as <-; exists []; rewrite app_nil_r; auto|].
  apply bind_ok in E as (v & V & E). apply rr_prefix in V as (x & ->). apply IH in E as (y & ->). rewrite <- app_assoc. eauto.
Qed.

(** ** The text of well-formed RRs *)
Definition printable_data (r : srr) : Prop :=
  forall vs, s_data r = Some vs -> zlen (canon vs) < 65536 /\ ((s_type r = 64 \/ s_type r = 65) /\ s_class r = 1 -> plain_values vs) /\ (s_type r = 41 -> exists opts ts, options_text (canon vs) opts ts).

Lemma options_det : forall l opts ts opts' ts', bytes_ok l -> options_text l opts ts -> options_text l opts' ts' -> opts = opts'.
Proof.
  intros l opts ts opts' ts' B O. revert opts' ts'. destruct O as (E & F & O). revert l B E. induction O as [|[k d] t opts ts O OS IH]; intros l B E opts' ts' (E' & F' & O').
  - subst l. destruct O' as [|[k d] t o1 t1 O1 O2]; [auto|]. cbn [map concat] in E'. unfold param, u16 in E'. cbn [app] in E'. discriminate.
  - inversion F as [|? ? F1 F2]; subst. destruct O' as [|[k' d'] t' o1 t1 O1 O2]; [cbn [map concat] in E'; unfold param, u16 in E'; cbn [app] in E'; discriminate|].
    pose proof (option_code _ _ _ O). pose proof (option_code _ _ _ O1). inversion F' as [|? ? F1' F2']; subst. cbn [snd] in *.
    cbn [map concat] in E', B. unfold param at 1 3 in E'. cbn [fst snd] in E'. rewrite <- !app_assoc in E'.
    apply app_zlen_inj in E' as [E1 E']; [|reflexivity]. apply app_zlen_inj in E' as [E2 E']; [|reflexivity].
    assert (U : forall a b, 0 <= a < 65536 -> 0 <= b < 65536 -> u16 a = u16 b -> a = b). { intros a b A1 B1 X. unfold u16 in X. injection X. zdm. }
    pose proof (zlen_nonneg _ d). pose proof (zlen_nonneg _ d'). apply U in E1; [|lia|lia]. apply U in E2; [|lia|lia]. apply app_zlen_inj in E' as [-> E']; [|auto]. subst k'. f_equal.
    apply (IH F2 (concat (map param opts))) with (ts' := t1); [apply bytes_ok_app in B; tauto|auto|]. split; [eauto|]. auto.
Qed.

Lemma join_nil_iff : forall c ts, Forall (fun t => t <> []) ts -> join_by c ts = [] -> ts = [].
Proof. intros c [|t [|u ts]] F E; auto; inversion F; subst; [cbn in E; congruence|]. rewrite join_cons in E by discriminate. destruct t; [congruence|discriminate]. Qed.

Lemma canon_ok : forall fs vs, wf_values fs vs -> bytes_ok (canon vs).
Proof.
  intros fs vs W. induction W as [|fs ls vs V W IH|f fs l vs FO B N TE W IH]; [constructor| |]; unfold canon; cbn [map concat canon1]; apply bytes_ok_app; split; auto. apply wire_bytes. apply V.
Qed.

Lemma data_print : forall u t c vs, wf_values (format_of t c) vs -> zlen (canon vs) < 65536 -> ((t = 64 \/ t = 65) /\ c = 1 -> plain_values vs) ->
  (t = 41 -> exists opts ts, options_text (canon vs) opts ts) ->
  exists d, rdata_to_ubuf (u ++ [32]) (canon vs) (zlen (canon vs)) t c = Ok (u ++ d) /\ data_text t c vs d.
Proof.
  intros u t c vs W L P O. pose proof (canon_ok _ _ W) as B. unfold data_text. destruct (Z.eqb_spec t 41) as [-> |N].
  - destruct (opt_print (u ++ [32]) (canon vs) [] c B ltac:(constructor) L) as [(opts & ts & OT & E)|(s & e & E & I & NO)].
    + rewrite app_nil_r in E. rewrite E. assert (PS : Forall (fun s => s <> [] /\ last s 0 <> 32 /\ printable s) ts). { destruct OT as (O1 & _ & O3). apply (param_bytes opts); [rewrite <- O1; auto|auto]. }
      exists (blank_before (join_by 10 ts)). split; [|eauto]. destruct ts as [|x ts]; [rewrite strip_blank_add; cbn [join_by blank_before]; rewrite app_nil_r; auto|].
      assert (NJ : join_by 10 (x :: ts) <> []). { intros X. apply join_nil_iff in X; [discriminate|]. eapply Forall_impl; [|exact PS]. cbn beta. tauto. }
      destruct (join_by 10 (x :: ts)) as [|b j]; [congruence|]. cbn [blank_before]. rewrite <- app_assoc. reflexivity.
    + destruct (O eq_refl) as (opts & ts & X). destruct (NO opts ts X).
  - destruct (has_fields t c) eqn:H.
    + assert (C1 : t = 64 \/ t = 65 -> c = 1). { intros [-> | ->]; unfold has_fields in H; cbn in H; destruct (Z.eqb_spec c 1); auto; discriminate. }
      destruct (rdata_print (u ++ [32]) t c vs [] N H W ltac:(intros X; apply P; auto) L ltac:(constructor)) as (toks & F & S & E). rewrite app_nil_r in E. rewrite E.
      exists (blank_before (join_by 32 toks)). split; [|exists (join_by 32 toks); split; [exists toks; auto|auto]]. destruct toks as [|x ts]; [rewrite strip_blank_add; cbn [join_by blank_before]; rewrite app_nil_r; auto|].
      assert (NJ : join_by 32 (x :: ts) <> []). { intros X. apply join_nil_iff in X; [discriminate|]. eapply Forall_impl; [|exact S]. unfold solid. cbn beta. tauto. }
      destruct (join_by 32 (x :: ts)) as [|b j]; [congruence|]. cbn [blank_before]. rewrite <- app_assoc. reflexivity.
    + destruct (find (fun e => fst e =? t) rr_formats) as [[i [io fs]]|] eqn:F.
      * exists [32]. split; [|auto]. assert (I : In t (map fst rr_formats)). { destruct (in_dec Z.eq_dec t (map fst rr_formats)) as [I|I]; auto. rewrite find_none_key in F by auto. discriminate. }
        assert (G : exists d, lookup_descr t = Some d /\ (d_class d =? class_un) || (d_class d =? c) = false).
        { clear - I H. cbn in I. repeat (destruct I as [<-|I]; [eexists; split; [unfold lookup_descr; cbn; reflexivity|]; unfold has_fields in H; cbn in H |- *; first [discriminate|destruct c as [|[]|]; first [discriminate|reflexivity]]|]). contradiction. }
        destruct G as (d & E1 & E2). unfold rdata_to_ubuf. rewrite E1, E2. reflexivity.
      * destruct (generic_print (u ++ [32]) t c (canon vs) [] F B L) as (s & E & G). rewrite app_nil_r in E. rewrite E. exists (32 :: s). rewrite <- app_assoc. eauto.
Qed.

(** ** Entries of a message *)
Definition good_entry (e : Z * srr) : Prop :=
  let '(k, r) := e in 0 <= k <= 3 /\ wf_owner r /\ 0 <= s_ttl r < 2 ^ 32 /\
  if k =? 0 then s_ttl r = 0 /\ s_data r = None else exists vs, s_data r = Some vs /\ wf_values (format_of (s_type r) (s_class r)) vs.

Lemma entry_good : forall sec m i r n, bytes_ok m -> 0 <= sec <= 3 -> entry_at sec m i r n -> good_entry (sec, r).
Proof.
  intros sec m i r n B S E. unfold entry_at in E. unfold good_entry. destruct (sec =? 0) eqn:ES.
  - destruct E as (e & t0 & t1 & c0 & c1 & (D & L & X) & O & Et & Ec & El & Ed & ->). pose proof (octets_at_bytes _ _ _ B O) as BO. unfold bytes_ok, is_byte in BO.
    repeat match goal with H : Forall _ (_ :: _) |- _ => inversion H; subst; clear H end. change (2 ^ 32) with 4294967296. unfold wf_owner, valid_name.
    split; [lia|]. split; [split; [split; [eapply denotes_valid; eauto|auto]|lia]|]. split; [lia|auto].
  - destruct E as (e & t0 & t1 & c0 & c1 & w & x & y & z & l0 & l1 & vs & (D & L & X) & O & Et & Ec & El & Q). cbv zeta in Q. destruct Q as (B2 & R & Ed & ->).
    pose proof (octets_at_bytes _ _ _ B O) as BO. unfold bytes_ok, is_byte in BO.
    repeat match goal with H : Forall _ (_ :: _) |- _ => inversion H; subst; clear H end. change (2 ^ 32) with 4294967296. unfold wf_owner, valid_name.
    split; [lia|]. split; [split; [split; [eapply denotes_valid; eauto|auto]|lia]|]. split; [lia|]. exists vs. split; [auto|]. apply (rdata_at_wf _ _ _ _ _ B R).
Qed.
Lemma entries_good : forall sec m i n rs j, bytes_ok m -> 0 <= sec <= 3 -> entries_at sec m i n rs j -> Forall good_entry (map (pair sec) rs).
Proof.
  intros sec m i n rs j B S E. induction E as [|n H|i n r k rs j H1 H2 H3 H4 IH]; [constructor|constructor|]. cbn [map]. constructor; [|auto]. eapply entry_good; eauto.
Qed.
Lemma message_good : forall m s, bytes_ok m -> message_at m s -> Forall good_entry (entries s) /\ 0 <= sm_id s < 65536 /\ 0 <= sm_flags s < 65536 /\
  zlen (sm_qd s) < 65536 /\ zlen (sm_an s) < 65536 /\ zlen (sm_ns s) < 65536 /\ zlen (sm_ar s) < 65536.
Proof.
  intros m s B (i0 & i1 & f0 & f1 & q0 & q1 & a0 & a1 & n0 & n1 & r0 & r1 & j1 & j2 & j3 & j4 & O & EI & EF & E0 & E1 & E2 & E3).
  pose proof (octets_at_bytes _ _ _ B O) as BO. unfold bytes_ok, is_byte in BO.
  repeat match goal with H : Forall _ (_ :: _) |- _ => inversion H; subst; clear H end.
  assert (CN : forall sec i n rs j, entries_at sec m i n rs j -> zlen rs <= n). { intros sec i n rs j E. induction E; [change (zlen (@nil srr)) with 0; lia|change (zlen (@nil srr)) with 0; lia|rewrite zlen_cons; lia]. }
  assert (GG : forall sec i n rs j, 0 <= sec <= 3 -> entries_at sec m i n rs j -> Forall good_entry (map (pair sec) rs)) by (intros; eapply entries_good; [exact B|auto|eauto]).
  split. { unfold entries. apply Forall_app. split; [eapply GG; [|exact E0]; lia|]. apply Forall_app. split; [eapply GG; [|exact E1]; lia|]. apply Forall_app. split; [eapply GG; [|exact E2]; lia|eapply GG; [|exact E3]; lia]. }
  apply CN in E0, E1, E2, E3. lia.
Qed.
Lemma in_without : forall e l, In e (without_first_opt l) -> In e l.
Proof. intros e. induction l as [|[k r] l IH]; [auto|]. cbn [without_first_opt]. destruct (is_opt r); [right; auto|]. intros [X|X]; [left|right]; auto. Qed.
Lemma in_section_in : forall k r l, In r (in_section k l) -> In (k, r) l.
Proof. intros k r l I. unfold in_section in I. apply in_map_iff in I as ([k' r'] & <- & I). apply filter_In in I as [I K]. cbn [fst snd] in *. apply Z.eqb_eq in K. subst. auto. Qed.
Lemma first_opt_in : forall l r, first_opt l = Some r -> exists k, In (k, r) l /\ s_type r = 41.
Proof.
  induction l as [|[k r'] l IH]; intros r E; [discriminate|]. cbn [first_opt] in E. destruct (is_opt r') eqn:O; [injection E as <-; exists k; unfold is_opt in O; split; [left; auto|lia]|].
  apply IH in E as (k' & I & T). exists k'. split; [right; auto|auto].
Qed.
Lemma section_good : forall k l, Forall good_entry l -> Forall (fun r => good_entry (k, r)) (in_section k (without_first_opt l)).
Proof. intros k l F. rewrite Forall_forall in *. intros r I. apply F. apply in_without. apply in_section_in. auto. Qed.

Lemma stored_canon : forall vs, zlen (canon vs) < 65536 -> stored vs = canon vs.
Proof. intros vs L. unfold stored. rewrite Z.mod_small by (pose proof (zlen_nonneg _ (canon vs)); lia). rewrite zlen_to_nat, firstn_all. reflexivity. Qed.

Lemma owner_print : forall r, wf_owner r -> domain_to_str (wire (s_name r)) (zlen (wire (s_name r))) = Ok (pres_name (s_name r), zlen (wire (s_name r))).
Proof. intros r (V & _). pose proof (domain_to_str_wire (s_name r) [] (zlen (wire (s_name r))) V ltac:(lia)) as H. rewrite app_nil_r in H. exact H. Qed.

Lemma record_print : forall u sec r, sec <> 0 -> good_entry (1, r) -> printable_data r -> exists s, rr_to_ubuf u (rr_of r) sec = Ok (u ++ s) /\ record_line r s.
Proof.
  intros u sec r N (_ & WO & T & (vs & D & W)) P. destruct (P vs D) as (L & PV & PO). pose proof (owner_print r WO) as DN.
  set (x := {| rr_name := wire (s_name r); rr_type := s_type r; rr_class := s_class r; rr_ttl := s_ttl r; rr_rdata := Some (canon vs) |}).
  assert (RO : rr_of r = x) by (unfold rr_of, x; rewrite D; cbn [option_map]; rewrite (stored_canon vs L); reflexivity). rewrite RO.
  destruct (data_print (u ++ record_head (pres_name (s_name r)) x) (s_type r) (s_class r) vs W L PV PO) as (d & E & DT).
  rewrite (rr_record u x sec (pres_name (s_name r)) (zlen (wire (s_name r))) N T DN). change (rr_rdata x) with (Some (canon vs)). cbv iota. rewrite app_assoc. change (rr_type x) with (s_type r). change (rr_class x) with (s_class r).
  rewrite E. cbn [bind]. destruct WO as (V & RT & RC).
  eexists. split; [rewrite <- !app_assoc; reflexivity|]. exists (fmt_u (s_ttl r)), (cname (s_class r)), (tname (s_type r)), vs, d. change (2 ^ 32) with 4294967296 in T.
  split; [apply fmt_u_decimal; change (10 ^ 20) with 100000000000000000000; lia|]. split; [apply cname_text; auto|]. split; [apply tname_text; auto|]. split; [auto|]. split; [auto|].
  unfold record_head, x. cbn [rr_ttl rr_class rr_type]. rewrite <- !app_assoc. reflexivity.
Qed.
Lemma question_print : forall u r, good_entry (0, r) -> exists s, rr_to_ubuf u (rr_of r) 0 = Ok (u ++ s) /\ question_line r s.
Proof.
  intros u r (_ & WO & _). pose proof (owner_print r WO) as DN. rewrite (rr_question u (rr_of r) _ _ DN). destruct WO as (V & RT & RC).
  eexists. split; [reflexivity|]. exists (cname (s_class r)), (tname (s_type r)). split; [apply cname_text; auto|]. split; [apply tname_text; auto|]. reflexivity.
Qed.
Lemma section_print : forall (line : srr -> bytes -> Prop) sec rs u, (forall u r, In r rs -> exists s, rr_to_ubuf u (rr_of r) sec = Ok (u ++ s) /\ line r s) ->
  exists ss, rrs_to_ubuf u (map rr_of rs) sec = Ok (u ++ concat ss) /\ Forall2 line rs ss.
Proof.
  intros line sec. induction rs as [|r rs IH]; intros u H; [exists []; cbn [map rrs_to_ubuf concat]; rewrite app_nil_r; auto|].
  destruct (H u r (or_introl eq_refl)) as (s & E & L). cbn [map rrs_to_ubuf]. rewrite E. cbn [bind].
  destruct (IH (u ++ s)) as (ss & E2 & L2); [intros u' r' I; apply H; right; auto|]. exists (s :: ss). rewrite E2. cbn [concat]. rewrite <- app_assoc. auto.
Qed.

(** ** Header *)
Lemma flag_testbit : forall f k, 0 <= k -> flag_bit f k = Z.testbit f k.
Proof. intros f k K. unfold flag_bit. rewrite Z.land_ones with (n := 1) by lia. change (2 ^ 1) with 2. rewrite Z.testbit_odd. rewrite Zmod_odd. destruct (Z.odd _); reflexivity. Qed.
Lemma opcode_value : forall f, flags_opcode f = f / 2048 mod 16.
Proof. intros f. unfold flags_opcode. rewrite Z.land_ones with (n := 4) by lia. rewrite Z.shiftr_div_pow2 by lia. reflexivity. Qed.
Lemma on_if : forall b s, on b s = if b then s else []. Proof. reflexivity. Qed.

Lemma opcode_table : forall n, match opcode_to_str n with Some s => mnemonic iana_opcodes n s | None => forall m, ~ mnemonic iana_opcodes n m end.
Proof.
  assert (G : forall n s, opcode_to_str n = Some s <-> mnemonic iana_opcodes n s).
  { intros n s. split.
    - intros E. unfold opcode_to_str in E. unfold mnemonic, iana_opcodes.
      destruct n as [|[[p|[p|p|]|]|[p|[p|p|]|]|]|p]; try discriminate; injection E as <-; eexists; (split; [|reflexivity]); cbn; tauto.
    - intros (m & I & ->). unfold iana_opcodes in I. cbn [In] in I. destruct I as [I|[I|[I|[I|[I|I]]]]]; [inversion I; subst; reflexivity ..|destruct I]. }
  intros n. destruct (opcode_to_str n) as [s|] eqn:E; [apply G; auto|]. intros m M. apply G in M. congruence.
Qed.

Lemma header_ok : forall M, 0 <= m_id M < 65536 -> 0 <= m_flags M < 65536 -> 0 <= m_rcode M < 65536 ->
  zlen (a_rrs (m_qd M)) < 65536 -> zlen (a_rrs (m_an M)) < 65536 -> zlen (a_rrs (m_ns M)) < 65536 -> zlen (a_rrs (m_ar M)) < 65536 ->
  header_lines (m_id M) (m_flags M) (m_rcode M) (zlen (a_rrs (m_qd M))) (zlen (a_rrs (m_an M))) (zlen (a_rrs (m_ns M))) (zlen (a_rrs (m_ar M))) (header_text M).
Proof.
  intros M I F R Q A N AR. pose proof (zlen_nonneg _ (a_rrs (m_qd M))). pose proof (zlen_nonneg _ (a_rrs (m_an M))). pose proof (zlen_nonneg _ (a_rrs (m_ns M))). pose proof (zlen_nonneg _ (a_rrs (m_ar M))).
  assert (D : forall n, 0 <= n < 65536 -> decimal n (fmt_u n)) by (intros n Hn; apply fmt_u_decimal; change (10 ^ 20) with 100000000000000000000; lia).
  exists (opcode_text M), (rcode_text M), (fmt_u (m_id M)), (fmt_u (zlen (a_rrs (m_qd M)))), (fmt_u (zlen (a_rrs (m_an M)))), (fmt_u (zlen (a_rrs (m_ns M)))), (fmt_u (zlen (a_rrs (m_ar M)))).
  split. { unfold code_text, opcode_text. pose proof (opcode_table (flags_opcode (m_flags M))) as OT. rewrite opcode_value in *. destruct (opcode_to_str _); [left; auto|right; split; [auto|]]. apply D. pose proof (Z.mod_pos_bound (m_flags M / 2048) 16 ltac:(lia)). lia. }
  split. { unfold code_text, rcode_text. destruct (rcode_to_str (m_rcode M)) as [s|] eqn:E; [left; apply (table_registry _ _ _ rcodes_ok); exact E|right]. split; [|apply D; auto]. intros m X. apply (table_registry _ _ _ rcodes_ok) in X. unfold rcode_to_str in E. congruence. }
  split; [apply D; auto|]. split; [apply D; lia|]. split; [apply D; lia|]. split; [apply D; lia|]. split; [apply D; lia|].
  unfold header_text. rewrite !flag_testbit by lia. unfold flags_text, header_flags. cbn [map concat fst snd]. rewrite !on_if, app_nil_r. rewrite <- !app_assoc.
  change (lit "; " ++ lit "QUERY: " ++ ?x) with (lit "; QUERY: " ++ x). reflexivity.
Qed.

(** ** EDNS *)
Lemma opt_lines_ok : forall ts fuel, Forall (fun t => t <> [] /\ no_char 10 t) ts -> (length ts < fuel)%nat ->
  opt_lines fuel (join_by 10 ts) = Ok (concat (map (fun t => [10] ++ lit "; " ++ t) ts)).
Proof.
  induction ts as [|t ts IH]; intros [|fuel] F L; try (cbn in L; lia); [reflexivity|]. inversion F as [|? ? [N C] F']; subst. cbn [opt_lines].
  assert (E : strtok 10 (join_by 10 (t :: ts)) = Some (t, join_by 10 ts)).
  { destruct ts as [|u ts]; [apply strtok_one; auto|]. rewrite join_cons by discriminate. apply strtok_more; auto. }
  rewrite E. rewrite IH by (auto; cbn in L; lia). cbn [bind map concat]. rewrite <- !app_assoc. reflexivity.
Qed.
Lemma opt_lines_any : forall fuel s, (length s < fuel)%nat -> exists o, opt_lines fuel s = Ok o.
Proof.
  induction fuel as [|fuel IH]; intros s L; [lia|]. cbn [opt_lines].
  assert (SD : forall s, (length (skip_delim 10 s) <= length s)%nat). { clear. induction s as [|c s IH]; [auto|]. cbn [skip_delim]. destruct (c =? 10); cbn [length]; lia. }
  assert (SA : forall s, (length (snd (split_at (fun c => (c =? 10)%Z) s)) <= length s)%nat). { clear. induction s as [|c s IH]; [auto|]. cbn [split_at]. destruct (c =? 10); [cbn; lia|]. destruct (split_at _ s); cbn [snd length] in *; lia. }
  unfold strtok. pose proof (SD s) as S1. destruct (skip_delim 10 s) as [|c s'] eqn:E; [eauto|]. pose proof (SA (c :: s')) as S2. destruct (split_at (fun c => c =? 10) (c :: s')) as [t r] eqn:ES. cbn [snd] in S2.
  assert (LR : (length (match r with [] => [] | _ :: r' => r' end) < fuel)%nat). { destruct r as [|x r]; cbn [length] in *; lia. }
  destruct (IH _ LR) as (o & ->). cbn [bind]. eauto.
Qed.
Lemma printable_no_char : forall t, printable t -> no_char 10 t.
Proof. intros t P. eapply Forall_impl; [|exact P]. cbn beta. lia. Qed.

Lemma land_bit : forall x n, 0 <= n -> (Z.land x (2 ^ n) =? 0) = negb (Z.testbit x n).
Proof.
  intros x n N. destruct (Z.testbit x n) eqn:E; cbn [negb].
  - apply Z.eqb_neq. intros X. assert (Z.testbit (Z.land x (2 ^ n)) n = true) by (rewrite Z.land_spec, E, Z.pow2_bits_true; auto). rewrite X, Z.bits_0 in H. discriminate.
  - apply Z.eqb_eq. apply Z.bits_inj'. intros k K. rewrite Z.land_spec, Z.bits_0. destruct (Z.eq_dec k n) as [-> |D]; [rewrite E; auto|]. rewrite Z.pow2_bits_false by auto. apply andb_false_r.
Qed.

Lemma edns_print : forall l r, Forall good_entry l -> (forall k r, In (k, r) l -> printable_data r) -> first_opt l = r -> exists s, edns_text (edns_of r) = Ok s /\ opt_lines_text r s.
Proof.
  intros l r G P E. destruct r as [r|]; [|exists []; split; reflexivity]. apply first_opt_in in E as (k & I & T). specialize (P k r I). rewrite Forall_forall in G. specialize (G _ I). destruct G as (_ & (V & RT & RC) & TT & W).
  unfold edns_text, edns_of. cbn [e_present negb e_options e_version e_flags e_size]. change (2 ^ 32) with 4294967296 in TT.
  assert (D : forall n, 0 <= n < 65536 -> decimal n (fmt_u n)) by (intros n Hn; apply fmt_u_decimal; change (10 ^ 20) with 100000000000000000000; lia).
  assert (OO : exists opts ts, options_text (match s_data r with Some vs => canon vs | None => [] end) opts ts /\
    match option_map stored (s_data r) with None => Ok [] | Some d => t <- rdata_to_ubuf [] d (zlen d) 41 class_un ;; opt_lines (S (length t)) t end = Ok (concat (map (fun t => [10] ++ lit "; " ++ t) ts))).
  { destruct (s_data r) as [vs|] eqn:SD; cbn [option_map]; [|exists [], []; split; [split; [reflexivity|split; constructor]|reflexivity]].
    assert (W' : wf_values (format_of (s_type r) (s_class r)) vs) by (destruct (k =? 0); [destruct W; discriminate|destruct W as (vs' & X & W); congruence]).
    destruct (P vs SD) as (L & _ & PO). rewrite (stored_canon vs L). pose proof (canon_ok _ _ W') as B.
    destruct (opt_print [] (canon vs) [] class_un B ltac:(constructor) L) as [(opts & ts & OT & X)|(s & e & _ & _ & NO)]; [|destruct (PO T) as (o & t & Y); destruct (NO _ _ Y)].
    exists opts, ts. split; [auto|]. rewrite app_nil_r in X. rewrite X. cbn [bind app].
    assert (PS : Forall (fun s => s <> [] /\ last s 0 <> 32 /\ printable s) ts). { destruct OT as (O1 & _ & O3). apply (param_bytes opts); [rewrite <- O1; auto|auto]. }
    assert (JE : (match ts with [] => strip_blank [] | _ :: _ => join_by 10 ts end) = join_by 10 ts) by (destruct ts; reflexivity). rewrite JE.
    apply opt_lines_ok; [eapply Forall_impl; [|exact PS]; cbn beta; intros a (A1 & _ & A2); split; [auto|apply printable_no_char; auto]|].
    clear - PS. assert (K : (length ts <= length (join_by 10 ts))%nat); [|lia]. induction PS as [|t ts (N & _) PS IH]; [auto|]. destruct ts as [|u ts]; [destruct t; [congruence|cbn; lia]|].
    rewrite join_cons by discriminate. rewrite app_length. change (length (10 :: join_by 10 (u :: ts))) with (S (length (join_by 10 (u :: ts)))). change (length (t :: u :: ts)) with (S (length (u :: ts))). lia. }
  destruct OO as (opts & ts & OT & ->). cbn [bind]. eexists. split; [reflexivity|]. exists (fmt_u (s_ttl r / 65536 mod 256)), (fmt_u (s_class r)), opts, ts.
  split; [apply D; pose proof (Z.mod_pos_bound (s_ttl r / 65536) 256 ltac:(lia)); lia|]. split; [apply D; lia|]. split; [auto|].
  change 32768 with (2 ^ 15). rewrite land_bit by lia. rewrite negb_involutive. change 65536 with (2 ^ 16) at 2. rewrite Z.mod_pow2_bits_low by lia. rewrite on_if. reflexivity.
Qed.

Lemma rcode_bound : forall l flags, Forall good_entry l -> 0 <= rcode_of flags (first_opt l) < 65536.
Proof.
  intros l flags G. unfold rcode_of. pose proof (Z.mod_pos_bound flags 16 ltac:(lia)). destruct (first_opt l) as [r|] eqn:E; [|lia].
  apply first_opt_in in E as (k & I & _). rewrite Forall_forall in G. apply G in I as (_ & _ & TT & _). change (2 ^ 32) with 4294967296 in TT. assert (0 <= s_ttl r / 16777216 < 256) by (split; [apply Z.div_pos; lia|apply Z.div_lt_upper_bound; lia]). lia.
Qed.
Lemma section_len : forall s k, 0 <= k <= 3 -> zlen (in_section k (without_first_opt (entries s))) <= zlen (match k with 0 => sm_qd s | 1 => sm_an s | 2 => sm_ns s | _ => sm_ar s end).
Proof.
  intros s k K. assert (LE : forall l, (length (in_section k (without_first_opt l)) <= length (in_section k l))%nat).
  { induction l as [|[j r] l IH]; [auto|]. cbn [without_first_opt]. unfold in_section in *. destruct (is_opt r); cbn [filter fst]; destruct (j =? k); cbn [map length]; rewrite ?map_length in *; lia. }
  specialize (LE (entries s)). assert (E : in_section k (entries s) = match k with 0 => sm_qd s | 1 => sm_an s | 2 => sm_ns s | _ => sm_ar s end).
  { assert (IS : forall j l, in_section k (map (pair j) l) = if j =? k then l else []). { intros j l. unfold in_section. induction l as [|r l IH]; [destruct (j =? k); auto|]. cbn [map filter fst]. destruct (j =? k); cbn [map snd]; [rewrite IH|]; auto. }
    unfold entries. assert (APP : forall a b, in_section k (a ++ b) = in_section k a ++ in_section k b). { intros a b. unfold in_section. rewrite filter_app, map_app. auto. }
    rewrite !APP, !IS. assert (k = 0 \/ k = 1 \/ k = 2 \/ k = 3) as [-> | [-> | [-> | ->]]] by lia; cbn [Z.eqb Pos.eqb app]; rewrite ?app_nil_r; reflexivity. }
  rewrite <- E. unfold zlen. lia.
Qed.

Theorem message_print : forall m s, bytes_ok m -> message_at m s -> (forall k r, In (k, r) (entries s) -> printable_data r) ->
  exists t, message_to_str (parsed s) = Ok t /\ message_text s t.
Proof.
  intros m s B MA P. destruct (message_good m s B MA) as (G & RI & RF & L0 & L1 & L2 & L3).
  set (sec := fun k => in_section k (without_first_opt (entries s))).
  assert (SG : forall k r, In r (sec k) -> good_entry (k, r) /\ printable_data r).
  { intros k r I. apply in_section_in, in_without in I. split; [rewrite Forall_forall in G; auto|eauto]. }
  assert (SR : forall k r, k <> 0 -> In r (sec k) -> good_entry (1, r) /\ printable_data r).
  { intros k r K I. destruct (SG k r I) as [(A1 & A2 & A3 & A4) A5]. split; [|auto]. replace (k =? 0) with false in A4 by lia. split; [lia|auto]. }
  destruct (edns_print (entries s) _ G P eq_refl) as (e & EE & OE).
  unfold message_to_str. change (m_edns (parsed s)) with (edns_of (first_opt (entries s))). rewrite EE. cbn [bind].
  unfold rrset_array_to_ubuf. change (a_rrs (m_qd (parsed s))) with (map rr_of (sec 0)). change (a_rrs (m_an (parsed s))) with (map rr_of (sec 1)). change (a_rrs (m_ns (parsed s))) with (map rr_of (sec 2)). change (a_rrs (m_ar (parsed s))) with (map rr_of (sec 3)).
  set (h := header_text (parsed s)).
  destruct (section_print question_line 0 (sec 0) ((h ++ e) ++ [10] ++ lit ";; QUESTION SECTION:" ++ [10])) as (q & -> & Q1); [intros u r I; apply question_print; apply SG; auto|]. cbn [bind].
  match goal with |- context [rrs_to_ubuf ?u (map rr_of (sec 1)) 1] => destruct (section_print record_line 1 (sec 1) u) as (a & -> & A1) end; [intros u r I; destruct (SR 1 r ltac:(lia) I); apply record_print; auto; lia|]. cbn [bind].
  match goal with |- context [rrs_to_ubuf ?u (map rr_of (sec 2)) 2] => destruct (section_print record_line 2 (sec 2) u) as (n & -> & N1) end; [intros u r I; destruct (SR 2 r ltac:(lia) I); apply record_print; auto; lia|]. cbn [bind].
  match goal with |- context [rrs_to_ubuf ?u (map rr_of (sec 3)) 3] => destruct (section_print record_line 3 (sec 3) u) as (r & -> & R1) end; [intros u r I; destruct (SR 3 r ltac:(lia) I); apply record_print; auto; lia|].
  eexists. split; [reflexivity|]. unfold message_text. cbv zeta. exists h, e, q, a, n, r.
  split.
  - assert (ZM : forall k, zlen (map rr_of (sec k)) = zlen (sec k)) by (intros k; unfold zlen; rewrite map_length; auto).
    assert (C0 : zlen (a_rrs (m_qd (parsed s))) = zlen (sec 0)) by apply ZM. assert (C1 : zlen (a_rrs (m_an (parsed s))) = zlen (sec 1)) by apply ZM.
    assert (C2 : zlen (a_rrs (m_ns (parsed s))) = zlen (sec 2)) by apply ZM. assert (C3 : zlen (a_rrs (m_ar (parsed s))) = zlen (sec 3)) by apply ZM.
    pose proof (section_len s 0 ltac:(lia)) as S0. pose proof (section_len s 1 ltac:(lia)) as S1. pose proof (section_len s 2 ltac:(lia)) as S2. pose proof (section_len s 3 ltac:(lia)) as S3. cbv iota in S0, S1, S2, S3.
    fold (sec 0) in S0. fold (sec 1) in S1. fold (sec 2) in S2. fold (sec 3) in S3. fold (sec 0). fold (sec 1). fold (sec 2). fold (sec 3).
    rewrite <- C0, <- C1, <- C2, <- C3. apply (header_ok (parsed s)); [exact RI|exact RF|apply rcode_bound; auto|lia|lia|lia|lia].
  - split; [exact OE|]. split; [exact Q1|]. split; [exact A1|]. split; [exact N1|]. split; [exact R1|]. rewrite <- !app_assoc. reflexivity.
Qed.

(** ** Safety of printing what the parser returned *)
Definition fits (r : srr) : Prop := forall vs, s_data r = Some vs -> zlen (canon vs) < 65536.

Lemma rdata_ok : forall u l t c, bytes_ok l -> zlen l < 65536 -> ~ ends_in_name (format_of t c) l -> exists s, rdata_to_ubuf (u ++ [32]) l (zlen l) t c = Ok s.
Proof.
  intros u l t c B L NE. destruct (rdata_appends u l (zlen l) t c) as (k & ->). destruct (Z.eq_dec t 41) as [-> |N].
  - destruct (opt_safe [] l [] c ltac:(constructor) B ltac:(constructor) L) as (s & E & _). rewrite app_nil_r in E. rewrite E. cbn [bind]. eauto.
  - destruct (rdata_safe [] l [] t c N ltac:(constructor) B ltac:(constructor) L NE) as (s & E & _). rewrite app_nil_r in E. rewrite E. cbn [bind]. eauto.
Qed.

Lemma rr_ok : forall u ls t c ttl vs sec, valid_name ls -> 0 <= ttl < 2 ^ 32 -> wf_values (format_of t c) vs -> zlen (canon vs) < 65536 ->
  exists s, rr_to_ubuf u {| rr_name := wire ls; rr_type := t; rr_class := c; rr_ttl := ttl; rr_rdata := Some (canon vs) |} sec = Ok s.
Proof.
  intros u ls t c ttl vs sec V T W L. set (x := Build_rr _ _ _ _ _).
  assert (D : domain_to_str (rr_name x) (zlen (rr_name x)) = Ok (pres_name ls, zlen (wire ls))). { pose proof (domain_to_str_wire ls [] (zlen (wire ls)) V ltac:(lia)) as H. rewrite app_nil_r in H. exact H. }
  destruct (Z.eq_dec sec 0) as [-> |N]; [rewrite (rr_question u x _ _ D); eauto|]. rewrite (rr_record u x sec _ _ N T D). change (rr_rdata x) with (Some (canon vs)). cbv iota. rewrite app_assoc. change (rr_type x) with t. change (rr_class x) with c.
  destruct (rdata_ok (u ++ record_head (pres_name ls) x) (canon vs) t c (canon_ok _ _ W) L (wf_not_cut_of t c vs W)) as (s & ->). cbn [bind]. eauto.
Qed.
Lemma rr_of_ok : forall u k r sec, good_entry (k, r) -> fits r -> (sec = 0 \/ k <> 0) -> exists s, rr_to_ubuf u (rr_of r) sec = Ok s.
Proof.
  intros u k r sec (K & WO & T & W) F S. destruct (Z.eq_dec sec 0) as [-> |N]; [rewrite (rr_question u (rr_of r) _ _ (owner_print r WO)); eauto|].
  destruct S as [S|S]; [contradiction|]. replace (k =? 0) with false in W by lia. destruct W as (vs & D & W). specialize (F vs D). unfold rr_of. rewrite D. cbn [option_map]. rewrite (stored_canon vs F). apply rr_ok; auto. apply WO.
Qed.
Lemma rrs_ok : forall rs u sec, (forall u r, In r rs -> exists s, rr_to_ubuf u r sec = Ok s) -> exists s, rrs_to_ubuf u rs sec = Ok s.
Proof.
  induction rs as [|r rs IH]; intros u sec H; cbn [rrs_to_ubuf]; [eauto|]. destruct (H u r (or_introl eq_refl)) as (s & ->). cbn [bind]. apply IH. intros u' r' I. apply H. right. auto.
Qed.
Lemma edns_ok : forall l, Forall good_entry l -> (forall k r, In (k, r) l -> fits r) -> exists s, edns_text (edns_of (first_opt l)) = Ok s.
Proof.
  intros l G F. destruct (first_opt l) as [r|] eqn:E; [|cbn; eauto]. apply first_opt_in in E as (k & I & T). specialize (F k r I). rewrite Forall_forall in G. destruct (G _ I) as (_ & _ & _ & W).
  unfold edns_text, edns_of. cbn [e_present negb e_options]. destruct (s_data r) as [vs|] eqn:D; cbn [option_map]; [|cbn [bind]; eauto].
  assert (W' : wf_values (format_of (s_type r) (s_class r)) vs) by (destruct (k =? 0); [destruct W; discriminate|destruct W as (vs' & X & W); congruence]).
  specialize (F vs D). rewrite (stored_canon vs F). destruct (opt_safe [] (canon vs) [] class_un ltac:(constructor) (canon_ok _ _ W') ltac:(constructor) F) as (t & X & _). rewrite app_nil_r in X. rewrite X. cbn [bind].
  destruct (opt_lines_any (S (length t)) t ltac:(lia)) as (o & ->). cbn [bind]. eauto.
Qed.

Lemma message_ok : forall s, Forall good_entry (entries s) -> (forall k r, In (k, r) (entries s) -> fits r) -> exists t, message_to_str (parsed s) = Ok t.
Proof.
  intros s G F. destruct (edns_ok _ G F) as (e & EE). unfold message_to_str. change (m_edns (parsed s)) with (edns_of (first_opt (entries s))). rewrite EE. cbn [bind].
  assert (SS : forall k sec u, sec = 0 \/ k <> 0 -> exists t, rrs_to_ubuf u (map rr_of (in_section k (without_first_opt (entries s)))) sec = Ok t).
  { intros k sec u S. apply rrs_ok. intros u' x I. apply in_map_iff in I as (r & <- & I). apply in_section_in, in_without in I. rewrite Forall_forall in G. apply (rr_of_ok u' k r sec (G _ I)); eauto. }
  unfold rrset_array_to_ubuf.
  destruct (SS 0 0 ((header_text (parsed s) ++ e) ++ [10] ++ lit ";; QUESTION SECTION:" ++ [10]) ltac:(auto)) as (u1 & E1). change (a_rrs (m_qd (parsed s))) with (map rr_of (in_section 0 (without_first_opt (entries s)))). rewrite E1. cbn [bind].
  destruct (SS 1 1 (u1 ++ [10] ++ lit ";; ANSWER SECTION:" ++ [10]) ltac:(right; lia)) as (u2 & E2). change (a_rrs (m_an (parsed s))) with (map rr_of (in_section 1 (without_first_opt (entries s)))). rewrite E2. cbn [bind].
  destruct (SS 2 2 (u2 ++ [10] ++ lit ";; AUTHORITY SECTION:" ++ [10]) ltac:(right; lia)) as (u3 & E3). change (a_rrs (m_ns (parsed s))) with (map rr_of (in_section 2 (without_first_opt (entries s)))). rewrite E3. cbn [bind].
  destruct (SS 3 3 (u3 ++ [10] ++ lit ";; ADDITIONAL SECTION:" ++ [10]) ltac:(right; lia)) as (u4 & E4). eauto.
Qed.

Lemma leaders_in : forall rs seen r, In r (leaders seen rs) -> In r rs.
Proof. induction rs as [|x rs IH]; intros seen r I; [auto|]. cbn [leaders] in I. destruct (existsb _ _); [right; eauto|destruct I; [left; auto|right; eauto]]. Qed.
Lemma min_ttl_range : forall r rs, 0 <= s_ttl r < 2 ^ 32 -> Forall (fun x => 0 <= s_ttl x < 2 ^ 32) rs -> 0 <= min_ttl r rs < 2 ^ 32.
Proof. intros r rs T F. unfold min_ttl. induction F as [|x rs H F IH]; cbn [map fold_right]; lia. Qed.

Lemma rrset_ok : forall k rs x sec, k <> 0 -> sec <> 0 -> Forall (fun r => good_entry (k, r) /\ fits r) rs -> In x (a_rrsets (section_of rs)) -> exists t, rrset_to_str x sec = Ok t.
Proof.
  intros k rs x sec K S G I. unfold section_of in I. cbn [a_rrsets] in I. apply in_map_iff in I as (r & <- & I). apply leaders_in in I. rewrite Forall_forall in G.
  unfold rrset_to_str, rrset_to_ubuf. replace (sec =? 0) with false by lia. apply rrs_ok. intros u y IY. apply in_map_iff in IY as (d & <- & IY). cbn [set_of rs_rdatas] in IY. apply in_map_iff in IY as (r' & <- & IY).
  unfold members in IY. apply filter_In in IY as [IY SM]. unfold same in SM. destruct (key_eq_dec (key r) (key r')) as [KE|]; [|discriminate]. unfold key in KE. injection KE as _ KT KC.
  destruct (G r I) as [(_ & (V & _) & T & _) _]. destruct (G r' IY) as [(_ & _ & _ & W) F]. replace (k =? 0) with false in W by lia. destruct W as (vs & D & W). unfold data_of. rewrite D. rewrite (stored_canon vs (F vs D)).
  cbn [set_of rs_name rs_type rs_class rs_ttl]. rewrite KT, KC. apply rr_ok; auto.
  apply min_ttl_range; [auto|]. apply Forall_forall. intros z Z. unfold members in Z. apply filter_In in Z as [Z _]. destruct (G z Z) as [(_ & _ & TZ & _) _]. auto.
Qed.

(** ** One printable line *)
Lemma rr_line : forall r sec t, rr_type r <> 41 -> bytes_ok (rr_name r) -> 0 <= rr_ttl r < 2 ^ 32 -> 0 <= rr_type r < 65536 -> 0 <= rr_class r < 65536 ->
  (forall d, rr_rdata r = Some d -> bytes_ok d /\ zlen d < 65536) -> rr_to_str r sec = Ok t -> exists s, t = s ++ [10] /\ printable s.
Proof.
  intros r sec t N BN TT RT RC D E. unfold rr_to_str in E.
  assert (DN : exists name k, domain_to_str (rr_name r) (zlen (rr_name r)) = Ok (name, k)). { unfold rr_to_ubuf in E. apply bind_ok in E as ([name k] & X & _). eauto. }
  destruct DN as (name & k & DN). pose proof (domain_printable _ _ _ _ BN DN) as PN. pose proof (cname_printable _ RC) as PC. pose proof (tname_printable _ RT) as PT.
  destruct (Z.eq_dec sec 0) as [-> |S].
  - rewrite (rr_question [] r name k DN) in E. injection E as <-. exists ([59] ++ name ++ [32] ++ cname (rr_class r) ++ [32] ++ tname (rr_type r)). split; [cbn [app]; rewrite <- !app_assoc; cbn [app]; rewrite <- ?app_assoc; reflexivity|pr].
  - rewrite (rr_record [] r sec name k S TT DN) in E. destruct (rr_rdata r) as [d|] eqn:ED; [|discriminate]. destruct (D d eq_refl) as [BD LD]. apply bind_ok in E as (s & E & X). injection X as <-. exists s. split; [auto|].
    assert (PH : printable (record_head name r ++ [32])). { unfold record_head. assert (printable (fmt_u (rr_ttl r))) by (apply fmt_u_printable; change (10 ^ 20) with 100000000000000000000; change (2 ^ 32) with 4294967296 in TT; lia). pr. }
    assert (NE : ~ ends_in_name (format_of (rr_type r) (rr_class r)) d). { intros X. rewrite rdata_cut in E; auto. discriminate. }
    destruct (rdata_safe ([] ++ record_head name r ++ [32]) d [] (rr_type r) (rr_class r) N PH BD ltac:(constructor) LD NE) as (s' & E' & P'). rewrite app_nil_r in E'. congruence.
Qed.
