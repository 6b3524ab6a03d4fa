(** ProofShow5.v: the exact text of RRs, RRsets and messages in memory. *)
From Coq Require Strings.String.
From Verif Require Import Base Lib SpecName SpecMessage SpecEncode SpecParsed SpecFormat SpecTables SpecText SpecMsgText SpecPrint SpecRawName SpecPrintMsg Libc
  ModelName ModelFormat ModelTables ModelDescr ModelToStr ModelParse
  ProofUnpack ProofCopy ProofNameStr ProofRawName ProofNameOps ProofFormat ProofTables ProofRdata ProofPrint ProofPrint2 ProofField ProofVisible ProofRdataText ProofSafe2 ProofOptions ProofMsgText
  ProofShow1 ProofShow2 ProofShow3 ProofShow4.
From Verif Require Import SpecPrint.

(** ** No text starts with a blank *)
Definition starts (t : bytes) : Prop := hd 0 t <> 32.
Lemma starts_app : forall t s, starts t -> starts s -> starts (t ++ s).
Proof. intros [|a t] s H H'; [exact H'|exact H]. Qed.
Lemma starts_ne : forall t s, starts t -> t <> [] -> starts (t ++ s).
Proof. intros [|a t] s H N; [contradiction|exact H]. Qed.
Lemma solid_starts : forall t s, solid t -> starts (t ++ s).
Proof. intros [|a t] s (N & H & _); [contradiction|]. unfold starts. cbn [app hd] in *. intros ->. discriminate. Qed.
Lemma visible_starts : forall t s, visible t -> t <> [] -> starts (t ++ s).
Proof. intros t s V N. apply solid_starts. apply visible_solid; auto. Qed.
Lemma each_starts : forall c ts, Forall solid ts -> starts (each c ts).
Proof. intros c [|t ts] F; [discriminate|]. inversion F; subst. unfold each. cbn [map concat]. rewrite <- app_assoc. apply solid_starts. auto. Qed.
Lemma types_solid : forall ns ts, Forall2 type_text ns ts -> Forall solid ts.
Proof. intros ns ts F. induction F; constructor; auto. apply type_text_visible in H as [A C]. apply visible_solid; auto. Qed.
Lemma strings_solid : forall ss, Forall solid (map quoted ss).
Proof. intros ss. apply Forall_forall. intros x X. apply in_map_iff in X as (y & <- & _). apply quoted_solid. Qed.
Lemma params_starts : forall l s n, params_shown l s n -> starts s.
Proof.
  intros l s n H. destruct H; try discriminate;
  match goal with KH : key_head _ _ |- _ => destruct KH as (w & K & ->) end; apply key_text_visible in K as [A C]; rewrite <- ?app_assoc; apply visible_starts; auto.
Qed.
Lemma head_starts : forall c h s, option_head c h -> starts (h ++ s).
Proof. intros c h s [(_ & ->)|[(_ & ->)|(_ & _ & d & _ & ->)]]; discriminate. Qed.
Lemma option_starts : forall o t s, option_text o t -> starts (t ++ s).
Proof. intros o t s H. destruct H; discriminate. Qed.
Lemma options_starts : forall l s n, options_shown l s n -> starts s.
Proof.
  intros l s n H. destruct H; try discriminate;
  first [rewrite <- (app_nil_r h); eapply head_starts; eassumption|eapply head_starts; eassumption|rewrite <- (app_nil_r s); eapply option_starts; eassumption|eapply option_starts; eassumption].
Qed.
Lemma fixed_nonempty : forall f o, to_end f = false -> field_octets f o -> (forall n, f = FFixed n -> 0 < n) -> o <> [].
Proof.
  intros f o T F P ->. destruct f as [|n| | | | | |]; try discriminate T; cbn in F; [contradiction|specialize (P n eq_refl); cbn in F; lia|destruct F as (s & _ & F); discriminate|destruct F as (q & a & _ & _ & F); discriminate].
Qed.
Lemma shows_starts : forall f p l t n, (forall n, f = FFixed n -> 0 < n) -> shows f p l t n -> l <> [] -> bytes_ok l -> starts t.
Proof.
  intros f p l t n P H NL B. destruct H as [ls r V|ls r V Z|ls V Z|ls c r V Z|f p o r ts TE NE FO FT|f o r t FO TE FT|f p l TE NN NH|l s HT|l|l|ss F|ss l F N NH|b|ws ts r N Z F FT|ws ts w n l F FT Z|l s n PS]; try discriminate.
  - destruct (pres_name_visible ls) as (A & C & _); [apply V|]. apply visible_starts; auto.
  - apply each_starts. eapply field_tokens_solid; [eassumption|]. cbn. apply bytes_ok_app in B as [B _]. split; auto. eapply fixed_nonempty; eauto.
  - assert (K : Forall solid [t]). { eapply field_tokens_solid; [eassumption|]. cbn. apply bytes_ok_app in B as [B _]. split; auto. eapply fixed_nonempty; eauto. }
    rewrite <- (app_nil_r t). apply solid_starts. inversion K; auto.
  - apply ht_nonempty in HT as [A C]; auto. rewrite <- (app_nil_r s). apply visible_starts; auto.
  - rewrite <- (app_nil_r (base64 l)). apply visible_starts; [apply (base64_visible (length l)); auto|apply base64_nonempty; auto].
  - apply each_starts, strings_solid.
  - apply each_starts, strings_solid.
  - apply each_starts. eapply types_solid; eauto.
  - apply each_starts. eapply types_solid; eauto.
  - eapply params_starts; eauto.
Qed.
Lemma fmt_fixed : forall t n, fmt_of t = FFixed n -> 0 < n.
Proof. intros t n E. destruct t; cbn in E; inversion E; lia. Qed.
Lemma fields_starts : forall ts l x e, fields_shown (combine (map fmt_of ts) (map pres_of ts)) l x e -> bytes_ok l -> starts x.
Proof.
  induction ts as [|t ts IH]; intros l x e F B; cbn [map combine] in F; inversion F; subst; try discriminate.
  - match goal with H : shows _ _ _ _ _ |- _ => pose proof H as S end. apply starts_app; [eapply shows_starts; eauto; apply fmt_fixed|]. eapply IH; eauto.
    destruct (shows_suffix _ _ _ _ _ S) as (o & ->). apply bytes_ok_app in B. apply B.
  - eapply shows_starts; eauto. apply fmt_fixed.
Qed.

(** ** Rdata behind a blank *)
Lemma blank_or : forall u (t : bytes), starts t -> strip_blank ((u ++ [32]) ++ t) = u ++ blank_before (strip_blank t).
Proof.
  intros u t S. destruct t as [|a t]; [rewrite app_nil_r, strip_blank_add; cbn; rewrite app_nil_r; auto|]. rewrite strip_app by discriminate. rewrite <- app_assoc. f_equal.
  assert (N : strip_blank (a :: t) <> []). { destruct t as [|b t]; [|]. - unfold strip_blank. cbn [rev app]. replace (a =? 32) with false by (unfold starts in S; cbn in S; lia). discriminate.
    - destruct (exists_last (l := b :: t) ltac:(discriminate)) as (q & c & E). rewrite E. change (a :: q ++ [c]) with ((a :: q) ++ [c]). unfold strip_blank. rewrite rev_unit. destruct (c =? 32); [rewrite rev_involutive; discriminate|discriminate]. }
  unfold blank_before. destruct (strip_blank (a :: t)); [contradiction|reflexivity].
Qed.
Lemma blank_or_err : forall u (x e : bytes), e <> [] -> (u ++ [32]) ++ x ++ e = u ++ blank_before (x ++ e).
Proof. intros u x e N. rewrite <- app_assoc. f_equal. unfold blank_before. destruct (x ++ e) eqn:E; [apply app_eq_nil in E as [_ E]; contradiction|reflexivity]. Qed.
Lemma behind_blank : forall u l ts, (forall o f, fields_text ts l (zlen l) = Ok (o, f) -> starts o) ->
  forall d, ('(t, f) <- fields_text ts l (zlen l) ;; match f with TNext _ _ => Ok (strip_blank ([] ++ t)) | TErr => Ok ([] ++ t ++ lit " ### PARSE ERROR ###")
    | TRes r => Ok ([] ++ t ++ lit " ### PARSE ERROR #" ++ fmt_u (res_code r) ++ lit " ###") end) = Ok d ->
  ('(t, f) <- fields_text ts l (zlen l) ;; match f with TNext _ _ => Ok (strip_blank ((u ++ [32]) ++ t)) | TErr => Ok ((u ++ [32]) ++ t ++ lit " ### PARSE ERROR ###")
    | TRes r => Ok ((u ++ [32]) ++ t ++ lit " ### PARSE ERROR #" ++ fmt_u (res_code r) ++ lit " ###") end) = Ok (u ++ blank_before d).
Proof.
  intros u l ts S d E. destruct (fields_text ts l (zlen l)) as [[o f]|e|x|]; try discriminate E. specialize (S o f eq_refl). cbn [bind] in *. destruct f as [s n| |r].
  - assert (d = strip_blank o) as -> by (cbn [app] in E; congruence). f_equal. apply blank_or. auto.
  - assert (d = o ++ lit " ### PARSE ERROR ###") as -> by (cbn [app] in E; congruence). f_equal. apply blank_or_err. discriminate.
  - assert (d = o ++ lit " ### PARSE ERROR #" ++ fmt_u (res_code r) ++ lit " ###") as -> by (cbn [app] in E; congruence). f_equal. apply blank_or_err. discriminate.
Qed.
Lemma data_shows : forall u l t c s, bytes_ok l -> zlen l < 65536 -> data_shown t c l s -> rdata_to_ubuf (u ++ [32]) l (zlen l) t c = Ok (u ++ s).
Proof.
  intros u l t c s B L (d & H & ->). pose proof (shown_prints l t c d B L H) as E. unfold rdata_shown in H. unfold rdata_to_str, rdata_to_ubuf in E. unfold rdata_to_ubuf. destruct (Z.eqb_spec t 41) as [-> |N].
  - destruct (opt_descr c) as (de & E1 & E2 & E3). rewrite E1, E2, E3 in *. cbn [negb orb] in *. apply behind_blank; auto. destruct H as (x & n & O & M).
    intros o f F. cbn [fields_text] in F. destruct (Z.eqb_spec (zlen l) 0) as [Z0|NZ]; [inversion F; discriminate|]. cbn [field_text] in F.
    destruct (options_shown_print l x n O (S (length l)) [] B L ltac:(lia)) as (g & G & m & X). rewrite app_nil_r in G. rewrite G in F. cbn [bind] in F.
    apply options_starts in O. destruct g; [|inversion F; subst; auto|inversion F; subst; auto]. cbn [fields_text emit bind] in F. rewrite app_nil_r in F. inversion F; subst; auto.
  - cbn [orb]. destruct (find (fun e => fst e =? t) rr_formats) eqn:FD.
    + destruct (has_fields t c) eqn:HF.
      * destruct H as (x & e & F & M). destruct (table_fields t c HF N) as (de & E1 & E2 & E3 & E4 & E5 & E6). rewrite format_of_fields, <- E3, E4 in F. rewrite E1, E2 in *. cbn [negb] in *.
        apply behind_blank; auto. destruct (fields_shown_print (d_types de) l x e E6 F B L l ltac:(auto)) as (g & G & _). intros o f FT. assert (o = x) as -> by congruence. eapply fields_starts; eauto.
      * subst d. destruct (formats_or_not t c N ltac:(congruence) HF) as (de & E1 & E2). rewrite E1, E2. reflexivity.
    + assert (HF : has_fields t c = false) by (unfold has_fields; rewrite FD; auto). rewrite HF.
      destruct (generic_print (u ++ [32]) t c l [] FD B L) as (s' & E' & G). rewrite app_nil_r in E'. unfold rdata_to_ubuf in E'. rewrite E'. rewrite (generic_fun _ _ _ G H). rewrite <- app_assoc. reflexivity.
Qed.
Lemma data_total : forall l t c, bytes_ok l -> zlen l < 65536 -> (exists s, data_shown t c l s) \/ forall u, rdata_to_ubuf (u ++ [32]) l (zlen l) t c = UB OobRead.
Proof.
  intros l t c B L. destruct (shown_total l t c B L) as [(s & H)|U]; [left; eexists _, s; split; [exact H|reflexivity]|]. right. intros u. destruct (rdata_appends u l (zlen l) t c) as (k & ->). unfold rdata_to_str in U. rewrite U. reflexivity.
Qed.

(** ** RRs *)
Lemma dec_is : forall n s, 0 <= n < 2 ^ 32 -> decimal n s -> s = fmt_u n.
Proof. intros n s R D. change (2 ^ 32) with 4294967296 in R. eapply decimal_unique; [exact D|]. apply fmt_u_decimal. change (10 ^ 20) with 100000000000000000000. lia. Qed.
Lemma class_is : forall n s, 0 <= n < 65536 -> class_text n s -> s = cname n.
Proof.
  intros n s R H. unfold cname. destruct (rrclass_to_str n) as [m|] eqn:E; destruct H as [H|(N & d & D & ->)].
  - apply (table_registry _ _ _ classes_ok) in H. unfold rrclass_to_str in E. congruence.
  - exfalso. apply (N m). apply (table_registry _ _ _ classes_ok). exact E.
  - apply (table_registry _ _ _ classes_ok) in H. unfold rrclass_to_str in E. congruence.
  - rewrite (dec_is n d) by (change (2 ^ 32) with 4294967296; auto; lia). reflexivity.
Qed.
Lemma name_prints : forall d ls, name_is d ls -> domain_to_str d (zlen d) = Ok (pres_name ls, zlen (wire ls)).
Proof.
  intros d ls (L & r & E). pose proof (domain_ended d ls r [] (zlen d) E) as H. rewrite app_nil_r in H. apply H. destruct E as (_ & ->). rewrite zlen_app in *. pose proof (zlen_nonneg _ r). lia.
Qed.
Lemma name_wire : forall ls, valid_name ls -> name_is (wire ls) ls.
Proof.
  intros ls (V & L). split; [auto|]. exists []. split; [|rewrite app_nil_r; auto]. revert V. apply Forall_impl. intros l (X & Y). split; [lia|auto].
Qed.

Lemma question_shows : forall u r s, question_fits r -> question_shown r s -> rr_to_ubuf u r 0 = Ok (u ++ s).
Proof.
  intros u r s (_ & RT & RC) (ls & c & t & N & C & T & ->). rewrite (rr_question u r _ _ (name_prints _ _ N)). apply class_is in C; auto. apply type_is in T; auto. subst. reflexivity.
Qed.
Lemma question_total : forall r, question_fits r -> exists s, question_shown r s.
Proof. intros r ((ls & N) & RT & RC). eexists _, ls, _, _. split; [exact N|]. split; [apply cname_text; auto|]. split; [apply tname_text; auto|]. reflexivity. Qed.
Lemma record_shows : forall u r sec s, sec <> 0 -> record_fits r -> record_shown r s -> rr_to_ubuf u r sec = Ok (u ++ s).
Proof.
  intros u r sec s NS ((_ & RT & RC) & TT & (d0 & D0 & B & L)) (ls & ttl & c & t & l & d & N & TL & C & T & D & DS & ->).
  assert (l = d0) as -> by congruence. rewrite (rr_record u r sec _ _ NS TT (name_prints _ _ N)). rewrite D. apply class_is in C; auto. apply type_is in T; auto. apply dec_is in TL; auto. subst.
  rewrite app_assoc. rewrite (data_shows _ _ _ _ _ B L DS). cbn [bind]. unfold record_head. rewrite <- !app_assoc. reflexivity.
Qed.
Lemma record_total : forall r, record_fits r -> (exists s, record_shown r s) \/ forall u sec, sec <> 0 -> rr_to_ubuf u r sec = UB OobRead.
Proof.
  intros r (((ls & N) & RT & RC) & TT & (d & D & B & L)). destruct (data_total d (rr_type r) (rr_class r) B L) as [(s & H)|U].
  - left. eexists _, ls, (fmt_u (rr_ttl r)), (cname (rr_class r)), (tname (rr_type r)), d, s. split; [exact N|]. split; [apply fmt_u_decimal; change (10 ^ 20) with 100000000000000000000; change (2 ^ 32) with 4294967296 in TT; lia|].
    split; [apply cname_text; auto|]. split; [apply tname_text; auto|]. split; [exact D|]. split; [exact H|reflexivity].
  - right. intros u sec NS. rewrite (rr_record u r sec _ _ NS TT (name_prints _ _ N)), D, app_assoc, U. reflexivity.
Qed.

(** ** Lists of RRs *)
Lemma rrs_show : forall (fits : rr -> Prop) (shown : rr -> bytes -> Prop) sec, (forall u r s, fits r -> shown r s -> rr_to_ubuf u r sec = Ok (u ++ s)) ->
  forall rs ss, Forall fits rs -> Forall2 shown rs ss -> forall u, rrs_to_ubuf u rs sec = Ok (u ++ concat ss).
Proof.
  intros fits shown sec H rs ss F S. induction S as [|r s rs ss R S IH]; intros u; [cbn; rewrite app_nil_r; reflexivity|]. inversion F; subst. cbn [rrs_to_ubuf concat]. rewrite (H u r s) by auto. cbn [bind]. rewrite IH by auto. rewrite <- app_assoc. reflexivity.
Qed.
Lemma rrs_total : forall (fits : rr -> Prop) (shown : rr -> bytes -> Prop) sec, (forall u r s, fits r -> shown r s -> rr_to_ubuf u r sec = Ok (u ++ s)) ->
  (forall r, fits r -> (exists s, shown r s) \/ forall u, rr_to_ubuf u r sec = UB OobRead) ->
  forall rs, Forall fits rs -> (exists ss, Forall2 shown rs ss) \/ forall u, rrs_to_ubuf u rs sec = UB OobRead.
Proof.
  intros fits shown sec H T rs F. induction F as [|r rs R F IH]; [left; exists []; constructor|]. destruct (T r R) as [(s & S)|U]; [|right; intros u; cbn [rrs_to_ubuf]; rewrite U; reflexivity].
  destruct IH as [(ss & SS)|U]; [left; exists (s :: ss); constructor; auto|]. right. intros u. cbn [rrs_to_ubuf]. rewrite (H u r s) by auto. cbn [bind]. apply U.
Qed.
Lemma records_show : forall sec rs ss, sec <> 0 -> Forall record_fits rs -> Forall2 record_shown rs ss -> forall u, rrs_to_ubuf u rs sec = Ok (u ++ concat ss).
Proof. intros sec rs ss N. apply (rrs_show record_fits record_shown). intros. apply record_shows; auto. Qed.
Lemma records_total : forall rs, Forall record_fits rs -> (exists ss, Forall2 record_shown rs ss) \/ forall sec, sec <> 0 -> forall u, rrs_to_ubuf u rs sec = UB OobRead.
Proof.
  intros rs F. destruct (rrs_total record_fits record_shown 1 ltac:(intros; apply record_shows; auto; lia)
    ltac:(intros r R; destruct (record_total r R) as [X|X]; [left; auto|right; intros u; apply X; lia]) rs F) as [X|X]; [left; auto|]. right. intros sec N u.
  destruct (rrs_total record_fits record_shown sec ltac:(intros; apply record_shows; auto; lia)
    ltac:(intros r R; destruct (record_total r R) as [Y|Y]; [left; auto|right; intros v; apply Y; lia]) rs F) as [(ss & Y)|Y]; [|auto].
  specialize (X []). rewrite (records_show 1 rs ss ltac:(lia) F Y) in X. discriminate.
Qed.
Lemma questions_show : forall rs ss, Forall question_fits rs -> Forall2 question_shown rs ss -> forall u, rrs_to_ubuf u rs 0 = Ok (u ++ concat ss).
Proof. apply (rrs_show question_fits question_shown). intros. apply question_shows; auto. Qed.
Lemma questions_total : forall rs, Forall question_fits rs -> exists ss, Forall2 question_shown rs ss.
Proof. intros rs F. induction F as [|r rs R F (ss & IH)]; [exists []; constructor|]. destruct (question_total r R) as (s & S). exists (s :: ss). constructor; auto. Qed.

(** ** RRsets *)
Lemma members_fit : forall s, rrset_fits s -> Forall record_fits (map (member s) (rs_rdatas s)).
Proof. intros s (N & R & T & F). apply Forall_map. eapply Forall_impl; [|exact F]. intros d D. split; [split; auto|]. split; [auto|]. exists d. auto. Qed.
Lemma rrset_lines : forall s lines, Forall2 (fun d l => record_shown (member s d) l) (rs_rdatas s) lines <-> Forall2 record_shown (map (member s) (rs_rdatas s)) lines.
Proof.
  intros s. generalize (rs_rdatas s). induction l as [|d l IH]; intros lines; cbn [map]; split; intros H; inversion H; subst; constructor; auto; apply IH; auto.
Qed.
Lemma rrset_shows : forall s sec t, sec <> 0 -> rrset_fits s -> rrset_shown s t -> rrset_to_str s sec = Ok t.
Proof.
  intros s sec t N F (lines & H & ->). apply rrset_lines in H. unfold rrset_to_str, rrset_to_ubuf. replace (sec =? 0) with false by lia. exact (records_show sec _ _ N (members_fit s F) H []).
Qed.
Lemma rrset_total : forall s, rrset_fits s -> (exists t, rrset_shown s t) \/ forall sec, sec <> 0 -> rrset_to_str s sec = UB OobRead.
Proof.
  intros s F. destruct (records_total _ (members_fit s F)) as [(ss & H)|U].
  - left. eexists _, ss. split; [apply rrset_lines; exact H|reflexivity].
  - right. intros sec N. unfold rrset_to_str, rrset_to_ubuf. replace (sec =? 0) with false by lia. apply U. auto.
Qed.

(** ** EDNS *)
Lemma lines_length : forall ts, Forall (fun t : bytes => t <> [] /\ Forall (fun c => c <> 10) t) ts -> (length ts < S (length (join_by 10 ts)))%nat.
Proof.
  intros ts PS. assert (K : (length ts <= length (join_by 10 ts))%nat); [|lia]. induction PS as [|t ts (N & _) PS IH]; [auto|]. destruct ts as [|u ts]; [destruct t; [congruence|cbn; lia]|].
  cbn [join_by] in *. rewrite !app_length. cbn [length] in *. destruct t; [congruence|]. cbn [length]. lia.
Qed.
Lemma lines_print : forall o ts, lines_of o ts -> opt_lines (S (length o)) o = Ok (concat (map (fun t => [10] ++ lit "; " ++ t) ts)).
Proof. intros o ts (-> & F). apply opt_lines_ok; [exact F|apply lines_length; exact F]. Qed.
Lemma lit_no10 : forall l : bytes, forallb (fun c => negb (c =? 10)) l = true -> Forall (fun c => c <> 10) l.
Proof. intros l H. rewrite forallb_forall in H. apply Forall_forall. intros x X. specialize (H x X). cbv beta in H. lia. Qed.
Lemma head_line : forall c h, option_head c h -> h <> [] /\ Forall (fun c => c <> 10) h.
Proof.
  intros c h [(_ & ->)|[(_ & ->)|(_ & _ & d & D & ->)]].
  - split; [discriminate|apply (lit_no10 _); reflexivity].
  - split; [discriminate|apply (lit_no10 _); reflexivity].
  - split; [discriminate|]. apply decimal_visible in D as [V _]. apply Forall_app. split; [apply (lit_no10 _); reflexivity|]. apply Forall_app. split; [eapply Forall_impl; [|exact V]; cbn beta; lia|apply (lit_no10 _); reflexivity].
Qed.
Definition said (x : bytes) (n : next) : bytes := match n with Go _ => x | Stop e => x ++ e end.
Lemma err_line : forall t e, Forall (fun c => c <> 10) t -> In e [err_short; err_value] -> exists ts, ts <> [] /\ lines_of (t ++ e) ts.
Proof.
  intros t e F I. exists [t ++ e]. split; [discriminate|]. split; [reflexivity|]. repeat constructor.
  - intros K. apply app_eq_nil in K as [_ K]. destruct I as [<-|[<-|[]]]; discriminate.
  - apply Forall_app. split; [auto|]. destruct I as [<-|[<-|[]]]; (apply (lit_no10 _); reflexivity).
Qed.
Lemma options_lines : forall l x n, options_shown l x n -> bytes_ok l -> (l = [] /\ said x n = []) \/ exists ts, ts <> [] /\ lines_of (said x n) ts.
Proof.
  intros l x n H. induction H as [|o s V T|o s l t n V T N O IH|b|c l h C V KH|c n l h C NR V KH|c v h l C V KH NO]; intros B; cbn [said].
  - left. auto.
  - right. exists [s]. split; [discriminate|]. split; [reflexivity|]. destruct o as [c v]. apply param_value in B. destruct (option_solid (c, v) s B T) as (A1 & _ & A2). constructor; [split; [auto|apply printable_no_char; auto]|constructor].
  - right. apply bytes_ok_app in B as [B1 B2]. destruct o as [c v]. assert (BV : bytes_ok v). { unfold param in B1. apply bytes_ok_app in B1 as [_ B1]. apply bytes_ok_app in B1 as [_ B1]. exact B1. }
    destruct (option_solid (c, v) s BV T) as (A1 & _ & A2). destruct (IH B2) as [[K _]|(ts & NT & (E & F))]; [contradiction|]. exists (s :: ts). split; [discriminate|]. split; [|constructor; [split; [auto|apply printable_no_char; auto]|auto]].
    rewrite join_cons by auto. rewrite <- E. destruct n; cbn [said app]; rewrite <- ?app_assoc; reflexivity.
  - right. apply (err_line [] err_short); [constructor|cbn; auto].
  - right. apply err_line; [eapply head_line; eauto|cbn; auto].
  - right. apply err_line; [eapply head_line; eauto|cbn; auto].
  - right. apply err_line; [|cbn; auto]. apply Forall_app. split; [eapply head_line; eauto|apply (lit_no10 _); reflexivity].
Qed.
Lemma edns_shows : forall e s, edns_fits e -> edns_shown e s -> edns_text e = Ok s.
Proof.
  intros e s (V & U & O) H. unfold edns_shown in H. unfold edns_text. destruct (e_present e); cbn [negb]; [|subst; reflexivity]. destruct H as (v & u & o & ts & DV & DU & OS & LS & ->).
  apply dec_is in DV; [|change (2 ^ 32) with 4294967296; lia]. apply dec_is in DU; [|change (2 ^ 32) with 4294967296; lia]. subst v u.
  change 32768 with (2 ^ 15). rewrite land_bit by lia. rewrite negb_involutive. rewrite on_if.
  destruct (e_options e) as [d|].
  - destruct O as [B L]. pose proof (shown_prints d 41 class_un o B L OS) as E. unfold rdata_to_str in E. rewrite E. cbn [bind]. rewrite (lines_print _ _ LS). reflexivity.
  - subst o. destruct LS as (E & F). assert (ts = []). { destruct F as [|t ts (N & _) F]; [reflexivity|]. destruct ts; [cbn in E; congruence|]. cbn [join_by] in E. symmetry in E. apply app_eq_nil in E as [E _]. congruence. } subst ts. reflexivity.
Qed.
Lemma edns_total : forall e, edns_fits e -> exists s, edns_shown e s.
Proof.
  intros e (V & U & O). unfold edns_shown. destruct (e_present e); [|eauto].
  assert (D : forall n, 0 <= n < 65536 -> decimal n (fmt_u n)) by (intros n Hn; apply fmt_u_decimal; change (10 ^ 20) with 100000000000000000000; lia).
  assert (X : exists o ts, match e_options e with None => o = [] | Some d => rdata_shown 41 1 d o end /\ lines_of o ts).
  { destruct (e_options e) as [d|]; [|exists [], []; split; [reflexivity|split; [reflexivity|constructor]]]. destruct O as [B L].
    destruct (options_total (length d) d ltac:(lia) B) as (x & n & S). exists (said x n). destruct (options_lines _ _ _ S B) as [[-> E]|(ts & _ & LS)].
    - exists []. rewrite E. split; [|split; [reflexivity|constructor]]. exists x, n. split; [auto|]. rewrite <- E. destruct n; reflexivity.
    - exists ts. split; [|auto]. exists x, n. split; [auto|]. destruct n; reflexivity. }
  destruct X as (o & ts & X1 & X2). eexists _, _, _, o, ts. split; [apply D; lia|]. split; [apply D; lia|]. split; [exact X1|]. split; [exact X2|reflexivity].
Qed.

(** ** Messages *)
Lemma code_is : forall f t n s m, (forall v s, f v = Some s <-> mnemonic t v s) -> 0 <= n < 2 ^ 32 -> code_text t n s -> m = match f n with Some s => s | None => fmt_u n end -> s = m.
Proof.
  intros f t n s m R B H ->. destruct (f n) as [x|] eqn:E; destruct H as [H|(N & D)].
  - apply R in H. congruence.
  - exfalso. apply (N x). apply R. exact E.
  - apply R in H. congruence.
  - apply dec_is; auto.
Qed.
Lemma header_is : forall M s, message_fits M ->
  header_lines (m_id M) (m_flags M) (m_rcode M) (zlen (a_rrs (m_qd M))) (zlen (a_rrs (m_an M))) (zlen (a_rrs (m_ns M))) (zlen (a_rrs (m_ar M))) s -> s = header_text M.
Proof.
  intros M s (RI & RF & RR & _ & _ & _ & _ & _ & L0 & L1 & L2 & L3) H. pose proof (header_ok M RI RF RR L0 L1 L2 L3) as H'.
  pose proof (zlen_nonneg _ (a_rrs (m_qd M))). pose proof (zlen_nonneg _ (a_rrs (m_an M))). pose proof (zlen_nonneg _ (a_rrs (m_ns M))). pose proof (zlen_nonneg _ (a_rrs (m_ar M))).
  destruct H as (op & rc & i & q & a & n & r & A1 & A2 & A3 & A4 & A5 & A6 & A7 & ->). destruct H' as (op' & rc' & i' & q' & a' & n' & r' & B1 & B2 & B3 & B4 & B5 & B6 & B7 & ->).
  assert (op = op'). { assert (G : forall x, code_text iana_opcodes (m_flags M / 2048 mod 16) x -> x = match opcode_to_str (m_flags M / 2048 mod 16) with Some s => s | None => fmt_u (m_flags M / 2048 mod 16) end).
    { intros x X. pose proof (Z.mod_pos_bound (m_flags M / 2048) 16 ltac:(lia)). pose proof (opcode_table (m_flags M / 2048 mod 16)) as OT. destruct (opcode_to_str (m_flags M / 2048 mod 16)) as [y|] eqn:EO; destruct X as [X|(N & D)].
      - destruct X as (x0 & I & ->), OT as (y0 & J & ->). revert I J. generalize (m_flags M / 2048 mod 16). unfold iana_opcodes. cbn [In]. intros z I J.
        repeat (destruct I as [I|I]; [inversion I; subst; repeat (destruct J as [J|J]; [inversion J; subst; reflexivity|]); contradiction|]). contradiction.
      - exfalso. apply (N y). exact OT.
      - exfalso. apply (OT x). exact X.
      - apply dec_is; auto. change (2 ^ 32) with 4294967296. lia. }
    rewrite (G op), (G op'); auto. }
  assert (rc = rc'). { assert (G : forall x, code_text iana_rcodes (m_rcode M) x -> x = match rcode_to_str (m_rcode M) with Some s => s | None => fmt_u (m_rcode M) end).
    { intros x X. apply (code_is rcode_to_str iana_rcodes (m_rcode M)); auto; [intros v w; apply (table_registry _ _ _ rcodes_ok)|change (2 ^ 32) with 4294967296; lia]. }
    rewrite (G rc), (G rc'); auto. }
  apply (decimal_unique _ _ _ A3) in B3. apply (decimal_unique _ _ _ A4) in B4. apply (decimal_unique _ _ _ A5) in B5. apply (decimal_unique _ _ _ A6) in B6. apply (decimal_unique _ _ _ A7) in B7. subst. reflexivity.
Qed.
Lemma message_shows : forall M t, message_fits M -> message_shown M t -> message_to_str M = Ok t.
Proof.
  intros M t F (h & e & q & a & n & r & H & E & Q & A & N & R & ->). pose proof (header_is M h F H) as ->. destruct F as (RI & RF & RR & FQ & FA & FN & FR & FE & L0 & L1 & L2 & L3).
  unfold message_to_str. rewrite (edns_shows _ _ FE E). cbn [bind]. unfold rrset_array_to_ubuf. rewrite (questions_show _ _ FQ Q). cbn [bind]. rewrite (records_show 1 _ _ ltac:(lia) FA A). cbn [bind].
  rewrite (records_show 2 _ _ ltac:(lia) FN N). cbn [bind]. rewrite (records_show 3 _ _ ltac:(lia) FR R). rewrite <- !app_assoc. reflexivity.
Qed.
Lemma message_total : forall M, message_fits M -> (exists t, message_shown M t) \/ message_to_str M = UB OobRead.
Proof.
  intros M F. pose proof F as (RI & RF & RR & FQ & FA & FN & FR & FE & L0 & L1 & L2 & L3).
  destruct (edns_total _ FE) as (e & E). destruct (questions_total _ FQ) as (q & Q).
  destruct (records_total _ FA) as [(a & A)|U]; [destruct (records_total _ FN) as [(n & N)|U]; [destruct (records_total _ FR) as [(r & R)|U]|]|].
  - left. eexists _, (header_text M), e, q, a, n, r. split; [apply header_ok; auto|]. split; [exact E|]. split; [exact Q|]. split; [exact A|]. split; [exact N|]. split; [exact R|reflexivity].
  - right. unfold message_to_str. rewrite (edns_shows _ _ FE E). cbn [bind]. unfold rrset_array_to_ubuf. rewrite (questions_show _ _ FQ Q). cbn [bind]. rewrite (records_show 1 _ _ ltac:(lia) FA A). cbn [bind].
    rewrite (records_show 2 _ _ ltac:(lia) FN N). cbn [bind]. apply U. lia.
  - right. unfold message_to_str. rewrite (edns_shows _ _ FE E). cbn [bind]. unfold rrset_array_to_ubuf. rewrite (questions_show _ _ FQ Q). cbn [bind]. rewrite (records_show 1 _ _ ltac:(lia) FA A). cbn [bind]. rewrite U by lia. reflexivity.
  - right. unfold message_to_str. rewrite (edns_shows _ _ FE E). cbn [bind]. unfold rrset_array_to_ubuf. rewrite (questions_show _ _ FQ Q). cbn [bind]. rewrite U by lia. reflexivity.
Qed.
