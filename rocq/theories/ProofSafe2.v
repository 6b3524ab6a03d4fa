(** ProofSafe2.v: printing whole rdata, RRs and options: what is read, what is written. *)
From Coq Require Strings.String.
From Verif Require Import Base Lib SpecName SpecMessage SpecEncode SpecFormat SpecTables SpecText Libc ModelName ModelFormat ModelTables ModelDescr ModelToStr ModelParse
  ProofUnpack ProofCopy ProofNameStr ProofNameOps ProofFormat ProofInet ProofInet6 ProofB64 ProofB32 ProofTables ProofRdata ProofPrint ProofPrint2 ProofField ProofVisible ProofEncode ProofRdataText ProofFromStr ProofBitmap ProofSvc ProofRoundTrip ProofSafe.

Lemma strip_blank_printable : forall u, printable u -> printable (strip_blank u).
Proof.
  intros u P. unfold strip_blank. destruct (rev u) as [|c r] eqn:E; [auto|]. destruct (c =? 32); [|auto].
  assert (u = rev r ++ [c]) as -> by (rewrite <- (rev_involutive u), E; reflexivity). apply printable_app in P. tauto.
Qed.
Lemma strip_blank_lines : forall u, printable_lines u -> printable_lines (strip_blank u).
Proof.
  intros u P. unfold strip_blank. destruct (rev u) as [|c r] eqn:E; [auto|]. destruct (c =? 32); [|auto].
  assert (u = rev r ++ [c]) as -> by (rewrite <- (rev_involutive u), E; reflexivity). apply lines_app in P. tauto.
Qed.
(** strip_blank removes nothing but the last octet of what was appended, or of the ubuf when nothing was. *)
Lemma rest_not_cut : forall l, ~ ends_in_name [FRest] l.
Proof. intros l (b & a & vs & ls & E & _). destruct b as [|f [|g b]]; [discriminate|destruct a; discriminate|destruct b; discriminate]. Qed.

Lemma error_printable : forall r, printable (fmt_u (res_code r)).
Proof. intros r. apply fmt_u_printable. change (10 ^ 20) with 100000000000000000000. destruct r; cbn; lia. Qed.

Lemma rdata_safe : forall u l after t c, t <> 41 -> printable u -> bytes_ok l -> bytes_ok after -> zlen l < 65536 -> ~ ends_in_name (format_of t c) l ->
  exists s, rdata_to_ubuf u (l ++ after) (zlen l) t c = Ok s /\ printable s.
Proof.
  intros u l after t c N P B BA L NE. destruct (has_fields t c) eqn:H.
  - destruct (table_fields t c H N) as (d & E1 & E2 & E3 & _ & _ & E5). unfold rdata_to_ubuf. rewrite E1, E2. cbn [negb].
    assert (EO : ends_ok (d_types d) = true) by (rewrite E3; apply fields_for_ends). pose proof (zlen_nonneg _ l). pose proof (zlen_nonneg _ after).
    destruct (fields_safe (d_types d) (l ++ after) (zlen l) EO E5 ltac:(apply bytes_ok_app; auto) ltac:(rewrite zlen_app; lia) L) as [(s & f & E & PS)|F].
    + rewrite E. cbn [bind]. destruct f as [s' n'| |r].
      * eexists. split; [reflexivity|]. apply strip_blank_printable. pr.
      * eexists. split; [reflexivity|]. pr.
      * eexists. split; [reflexivity|]. pose proof (error_printable r). pr.
    + exfalso. apply NE. rewrite format_of_fields, <- E3. apply fcut_exact. destruct F as (before & aft & vs & ls & rest & F1 & F2 & F3 & F4 & F5 & F6 & F7).
      exists before, aft, vs, ls, []. rewrite app_nil_r. repeat (split; [solve [auto]|]). split; [|auto].
      rewrite app_assoc in F6. symmetry in F7. destruct (app_zlen_inj l after (canon vs ++ prewire ls) rest) as [X _]; auto.
  - destruct (find (fun e => fst e =? t) rr_formats) as [[i [io fs]]|] eqn:F.
    + exists u. split; [|auto]. assert (I : In t (map fst rr_formats)). { destruct (in_dec Z.eq_dec t (map fst rr_formats)) as [I|I]; auto. rewrite find_none_key in F by auto. discriminate. }
      assert (G : exists d, lookup_descr t = Some d /\ (d_class d =? class_un) || (d_class d =? c) = false).
      { clear F i io fs NE. cbn in I. repeat (destruct I as [<-|I]; [eexists; split; [unfold lookup_descr; cbn; reflexivity|]; unfold has_fields in H; cbn in H |- *; first [discriminate|destruct c as [|[]|]; first [discriminate|reflexivity]]|]). contradiction. }
      destruct G as (d & E1 & E2). unfold rdata_to_ubuf. rewrite E1, E2. reflexivity.
    + apply no_fields_generic in F. unfold rdata_to_ubuf. rewrite F. pose proof (zlen_nonneg _ l).
      rewrite u64_text_fmt by lia. cbn [bind]. rewrite zlen_to_nat, hex_blanks_spec by (auto; lia). cbn [bind]. eexists. split; [reflexivity|].
      pose proof (hex_blanks_printable l B). assert (printable (fmt_u (zlen l))) by (apply fmt_u_printable; change (10 ^ 20) with 100000000000000000000; lia). pr.
Qed.

Lemma rdata_cut : forall u l t c, bytes_ok l -> zlen l < 65536 -> ends_in_name (format_of t c) l -> rdata_to_ubuf u l (zlen l) t c = UB OobRead.
Proof.
  intros u l t c B L EN. destruct (Z.eq_dec t 41) as [-> |N]; [destruct (rest_not_cut l); exact EN|]. destruct (has_fields t c) eqn:H.
  - destruct (table_fields t c H N) as (d & E1 & E2 & E3 & _ & _ & E5). unfold rdata_to_ubuf. rewrite E1, E2. cbn [negb].
    assert (EO : ends_ok (d_types d) = true) by (rewrite E3; apply fields_for_ends). rewrite fields_cut; auto. apply fcut_exact. rewrite E3, <- format_of_fields. exact EN.
  - assert (format_of t c = [FRest]) as EF. { unfold has_fields in H. unfold format_of. destruct (find _ _) as [[i [io fs]]|]; [rewrite H|]; reflexivity. }
    rewrite EF in EN. destruct (rest_not_cut l EN).
Qed.

(** ** OPT *)
Lemma opt_safe : forall u l after c, printable_lines u -> bytes_ok l -> bytes_ok after -> zlen l < 65536 ->
  exists s, rdata_to_ubuf u (l ++ after) (zlen l) 41 c = Ok s /\ printable_lines s.
Proof.
  intros u l after c P B BA L. unfold rdata_to_ubuf. change (lookup_descr 41) with (Some {| d_class := class_un; d_types := [rdf_edns_opt_rdata] |}).
  cbn [d_class]. change (negb _) with false. cbv iota. cbn [d_types fields_text].
  destruct (Z.eqb_spec (zlen l) 0) as [Z|Z]; [cbn [bind]; eexists; split; [reflexivity|]; apply strip_blank_lines; rewrite app_nil_r; auto|].
  pose proof (zlen_nonneg _ l). pose proof (zlen_nonneg _ after).
  destruct (ednsopts_safe (S (length (l ++ after))) (l ++ after) (zlen l) ltac:(apply bytes_ok_app; auto) ltac:(rewrite zlen_app; lia) ltac:(lia)) as (s & g & E & PS & G).
  cbn [field_text]. rewrite E. cbn [bind]. destruct g as [s' n'| |r].
  - cbn [emit bind]. eexists. split; [reflexivity|]. apply strip_blank_lines. rewrite app_nil_r. apply lines_app. auto.
  - eexists. split; [reflexivity|]. rewrite !lines_app. split; [auto|]. split; [auto|]. apply printable_lines_of. pr.
  - cbn [bind]. eexists. split; [reflexivity|]. rewrite !lines_app. pose proof (error_printable r). split; [auto|]. split; [auto|]. rewrite <- !lines_app. apply printable_lines_of. pr.
Qed.

(** ** RRs *)
Lemma class_printable : forall c s, rrclass_to_str c = Some s -> printable s.
Proof. intros c s E. apply (table_registry _ _ _ classes_ok) in E. apply visible_printable. eapply (mnemonic_visible iana_classes); eauto; vm_compute; reflexivity. Qed.
