(** PropExamples.v: C111..C117: the example programs from their arguments to their output. Spec: SpecExamples.v, SpecLoose.v,
    SpecFault.v, SpecPrintMsg.v, SpecRRset.v, SpecFold.v. *)
From Coq Require Strings.String.
From Verif Require Import Base Lib SpecName SpecMessage SpecFormat SpecText SpecMsgText SpecParsed SpecSane SpecLoose SpecFault SpecRRset SpecRawName SpecFold SpecDeliver SpecLibmyText SpecPrint SpecPrintMsg SpecExamples.
From Verif Require Import Libc ModelName ModelParse ModelRRset ModelToStr ModelFromStr ModelLibmyText ModelExamples.
From Verif Require Import ProofLibmyText ProofSane ProofReadSvc ProofShow5 PropParse PropLoose PropSane PropCompose PropDeliver PropRRset PropFold PropLibmyText PropPrintMsg PropRawText.
From Verif Require Import SpecLibmyText SpecPrint SpecPrintMsg SpecExamples ModelExamples.

Lemma spells_ok : forall s l, spells s l -> bytes_ok l.
Proof. intros s l (_ & _ & H). induction H as [|h l x y s r D1 D2 H IH]; constructor; auto. apply hex_digit_range in D1, D2. red. lia. Qed.
Lemma no_nul : forall t, printable_lines t -> cstr t = t.
Proof. intros t P. apply cstr_iff. split; [|left; reflexivity]. eapply Forall_impl; [|exact P]. cbv beta. intros. lia. Qed.
Lemma decode_spelt : forall s l, spells s l -> driver_decode s = Ok (Some l, []).
Proof.
  intros s l (N & L & H). unfold driver_decode. destruct (C78_hex_decode s L) as (r & -> & R). cbn [bind]. assert (r = Some l) by (apply R; auto). subst r. reflexivity.
Qed.

(** ** C111: the driver *)
Section Driver.
Context {A : Type} (load : bytes -> outcome (option A)) (test : A -> outcome (bytes * bytes)).
Lemma driver_spelt : forall a0 s l, spells s l -> hex_driver load test [a0; s] =
  (x <- load l ;; match x with None => Ok (says [] (line (lit "Error: load function failed")) 1) | Some a => t <- test a ;; Ok (says (fst t) (snd t) 0) end).
Proof.
  intros a0 s l S. unfold hex_driver. rewrite (decode_spelt _ _ S). cbn [bind]. destruct (load l) as [[a|]| | |]; cbn [bind]; auto. destruct (test a) as [[o e]| | |]; reflexivity.
Qed.
End Driver.
Theorem C111_spelt : forall A (load : bytes -> outcome (option A)) test a0 s l, spells s l ->
  (forall a o e, load l = Ok (Some a) -> test a = Ok (o, e) -> hex_driver load test [a0; s] = Ok (says o e 0)) /\
  (load l = Ok None -> hex_driver load test [a0; s] = Ok (says [] (line (lit "Error: load function failed")) 1)).
Proof.
  intros A load test a0 s l S. rewrite (driver_spelt load test a0 s l S). split.
  - intros a o e -> T. cbn [bind]. rewrite T. reflexivity.
  - intros ->. reflexivity.
Qed.
Print Assumptions C111_spelt.
Theorem C111_not_spelt : forall A (load : bytes -> outcome (option A)) test a0 s, zlen s < 2 ^ 63 -> (forall l, ~ spells s l) ->
  hex_driver load test [a0; s] = Ok (says (if Z.even (zlen s) && (0 <? zlen s) then line (lit "hex_to_int() failed") else []) (line (lit "Error: unable to decode hex")) 1).
Proof.
  intros A load test a0 s L N. unfold hex_driver, driver_decode. destruct (C78_hex_decode s L) as (r & -> & R). cbn [bind].
  assert (r = None) by (destruct r as [raw|]; auto; destruct (N raw); destruct (proj1 (R raw) eq_refl); split; auto). subst r. unfold says. do 2 f_equal.
  pose proof (zlen_nonneg _ s). rewrite Zeven_mod. unfold Zeq_bool. destruct (zlen s =? 0) eqn:Z0; cbn [orb].
  - replace (0 <? zlen s) with false by lia. rewrite andb_false_r. reflexivity.
  - replace (0 <? zlen s) with true by lia. rewrite andb_true_r. destruct (zlen s mod 2 =? 0) eqn:Z1.
    + replace (zlen s mod 2) with 0 by lia. reflexivity.
    + destruct (zlen s mod 2 ?= 0) eqn:C; [apply Z.compare_eq in C; lia|reflexivity|reflexivity].
Qed.
Print Assumptions C111_not_spelt.
Theorem C111_usage : forall A (load : bytes -> outcome (option A)) test a0 args, length args <> 1%nat ->
  hex_driver load test (a0 :: args) = Ok (says [] (line (lit "Usage: " ++ a0 ++ lit " <HEXDATA>")) 1).
Proof.
  intros A load test a0 args N. destruct args as [|b [|c args]]; [| exfalso; apply N; reflexivity |]; cbn [hex_driver]; unfold says, line, exit_failure; rewrite <- !app_assoc; reflexivity.
Qed.
Print Assumptions C111_usage.
Theorem C111_one_meaning : forall s l l', spells s l -> spells s l' -> l = l'.
Proof. intros s l l' (_ & _ & H) (_ & _ & H'). apply (hex_text_fun _ _ H _ H'). Qed.
Print Assumptions C111_one_meaning.

(** ** C112: wdns-test-print-message *)
Theorem C112_prints : forall fuel a0 s l o, 65535 < Z.of_nat fuel -> spells s l ->
  (prog_print_message fuel [a0; s] = Ok (says o [] 0) <-> exists m, loose_message l m /\ message_shown (parsed m) o).
Proof.
  intros fuel a0 s l o F S. unfold prog_print_message. rewrite (driver_spelt _ _ a0 s l S). pose proof (spells_ok _ _ S) as B. unfold load_message. split.
  - intros E. destruct (parse_message fuel l (zlen l)) as [[r M]| | |] eqn:P; try discriminate. cbn [bind] in E. destruct r; try discriminate. cbn [bind] in E.
    unfold test_print_message in E. destruct (message_to_str M) as [t| | |] eqn:T; try discriminate. cbn [bind fst snd] in E. unfold says, fputs in E.
    destruct (C52_message fuel l (zlen l) _ M t B P T) as (PL & _). rewrite (no_nul _ PL) in E. assert (o = t) by congruence. subst o.
    pose proof (proj1 (C106_packet fuel l M B F P) t) as Q. apply Q in T. apply C93_accepts_exactly in P as (m & LM & ->); auto. eauto.
  - intros (m & LM & SH). assert (P : parse_message fuel l (zlen l) = Ok (res_success, parsed m)) by (apply C93_accepts_exactly; eauto). rewrite P. cbn [bind].
    apply (proj1 (C106_packet fuel l _ B F P) o) in SH. unfold test_print_message. rewrite SH. cbn [bind fst snd]. unfold fputs.
    destruct (C52_message fuel l (zlen l) _ _ o B P SH) as (PL & _). rewrite (no_nul _ PL). reflexivity.
Qed.
Print Assumptions C112_prints.
Theorem C112_refuses : forall fuel a0 s l, 65535 < Z.of_nat fuel -> spells s l ->
  (prog_print_message fuel [a0; s] = Ok (says [] (line (lit "Error: load function failed")) 1) <-> ~ hangs l /\ ~ overreads l /\ forall m, ~ loose_message l m).
Proof.
  intros fuel a0 s l F S. unfold prog_print_message. rewrite (driver_spelt _ _ a0 s l S). pose proof (spells_ok _ _ S) as B. unfold load_message. split.
  - intros E. destruct (parse_message fuel l (zlen l)) as [[r M]| | |] eqn:P; try discriminate. split; [|split].
    + intros H. rewrite (proj2 (C94_hangs_exactly l B) H fuel F) in P. discriminate.
    + intros H. apply (C95_overreads_exactly fuel) in H; auto. congruence.
    + intros m LM. assert (P' : parse_message fuel l (zlen l) = Ok (res_success, parsed m)) by (apply C93_accepts_exactly; eauto). rewrite P' in P. assert (r = res_success) by congruence. subst r.
      cbn [bind] in E. unfold test_print_message in E. destruct (message_to_str M); try discriminate.
  - intros (NH & NO & NL). destruct (C95_otherwise_returns fuel l B F NH NO) as (r & M & P). rewrite P. cbn [bind]. destruct r; try reflexivity. exfalso.
    apply C93_accepts_exactly in P as (m & LM & _); auto. eapply NL. eauto.
Qed.
Print Assumptions C112_refuses.
(** Otherwise it does not come to an end, or reads outside the block: *)
Theorem C112_hangs : forall fuel a0 s l, 65535 < Z.of_nat fuel -> spells s l -> (prog_print_message fuel [a0; s] = NoFuel <-> hangs l).
Proof.
  intros fuel a0 s l F S. unfold prog_print_message. rewrite (driver_spelt _ _ a0 s l S). pose proof (spells_ok _ _ S) as B. unfold load_message. split.
  - intros E. destruct (parse_message fuel l (zlen l)) as [[r M]| | |] eqn:P; try discriminate; [|eapply C94_bound_decides; eauto]. exfalso. cbn [bind] in E. destruct r; try discriminate. cbn [bind] in E.
    unfold test_print_message in E. destruct (C98_message_exactly fuel l M B F P) as [H1 H2].
    destruct (message_to_str M) eqn:T; try discriminate. destruct (message_total M (parsed_fits _ _ _ B F P)) as [(t & SH)|U]; [|congruence]. apply message_shows in SH; [congruence|]. eapply parsed_fits; eauto.
  - intros H. rewrite (proj2 (C94_hangs_exactly l B) H fuel F). reflexivity.
Qed.
Print Assumptions C112_hangs.
Theorem C112_overreads : forall fuel a0 s l, 65535 < Z.of_nat fuel -> spells s l ->
  (prog_print_message fuel [a0; s] = UB OobRead <-> overreads l \/ exists m r, loose_message l m /\ In r (records (parsed m)) /\ cut_rr r).
Proof.
  intros fuel a0 s l F S. unfold prog_print_message. rewrite (driver_spelt _ _ a0 s l S). pose proof (spells_ok _ _ S) as B. unfold load_message. split.
  - intros E. destruct (parse_message fuel l (zlen l)) as [[r M]|e|u|] eqn:P; try discriminate.
    + right. cbn [bind] in E. destruct r; try discriminate. cbn [bind] in E. unfold test_print_message in E.
      destruct (C98_message_exactly fuel l M B F P) as [_ H]. destruct (message_to_str M) as [t|e|u|] eqn:T; try discriminate. assert (u = OobRead) by (cbn [bind] in E; congruence). subst u. destruct (proj1 H eq_refl) as (r & I & C).
      apply C93_accepts_exactly in P as (m & LM & ->); auto. eauto 6.
    + left. apply (C95_overreads_exactly fuel); auto. cbn [bind] in E. rewrite P. congruence.
  - intros [H|(m & r & LM & I & C)].
    + apply (C95_overreads_exactly fuel) in H; auto. rewrite H. reflexivity.
    + assert (P : parse_message fuel l (zlen l) = Ok (res_success, parsed m)) by (apply C93_accepts_exactly; eauto). rewrite P. cbn [bind].
      unfold test_print_message. rewrite (proj2 (proj2 (C98_message_exactly fuel l _ B F P))) by eauto. reflexivity.
Qed.
Print Assumptions C112_overreads.
(** The four cases are all there are; the last cannot happen by a record in packets of up to 65000 octets. *)
Theorem C112_cases : forall fuel a0 s l, 65535 < Z.of_nat fuel -> spells s l ->
  let R := prog_print_message fuel [a0; s] in
  (exists o, R = Ok (says o [] 0)) \/ R = Ok (says [] (line (lit "Error: load function failed")) 1) \/ R = NoFuel \/ R = UB OobRead.
Proof.
  intros fuel a0 s l F S. cbv zeta. unfold prog_print_message. rewrite (driver_spelt _ _ a0 s l S). pose proof (spells_ok _ _ S) as B. unfold load_message.
  destruct (parse_message fuel l (zlen l)) as [[r M]|e|u|] eqn:P; cbn [bind].
  - destruct r; auto. unfold test_print_message. cbn [bind]. destruct (C98_message_exactly fuel l M B F P) as [H1 H2].
    destruct (message_total M (parsed_fits _ _ _ B F P)) as [(t & SH)|U]; [|rewrite U; auto]. apply message_shows in SH; [|eapply parsed_fits; eauto]. rewrite SH. cbn [bind]. eauto.
  - exfalso. eapply ProofFault.message_not_err; eauto.
  - right. right. right. pose proof (ProofFault.message_oo fuel l u B F P). subst u. reflexivity.
  - auto.
Qed.
Print Assumptions C112_cases.
Theorem C112_small : forall fuel a0 s l m, 65535 < Z.of_nat fuel -> spells s l -> zlen l <= 65000 -> loose_message l m ->
  exists o, prog_print_message fuel [a0; s] = Ok (says o [] 0) /\ message_shown (parsed m) o.
Proof.
  intros fuel a0 s l m F S L LM. pose proof (spells_ok _ _ S) as B. assert (P : parse_message fuel l (zlen l) = Ok (res_success, parsed m)) by (apply C93_accepts_exactly; eauto).
  destruct (proj2 (C106_packet fuel l _ B F P) L) as (t & T & SH). exists t. split; [|auto]. apply (C112_prints fuel a0 s l t F S). eauto.
Qed.
Print Assumptions C112_small.

(** ** C113: wdns-test-deserialize-rrset *)
Lemma all_some_map : forall l, all_some (map Some l) = Ok l.
Proof. induction l as [|d l IH]; [reflexivity|]. cbn [map all_some]. rewrite IH. reflexivity. Qed.
Lemma rrset_of_holds : forall o x, holds o x -> rrset_of o = Ok x.
Proof.
  intros o x (A & B & C & D & E & F & G). unfold rrset_of. rewrite B, G, A, F. assert (L : zlen (map Some (rs_rdatas x)) = zlen (rs_rdatas x)) by (unfold zlen; rewrite map_length; reflexivity).
  rewrite L, !Z.eqb_refl. cbn [negb]. rewrite all_some_map. cbn [bind]. rewrite C, D, E. destruct x; reflexivity.
Qed.
(** Octets that begin with a serialised RRset. *)
Definition begins_with (big : bool) (l : bytes) (x : rrset) : Prop := wf_rrset x /\ exists rest, l = serial big x ++ rest.
Lemma begins_fun : forall big l x y, begins_with big l x -> begins_with big l y -> x = y.
Proof. intros big l x y (W & r & E) (W' & r' & E'). rewrite E in E'. exact (C32_injective big x y r r' W W' E'). Qed.
Lemma load_rrset_ok : forall big l x, bytes_ok l -> begins_with big l x -> load_rrset big l = Ok (Some x).
Proof.
  intros big l x B (W & rest & E). destruct (C33_total big l B) as [(o & D)|(o & D & C)].
  - pose proof D as D'. apply C33_success_iff in D' as (y & r & W' & E' & H); auto. assert (x = y) by (rewrite E in E'; exact (C32_injective big x y rest r W W' E')). subst y.
    unfold load_rrset. rewrite D. cbn [bind]. rewrite (rrset_of_holds _ _ H). reflexivity.
  - exfalso. assert (D' : exists o, deserialize_rrset big l (zlen l) = Ok (res_success, o)). { exists (ProofRRset.the_obj x). apply C33_success_iff; auto. exists x, rest. split; [auto|]. split; [auto|]. apply ProofRRset.holds_iff; auto. }
    destruct D' as (o' & D'). congruence.
Qed.
Lemma load_rrset_none : forall big l, bytes_ok l -> (forall x, ~ begins_with big l x) -> load_rrset big l = Ok None.
Proof.
  intros big l B N. unfold load_rrset. destruct (C33_total big l B) as [(o & D)|(o & D & C)]; [|rewrite D; reflexivity].
  exfalso. apply C33_success_iff in D as (x & r & W & E & _); auto. apply (N x). split; eauto.
Qed.
Lemma begins_dec : forall big l, bytes_ok l -> (exists x, begins_with big l x) \/ (forall x, ~ begins_with big l x).
Proof.
  intros big l B. destruct (C33_total big l B) as [(o & D)|(o & D & C)].
  - left. apply C33_success_iff in D as (x & r & W & E & _); auto. exists x. split; eauto.
  - right. intros x (W & rest & E). pose proof (proj2 (C33_success_iff big l (ProofRRset.the_obj x) B)) as H. rewrite H in D; [discriminate|]. exists x, rest. split; [auto|]. split; [auto|]. apply ProofRRset.holds_iff; auto.
Qed.
Lemma print_set_ok : forall x t, wf_rrset x -> (test_print_rrset x = Ok (t, []) <-> rrset_shown x t).
Proof.
  intros x t W. unfold test_print_rrset. split.
  - intros E. apply bind_ok in E as (t' & T & E). unfold fputs in E. rewrite no_nul in E; [|eapply C52_rrset; [|exact T]].
    + assert (t' = t) by congruence. subst. apply (C109_text x 1 t W ltac:(lia)). auto.
    + destruct W as (W1 & W2 & W3 & W4 & W5 & W6 & W7). split; [split; auto|]. split; [auto|]. split; [auto|]. split; [auto|]. split; [exact W7|auto].
  - intros H. apply (C109_text x 1 t W ltac:(lia)) in H. rewrite H. cbn [bind]. unfold fputs. rewrite no_nul; [reflexivity|]. eapply C52_rrset; [|exact H].
    destruct W as (W1 & W2 & W3 & W4 & W5 & W6 & W7). split; [split; auto|]. split; [auto|]. split; [auto|]. split; [auto|]. split; [exact W7|auto].
Qed.
(** The text cannot be made: the name has no end, or some rdata stops inside a name, and there is a line to print. *)
Definition endless_text (x : rrset) : Prop :=
  rs_rdatas x <> [] /\ (~ name_ends (rs_name x) \/ Exists (ends_in_name (format_of (rs_type x) (rs_class x))) (rs_rdatas x)).
Lemma print_set_cases : forall x, wf_rrset x -> (test_print_rrset x = UB OobRead <-> endless_text x) /\ (test_print_rrset x = UB OobRead \/ exists t, test_print_rrset x = Ok (t, []) /\ rrset_shown x t).
Proof.
  intros x W. destruct (C109_reads x 1 W ltac:(lia)) as (H1 & H2). unfold endless_text. rewrite <- H1. split.
  - unfold test_print_rrset. destruct (rrset_to_str x 1); cbn [bind]; split; congruence.
  - destruct H2 as [H2|(t & T)]; [left; unfold test_print_rrset; rewrite H2; reflexivity|]. right. apply C109_text in T; auto; [|lia]. exists t. split; [apply print_set_ok; auto|auto].
Qed.
Theorem C113_prints : forall big a0 s l o, spells s l ->
  (prog_deserialize big [a0; s] = Ok (says o [] 0) <-> exists x, begins_with big l x /\ rrset_shown x o).
Proof.
  intros big a0 s l o S. pose proof (spells_ok _ _ S) as B. unfold prog_deserialize. rewrite (driver_spelt _ _ a0 s l S). split.
  - intros E. destruct (begins_dec big l B) as [(x & X)|N]; [|rewrite (load_rrset_none _ _ B N) in E; discriminate]. rewrite (load_rrset_ok _ _ _ B X) in E. cbn [bind] in E.
    exists x. split; [auto|]. destruct (print_set_cases x (proj1 X)) as (_ & [U|(t & T & SH)]); [rewrite U in E; discriminate|]. rewrite T in E. cbn [bind fst snd] in E. unfold says in E. assert (t = o) by congruence. subst. auto.
  - intros (x & X & SH). rewrite (load_rrset_ok _ _ _ B X). cbn [bind]. apply print_set_ok in SH; [|apply X]. rewrite SH. reflexivity.
Qed.
Print Assumptions C113_prints.
Theorem C113_refuses : forall big a0 s l, spells s l ->
  (prog_deserialize big [a0; s] = Ok (says [] (line (lit "Error: load function failed")) 1) <-> forall x, ~ begins_with big l x).
Proof.
  intros big a0 s l S. pose proof (spells_ok _ _ S) as B. unfold prog_deserialize. rewrite (driver_spelt _ _ a0 s l S). split.
  - intros E. destruct (begins_dec big l B) as [(x & X)|N]; [|exact N]. exfalso. rewrite (load_rrset_ok _ _ _ B X) in E. cbn [bind] in E.
    destruct (print_set_cases x (proj1 X)) as (_ & [U|(t & T & SH)]); [rewrite U in E; discriminate|]. rewrite T in E. discriminate.
  - intros N. rewrite (load_rrset_none _ _ B N). reflexivity.
Qed.
Print Assumptions C113_refuses.
Theorem C113_overreads : forall big a0 s l, spells s l ->
  (prog_deserialize big [a0; s] = UB OobRead <-> exists x, begins_with big l x /\ endless_text x) /\
  forall f, prog_deserialize big [a0; s] = UB f -> f = OobRead.
Proof.
  intros big a0 s l S. pose proof (spells_ok _ _ S) as B. unfold prog_deserialize. rewrite (driver_spelt _ _ a0 s l S). destruct (begins_dec big l B) as [(x & X)|N].
  - rewrite (load_rrset_ok _ _ _ B X). cbn [bind]. destruct (print_set_cases x (proj1 X)) as (H & [U|(t & T & SH)]).
    + rewrite U. split; [|cbn [bind]; congruence]. split; [|reflexivity]. intros _. exists x. split; [auto|]. apply H. auto.
    + rewrite T. split; [|cbn [bind]; congruence]. split; [discriminate|]. intros (y & Y & EN). assert (x = y) by (eapply begins_fun; eauto). subst y. apply H in EN. congruence.
  - rewrite (load_rrset_none _ _ B N). split; [|cbn [bind]; congruence]. split; [discriminate|]. intros (y & Y & _). destruct (N _ Y).
Qed.
Print Assumptions C113_overreads.
Theorem C113_returns : forall big a0 s l, spells s l -> prog_deserialize big [a0; s] <> NoFuel.
Proof.
  intros big a0 s l S. pose proof (spells_ok _ _ S) as B. unfold prog_deserialize. rewrite (driver_spelt _ _ a0 s l S). destruct (begins_dec big l B) as [(x & X)|N].
  - rewrite (load_rrset_ok _ _ _ B X). cbn [bind]. destruct (print_set_cases x (proj1 X)) as (H & [U|(t & T & SH)]); [rewrite U|rewrite T]; discriminate.
  - rewrite (load_rrset_none _ _ B N). discriminate.
Qed.
Print Assumptions C113_returns.
