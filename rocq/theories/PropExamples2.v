(** PropExamples2.v: C114, C115: wdns-test-downcase-rrset and wdns-test-serialize-rrset. *)
From Coq Require Strings.String.
From Verif Require Import Base Lib SpecName SpecMessage SpecFormat SpecText SpecParsed SpecSane SpecLoose SpecFault SpecRRset SpecFold SpecDeliver SpecLibmyText SpecPrint SpecPrintMsg SpecExamples.
From Verif Require Import Libc ModelName ModelParse ModelRRset ModelToStr ModelFromStr ModelLibmyText ModelExamples.
From Verif Require Import ProofNameOps ProofDowncase ProofSane ProofLibmyText PropParse PropLoose PropSane PropCompose PropRRset PropFold PropRawText PropExamples.
From Verif Require Import SpecLibmyText SpecPrint SpecPrintMsg SpecExamples ModelExamples.

(** ** C114: wdns-test-downcase-rrset *)
Lemma others_kept : forall rds t c, ~ In t rfc4034_types -> downcase_rdatas rds t c = Ok (res_success, rds).
Proof. induction rds as [|d rds IH]; intros t c N; [reflexivity|]. cbn [downcase_rdatas]. rewrite C35_other_types_untouched by auto. cbn [bind]. rewrite IH by auto. reflexivity. Qed.
Lemma lower_iff : forall x ok y, wf_rrset x -> (downcase_rrset x = Ok (result_code ok, y) <-> lower_set x ok y).
Proof.
  intros x ok y (B & L & T & C & TT & N & D). destruct (in_dec Z.eq_dec (rs_type x) rfc4034_types) as [I|NI].
  - assert (BD : Forall bytes_ok (rs_rdatas x)) by (eapply Forall_impl; [|exact D]; cbv beta; tauto). rewrite C110_rrset by auto. split.
    + intros (ok' & rds & A & E & ->). assert (ok' = ok) by (destruct ok, ok'; auto; discriminate). subst ok'. exists rds. split; [reflexivity|]. split; [auto|]. intros X. contradiction.
    + intros (rds & -> & A & _). exists ok, rds. auto.
  - unfold downcase_rrset. pose proof (downcase_name_ok (rs_name x) []) as DN. rewrite !app_nil_r in DN. rewrite DN, map_dc_lower by auto. cbn [bind]. rewrite others_kept by auto. cbn [bind]. split.
    + intros E. assert (ok = true) by (destruct ok; auto; discriminate). subst. exists (rs_rdatas x). split; [congruence|]. split; [contradiction|auto].
    + intros (rds & -> & _ & A). destruct (A NI) as (-> & ->). reflexivity.
Qed.
Lemma lowered_ok : forall a b, Forall2 lowered a b -> bytes_ok a -> bytes_ok b /\ zlen b = zlen a.
Proof.
  intros a b H. induction H as [|x y a b L H IH]; intros B; [split; auto|]. inversion B as [|? ? B1 B2]; subst. destruct (IH B2) as (C & E). split.
  - constructor; [|auto]. destruct L as [->|[L ->]]; [auto|]. unfold is_byte in *. lia.
  - rewrite !zlen_cons. lia.
Qed.
Lemma fold_all_ok : forall t c ds ok ds', In t rfc4034_types -> Forall (fun d => bytes_ok d /\ zlen d < 65536) ds -> all_fold (format_of t c) ds ok ds' -> Forall (fun d => bytes_ok d /\ zlen d < 65536) ds' /\ zlen ds' = zlen ds.
Proof.
  intros t c ds ok ds' I F A. induction A as [|d d' ds ok ds' G A IH|d d' ds G]; [split; [constructor|reflexivity]| |]; inversion F as [|? ? [B L] F']; subst.
  - pose proof (proj2 (C110_exact t c d res_success d' I B) (ex_intro _ true (conj G eq_refl))) as E. apply C35_only_letters in E. destruct (lowered_ok _ _ E B) as (B' & L'). destruct (IH F') as (F2 & L2). split; [constructor; [split; [auto|lia]|auto]|]. rewrite !zlen_cons. lia.
  - pose proof (proj2 (C110_exact t c d res_parse_error d' I B) (ex_intro _ false (conj G eq_refl))) as E. apply C35_only_letters in E. destruct (lowered_ok _ _ E B) as (B' & L'). split; [constructor; [split; [auto|lia]|auto]|]. rewrite !zlen_cons. lia.
Qed.
Lemma lower_wf : forall x ok y, wf_rrset x -> lower_set x ok y -> wf_rrset y.
Proof.
  intros x ok y (B & L & T & C & TT & N & D) (rds & -> & A1 & A2). unfold wf_rrset. cbn [rs_name rs_type rs_class rs_ttl rs_rdatas].
  assert (BN : bytes_ok (lower_label (rs_name x))). { clear -B. unfold lower_label. induction B as [|b l Hb H IH]; cbn [map]; constructor; auto. unfold is_byte in *. destruct ((65 <=? b) && (b <=? 90)) eqn:E; lia. }
  assert (LN : zlen (lower_label (rs_name x)) = zlen (rs_name x)) by (unfold lower_label, zlen; rewrite map_length; reflexivity).
  destruct (in_dec Z.eq_dec (rs_type x) rfc4034_types) as [I|NI].
  - destruct (fold_all_ok _ _ _ _ _ I D (A1 I)) as (F & LF). repeat (split; [first [assumption | lia]|]). exact F.
  - destruct (A2 NI) as (_ & ->). repeat (split; [first [assumption | lia]|]). exact D.
Qed.
(** Folding reads outside the rdata: a name without an end in front of another name, in the first rdata that is not accepted. *)
Definition endless_fold (x : rrset) : Prop :=
  In (rs_type x) rfc4034_types /\ exists pre d post ds, rs_rdatas x = pre ++ d :: post /\ all_fold (format_of (rs_type x) (rs_class x)) pre true ds /\ two_endless (format_of (rs_type x) (rs_class x)) d.
Lemma fold_cases : forall x, wf_rrset x -> (downcase_rrset x = UB OobRead /\ endless_fold x) \/ (exists ok y, lower_set x ok y /\ downcase_rrset x = Ok (result_code ok, y) /\ ~ endless_fold x).
Proof.
  intros x W. pose proof W as (B & L & T & C & TT & N & D). destruct (in_dec Z.eq_dec (rs_type x) rfc4034_types) as [I|NI].
  - set (t := rs_type x) in *. set (c := rs_class x) in *.
    assert (G : forall ds, Forall (fun d => bytes_ok d /\ zlen d < 65536) ds -> let S := exists pre d post ds', ds = pre ++ d :: post /\ all_fold (format_of t c) pre true ds' /\ two_endless (format_of t c) d in
      (downcase_rdatas ds t c = UB OobRead /\ S) \/ (exists ok ds', all_fold (format_of t c) ds ok ds' /\ ~ S)).
    { induction ds as [|d ds IH]; intros F S; [right; exists true, []; split; [constructor|]; intros (pre & d & post & ds' & E & _); destruct pre; discriminate|]. inversion F as [|? ? [BD LD] F']; subst. cbn [downcase_rdatas].
      destruct (total t c d I BD) as [(ok & d' & FO)|TE].
      - pose proof (PropFold.run t c d ok d' [] I BD FO) as R. rewrite !app_nil_r in R. rewrite R. cbn [bind]. destruct ok; cbn [result_code].
        + destruct (IH F') as [(U & pre & d1 & post & ds1 & E & A & TE)|(ok & ds' & A & NS)].
          * left. rewrite U. split; [reflexivity|]. exists (d :: pre), d1, post, (d' :: ds1). split; [rewrite E; reflexivity|]. split; [constructor; auto|auto].
          * right. exists ok, (d' :: ds'). split; [constructor; auto|]. intros (pre & d1 & post & ds1 & E & A1 & TE). apply NS. destruct pre as [|p pre].
            -- exfalso. injection E as <- _. rewrite (stuck t c d I TE) in R. discriminate.
            -- injection E as <- ->. inversion A1; subst. eauto 8.
        + right. exists false, (d' :: ds). split; [apply af_bad; auto|]. intros (pre & d1 & post & ds1 & E & A1 & TE). destruct pre as [|p pre].
          * injection E as <- _. rewrite (stuck t c d I TE) in R. discriminate.
          * injection E as <- _. inversion A1; subst. match goal with H : folds _ d true _ |- _ => destruct (C110_one_result t c d _ _ _ _ I BD H FO); discriminate end.
      - left. rewrite (stuck t c d I TE). split; [reflexivity|]. exists [], d, ds, []. split; [reflexivity|]. split; [constructor|auto]. }
    destruct (G _ D) as [(U & S)|(ok & ds' & A & NS)].
    + left. split; [|split; auto]. unfold downcase_rrset. pose proof (downcase_name_ok (rs_name x) []) as DN. rewrite !app_nil_r in DN. rewrite DN. cbn [bind]. fold t c. rewrite U. reflexivity.
    + right. exists ok, {| rs_name := lower_label (rs_name x); rs_type := rs_type x; rs_class := rs_class x; rs_ttl := rs_ttl x; rs_rdatas := ds' |}.
      assert (LS : lower_set x ok {| rs_name := lower_label (rs_name x); rs_type := rs_type x; rs_class := rs_class x; rs_ttl := rs_ttl x; rs_rdatas := ds' |}) by (exists ds'; split; [reflexivity|]; split; [auto|]; intros X; contradiction).
      split; [exact LS|]. split; [apply lower_iff; auto|]. intros (_ & X). exact (NS X).
  - right. assert (LS : lower_set x true {| rs_name := lower_label (rs_name x); rs_type := rs_type x; rs_class := rs_class x; rs_ttl := rs_ttl x; rs_rdatas := rs_rdatas x |}) by (exists (rs_rdatas x); split; [reflexivity|]; split; [contradiction|auto]).
    eexists true, _. split; [exact LS|]. split; [apply lower_iff; auto|]. intros (X & _). contradiction.
Qed.
Lemma lower_fun : forall x ok y ok' y', wf_rrset x -> lower_set x ok y -> lower_set x ok' y' -> ok = ok' /\ y = y'.
Proof. intros x ok y ok' y' W A B. apply lower_iff in A; auto. apply lower_iff in B; auto. rewrite A in B. split; [destruct ok, ok'; auto; discriminate|congruence]. Qed.

(** It prints the RRset in lower case; nothing at all (and still exits with 0) if an rdata is not accepted. *)
Theorem C114_prints : forall big a0 s l o, spells s l ->
  (prog_downcase big [a0; s] = Ok (says o [] 0) <->
   exists x y, begins_with big l x /\ ((lower_set x true y /\ rrset_shown y o) \/ (lower_set x false y /\ o = []))).
Proof.
  intros big a0 s l o S. pose proof (spells_ok _ _ S) as B. unfold prog_downcase. rewrite (driver_spelt _ _ a0 s l S). split.
  - intros E. destruct (begins_dec big l B) as [(x & X)|N]; [|rewrite (load_rrset_none _ _ B N) in E; discriminate]. rewrite (load_rrset_ok _ _ _ B X) in E. cbn [bind] in E. pose proof X as (W & _).
    unfold test_downcase in E. destruct (fold_cases x W) as [(U & _)|(ok & y & LS & DR & _)]; [rewrite U in E; discriminate|]. rewrite DR in E. cbn [bind] in E. exists x, y. split; [auto|]. destruct ok; cbn [result_code] in E.
    + left. split; [auto|]. pose proof (lower_wf _ _ _ W LS) as WY. destruct (print_set_cases y WY) as (_ & [U|(t & T & SH)]); [rewrite U in E; discriminate|]. rewrite T in E. cbn [bind fst snd] in E. unfold says in E. assert (t = o) by congruence. subst. auto.
    + right. split; [auto|]. cbn [bind fst snd] in E. unfold says in E. congruence.
  - intros (x & y & X & H). rewrite (load_rrset_ok _ _ _ B X). cbn [bind]. unfold test_downcase. destruct X as (W & _). destruct H as [(LS & SH)|(LS & ->)]; pose proof LS as LS'; apply lower_iff in LS; auto; rewrite LS; cbn [bind result_code].
    + apply print_set_ok in SH; [|eapply lower_wf; eauto]. rewrite SH. reflexivity.
    + reflexivity.
Qed.
Print Assumptions C114_prints.
Theorem C114_refuses : forall big a0 s l, spells s l ->
  (prog_downcase big [a0; s] = Ok (says [] (line (lit "Error: load function failed")) 1) <-> forall x, ~ begins_with big l x).
Proof.
  intros big a0 s l S. pose proof (spells_ok _ _ S) as B. unfold prog_downcase. rewrite (driver_spelt _ _ a0 s l S). split.
  - intros E. destruct (begins_dec big l B) as [(x & X)|N]; [|exact N]. exfalso. rewrite (load_rrset_ok _ _ _ B X) in E. cbn [bind] in E. destruct (test_downcase x); discriminate.
  - intros N. rewrite (load_rrset_none _ _ B N). reflexivity.
Qed.
Print Assumptions C114_refuses.
Theorem C114_overreads : forall big a0 s l, spells s l ->
  (prog_downcase big [a0; s] = UB OobRead <-> exists x, begins_with big l x /\ (endless_fold x \/ exists y, lower_set x true y /\ endless_text y)) /\
  (forall f, prog_downcase big [a0; s] = UB f -> f = OobRead) /\ prog_downcase big [a0; s] <> NoFuel.
Proof.
  intros big a0 s l S. pose proof (spells_ok _ _ S) as B. unfold prog_downcase. rewrite (driver_spelt _ _ a0 s l S). destruct (begins_dec big l B) as [(x & X)|N].
  - rewrite (load_rrset_ok _ _ _ B X). cbn [bind]. pose proof X as (W & _). unfold test_downcase. destruct (fold_cases x W) as [(U & EF)|(ok & y & LS & DR & NE)].
    + rewrite U. cbn [bind]. split; [|split; [congruence|discriminate]]. split; [|reflexivity]. intros _. eauto.
    + rewrite DR. cbn [bind]. destruct ok; cbn [result_code].
      * pose proof (lower_wf _ _ _ W LS) as WY. destruct (print_set_cases y WY) as (H & C). split; [|destruct C as [C|(t & C & _)]; rewrite C; cbn [bind]; split; try congruence; discriminate]. split.
        -- intros E. exists x. split; [auto|]. right. exists y. split; [auto|]. apply H. destruct C as [C|(t & C & _)]; [auto|]. rewrite C in E. discriminate.
        -- intros (x' & X' & Q). assert (x' = x) by (eapply begins_fun; eauto). subst x'. destruct Q as [Q|(y' & LS' & ET)]; [contradiction|]. destruct (lower_fun _ _ _ _ _ W LS LS') as (_ & <-). apply H in ET. rewrite ET. reflexivity.
      * split; [|cbn [bind]; split; [congruence|discriminate]]. split; [discriminate|]. intros (x' & X' & Q). assert (x' = x) by (eapply begins_fun; eauto). subst x'. destruct Q as [Q|(y' & LS' & ET)]; [contradiction|]. destruct (lower_fun _ _ _ _ _ W LS LS') as (A & _). discriminate.
  - rewrite (load_rrset_none _ _ B N). cbn [bind]. split; [|split; [congruence|discriminate]]. split; [discriminate|]. intros (y & Y & _). destruct (N _ Y).
Qed.
Print Assumptions C114_overreads.

(** ** C115: wdns-test-serialize-rrset *)
Lemma hex_char_small : forall v, 0 <= v < 16 -> hex_digit (hex_char v) v /\ hex_case false (hex_char v).
Proof.
  intros v R. unfold hex_char, hex_case. destruct (v <? 10) eqn:E.
  - split; [|lia]. replace v with (48 + v - 48) at 2 by lia. apply hd_dec. lia.
  - split; [|lia]. replace v with (87 + v - 87) at 2 by lia. apply hd_low. lia.
Qed.
Lemma print_data_is : forall d, bytes_ok d -> exists t, small_hex d t /\ print_data d = line t.
Proof.
  intros d B. exists (concat (map (fun c => [hex_char (c / 16); hex_char (c mod 16)]) d)). split; [|reflexivity]. exists (map (fun c => [hex_char (c / 16); hex_char (c mod 16)]) d). split; [|reflexivity].
  induction B as [|b d R B IH]; cbn [map]; constructor; auto. pose proof (Z.div_mod b 16 ltac:(lia)) as DM. pose proof (Z.mod_pos_bound b 16 ltac:(lia)). unfold is_byte in R.
  assert (Q : 0 <= b / 16 < 16) by (split; [apply Z.div_pos; lia|apply Z.div_lt_upper_bound; lia]). destruct (hex_char_small _ Q) as (D1 & C1). destruct (hex_char_small (b mod 16) ltac:(lia)) as (D2 & C2).
  exists (hex_char (b / 16)), (hex_char (b mod 16)), (b / 16), (b mod 16). split; [reflexivity|]. split; [auto|]. split; [auto|]. split; [lia|]. auto.
Qed.
Lemma digit_fun : forall c c' v, hex_digit c v -> hex_digit c' v -> hex_case false c -> hex_case false c' -> c = c'.
Proof. intros c c' v A B C D. unfold hex_case in *. inversion A; inversion B; lia. Qed.
Lemma small_hex_fun : forall l s s', small_hex l s -> small_hex l s' -> s = s'.
Proof.
  intros l s s' (ps & F & ->) (ps' & F' & ->). f_equal. revert ps' F'. induction F as [|b p l ps H F IH]; intros ps' F'; inversion F' as [|? p' ? ps2 H' F2]; subst; [reflexivity|]. f_equal; [|auto].
  destruct H as (h & o & x & y & -> & D1 & D2 & E & C1 & C2). destruct H' as (h' & o' & x' & y' & -> & D1' & D2' & E' & C1' & C2'). apply hex_digit_range in D1 as R1. apply hex_digit_range in D2 as R2. apply hex_digit_range in D1' as R1'. apply hex_digit_range in D2' as R2'.
  assert (x = x') by lia. assert (y = y') by lia. subst x' y'. f_equal; [eapply digit_fun; eauto|]. f_equal. eapply digit_fun; eauto.
Qed.
Lemma small_hex_text : forall l s, small_hex l s -> hex_text s l.
Proof.
  intros l s (ps & F & ->). induction F as [|b p l ps H F IH]; [constructor|]. destruct H as (h & o & x & y & -> & D1 & D2 & -> & _). cbn [concat app]. constructor; auto.
Qed.
Lemma serial_ok : forall big x, wf_rrset x -> bytes_ok (serial big x).
Proof.
  intros big x W. pose proof (ProofRRset.wf_rrset_len _ W) as [L1 L2]. destruct W as (Bn & _ & _ & _ & _ & _ & R). unfold serial.
  repeat (apply bytes_ok_app; split); try apply ProofRRset.host_bytes; [constructor; auto|].
  clear -R. induction R as [|d l [Bd _] R IH]; cbn [map concat]; [constructor|]. unfold serial_rdata at 1. repeat (apply bytes_ok_app; split); auto. apply ProofRRset.host_bytes.
Qed.
(** The lines for some RRsets: the serialised form of each. *)
Definition serial_lines (big : bool) (xs : list rrset) (e : bytes) : Prop :=
  exists ts, Forall2 (fun x t => small_hex (serial big x) t) xs ts /\ e = concat (map line ts).
Lemma dump_lines : forall big xs, Forall wf_rrset xs -> exists e, dump_rrsets big xs = Ok e /\ serial_lines big xs e.
Proof.
  intros big xs F. induction F as [|x xs W F IH]; [exists []; split; [reflexivity|exists []; split; constructor]|]. destruct IH as (e & E & ts & F2 & ->). cbn [dump_rrsets].
  destruct (C31_size_exact big x W) as (out & S & _ & ->). rewrite S. cbn [bind]. rewrite E. cbn [bind]. destruct (print_data_is _ (serial_ok big x W)) as (t & SH & ->). eexists. split; [reflexivity|].
  exists (t :: ts). split; [constructor; auto|reflexivity].
Qed.
Lemma lines_app : forall big xs ys e f, serial_lines big xs e -> serial_lines big ys f -> serial_lines big (xs ++ ys) (e ++ f).
Proof. intros big xs ys e f (ts & F & ->) (us & G & ->). exists (ts ++ us). split; [apply Forall2_app; auto|]. rewrite map_app, concat_app. reflexivity. Qed.
Lemma lines_fun : forall big xs e f, serial_lines big xs e -> serial_lines big xs f -> e = f.
Proof.
  intros big xs e f (ts & F & ->) (us & G & ->). f_equal. f_equal. revert us G. induction F as [|x t xs ts H F IH]; intros us G; inversion G as [|? u ? us2 H' G2]; subst; [reflexivity|]. f_equal; [eapply small_hex_fun; eauto|auto].
Qed.
Lemma sets_wf : forall fuel l M, bytes_ok l -> parse_message fuel l (zlen l) = Ok (res_success, M) -> Forall wf_rrset (a_rrsets (m_an M)) /\ Forall wf_rrset (a_rrsets (m_ns M)) /\ Forall wf_rrset (a_rrsets (m_ar M)).
Proof.
  intros fuel l M B P. apply parse_sane in P; auto. destruct P as (_ & _ & _ & _ & _ & _ & _ & _ & (_ & A & _) & (_ & N & _) & (_ & R & _)).
  repeat split; (eapply Forall_impl; [|eassumption]); apply set_wf.
Qed.
Theorem C115_lines : forall big fuel a0 s l e, 65535 < Z.of_nat fuel -> spells s l ->
  (prog_serialize big fuel [a0; s] = Ok (says [] e 0) <-> exists m, loose_message l m /\ serial_lines big (answer_sets (parsed m)) e).
Proof.
  intros big fuel a0 s l e F S. pose proof (spells_ok _ _ S) as B. unfold prog_serialize. rewrite (driver_spelt _ _ a0 s l S). unfold load_message.
  assert (G : forall M, parse_message fuel l (zlen l) = Ok (res_success, M) -> exists f, test_serialize big M = Ok ([], f) /\ serial_lines big (answer_sets M) f).
  { intros M P. destruct (sets_wf _ _ _ B P) as (A & N & R). destruct (dump_lines big _ A) as (ea & EA & LA). destruct (dump_lines big _ N) as (en & EN & LN). destruct (dump_lines big _ R) as (er & ER & LR).
    unfold test_serialize. rewrite EA, EN, ER. eexists. split; [reflexivity|]. unfold answer_sets. auto using lines_app. }
  split.
  - intros E. destruct (parse_message fuel l (zlen l)) as [[r M]| | |] eqn:P; try discriminate. cbn [bind] in E. destruct r; try discriminate. cbn [bind] in E. destruct (G M eq_refl) as (f & T & SL). rewrite T in E. cbn [bind fst snd] in E. unfold says in E.
    assert (f = e) by congruence. subst f. apply C93_accepts_exactly in P as (m & LM & ->); auto. eauto.
  - intros (m & LM & SL). assert (P : parse_message fuel l (zlen l) = Ok (res_success, parsed m)) by (apply C93_accepts_exactly; eauto). rewrite P. cbn [bind]. destruct (G _ P) as (f & T & SL'). rewrite T. cbn [bind fst snd].
    rewrite (lines_fun _ _ _ _ SL SL'). reflexivity.
Qed.
Print Assumptions C115_lines.
(** Whatever the parser accepts is written: no fault, no refusal. *)
Theorem C115_accepted : forall big fuel a0 s l m, 65535 < Z.of_nat fuel -> spells s l -> loose_message l m -> exists e, prog_serialize big fuel [a0; s] = Ok (says [] e 0).
Proof.
  intros big fuel a0 s l m F S LM. pose proof (spells_ok _ _ S) as B. assert (P : parse_message fuel l (zlen l) = Ok (res_success, parsed m)) by (apply C93_accepts_exactly; eauto). destruct (sets_wf _ _ _ B P) as (A & N & R).
  destruct (dump_lines big _ A) as (ea & EA & LA). destruct (dump_lines big _ N) as (en & EN & LN). destruct (dump_lines big _ R) as (er & ER & LR).
  exists (ea ++ en ++ er). apply (C115_lines big fuel a0 s l _ F S). exists m. split; [auto|]. unfold answer_sets. auto using lines_app.
Qed.
Print Assumptions C115_accepted.
Theorem C115_refuses : forall big fuel a0 s l, 65535 < Z.of_nat fuel -> spells s l ->
  (prog_serialize big fuel [a0; s] = Ok (says [] (line (lit "Error: load function failed")) 1) <-> ~ hangs l /\ ~ overreads l /\ forall m, ~ loose_message l m) /\
  (prog_serialize big fuel [a0; s] = NoFuel <-> hangs l) /\ (prog_serialize big fuel [a0; s] = UB OobRead <-> overreads l).
Proof.
  intros big fuel a0 s l F S. pose proof (spells_ok _ _ S) as B. unfold prog_serialize. rewrite (driver_spelt _ _ a0 s l S). unfold load_message.
  assert (H1 : hangs l <-> parse_message fuel l (zlen l) = NoFuel) by (split; [intros H; exact (proj2 (C94_hangs_exactly l B) H fuel F)|apply C94_bound_decides; auto]).
  pose proof (C95_overreads_exactly fuel l B F) as H2. rewrite H1, <- H2. pose proof (C93_accepts_exactly fuel l) as H3.
  destruct (parse_message fuel l (zlen l)) as [[r M]|x|u|] eqn:P; cbn [bind].
  - assert (D : r = res_success \/ r <> res_success) by (destruct r; auto; right; discriminate). destruct D as [->|NR].
    + destruct (proj1 (H3 M B F) eq_refl) as (m & LM & E). destruct (sets_wf _ _ _ B P) as (A & N & R). destruct (dump_lines big _ A) as (ea & EA & _). destruct (dump_lines big _ N) as (en & EN & _). destruct (dump_lines big _ R) as (er & ER & _).
      unfold test_serialize. cbn [bind]. rewrite EA, EN, ER. cbn [bind fst snd]. split; [split; [discriminate|]|split; split; discriminate]. intros (_ & _ & N'). destruct (N' m LM).
    + replace (match r with res_success => Ok (Some M) | _ => Ok None end) with (Ok (@None message)) by (destruct r; auto; congruence). cbn [bind]. split; [|split; split; discriminate]. split; [|reflexivity]. intros _. split; [discriminate|]. split; [discriminate|].
      intros m LM. assert (Q : Ok (r, M) = Ok (res_success, parsed m)) by (apply H3; eauto). congruence.
  - exfalso. eapply ProofFault.message_not_err; eauto.
  - split; [split; [discriminate|]|split; split; try discriminate; congruence]. intros (_ & N & _). pose proof (ProofFault.message_oo fuel l u B F P). congruence.
  - split; [split; [discriminate|]|split; split; try discriminate; auto]. intros (N & _). congruence.
Qed.
Print Assumptions C115_refuses.
(** Each line, given to wdns-test-deserialize-rrset, prints the RRset it was made from. *)
Theorem C115_back : forall big a0 x t o, wf_rrset x -> zlen t < 2 ^ 63 -> small_hex (serial big x) t ->
  (prog_deserialize big [a0; t] = Ok (says o [] 0) <-> rrset_shown x o).
Proof.
  intros big a0 x t o W L SH. assert (S : spells t (serial big x)). { split; [|split; [auto|apply small_hex_text; auto]]. intros ->. apply small_hex_text in SH. unfold serial in SH. inversion SH. }
  rewrite (C113_prints big a0 t _ o S). assert (BW : begins_with big (serial big x) x) by (split; [auto|exists []; rewrite app_nil_r; reflexivity]). split.
  - intros (y & Y & H). assert (y = x) by (eapply begins_fun; eauto). subst. auto.
  - intros H. eauto.
Qed.
Print Assumptions C115_back.
