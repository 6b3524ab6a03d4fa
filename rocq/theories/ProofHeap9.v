(** ProofHeap9.v: programs that work with RRsets. *)
From Verif Require Import Base Lib ModelName ModelDescr ModelParse Libc ModelFormat ModelTables ModelRRset ModelToStr ModelFromStr
  ModelHeap SpecHeap SpecRRset ProofRRset ProofHeap ProofHeap2 ModelHeap2 ProofHeap4 ProofHeap5 ProofHeap6 ProofHeap7 SpecSane SpecText ProofHeap8 ProofSane SpecHeap2.
From Coq Require Import Permutation.

(** ** Sanity is kept *)
Lemma deser_sane : forall big buf S x, bytes_ok buf -> deserialize_rrset big buf (zlen buf) = Ok (res_success, S) -> holds S x -> sane_set x.
Proof.
  intros big buf S x B E H. destruct (deserialize_sound big buf [] B) as [(s & r & W & _ & E')|F]; rewrite app_nil_r in *.
  - rewrite E in E'. injection E' as ->. apply holds_iff in H.
    assert (x = s). { assert (A : holds (the_obj s) x) by (apply holds_iff; exact H). destruct A as (_ & A1 & A2 & A3 & A4 & _ & A5). cbn in A1, A2, A3, A4, A5.
      destruct x, s. cbn in *. injection A1 as ->. injection A5 as A5. subst. f_equal. clear - A5. revert rs_rdatas0 A5. induction rs_rdatas as [|d l IH]; intros [|e m] X; try discriminate; auto. cbn in X. injection X as -> X. f_equal. auto. }
    subst x. destruct W as (A & AL & T & C & TT & N & D). unfold sane_set, sane_data, sane_name. auto 10.
  - destruct F as (o & F & _). rewrite E in F. discriminate.
Qed.
Lemma sort_sane : forall s, sane_set s -> sane_set (sort_rrset s).
Proof.
  intros s (A & T & TY & C & D & N). unfold sane_set, sort_rrset. cbn [rs_name rs_type rs_class rs_ttl rs_rdatas]. repeat (split; [assumption|]).
  destruct (zlen (rs_rdatas s) >? 1); [|auto]. pose proof (qsort_perm rdata_cmp (rs_rdatas s)) as P. split.
  - apply Forall_forall. intros d I. rewrite Forall_forall in D. apply D. eapply Permutation_in; [|exact I]. first [exact P|symmetry; exact P].
  - unfold zlen in *. rewrite <- (Permutation_length P) || rewrite (Permutation_length P). exact N.
Qed.

Lemma dc_byte : forall c, is_byte c -> is_byte (dc c).
Proof. intros c H. rewrite dc_spec by exact H. unfold is_byte in *. destruct ((65 <=? c) && (c <=? 90)) eqn:E; lia. Qed.
Lemma dcase_name_keeps : forall fuel don p rem don' p' rem', bytes_ok don -> bytes_ok p -> dcase_name fuel don p rem = Ok (don', p', rem') ->
  bytes_ok don' /\ bytes_ok p' /\ zlen don' + zlen p' = zlen don + zlen p.
Proof.
  induction fuel as [|k IH]; intros don p rem don' p' rem' BD BP E; [discriminate|]. cbn [dcase_name] in E. destruct (rem =? 0); [injection E as <- <- _; auto|].
  cbv zeta in E. destruct p as [|c p]; [discriminate|]. cbn [hd_rd bind tl] in E. apply bytes_ok_cons in BP as (BC & BP).
  destruct (c =? 0).
  - injection E as <- <- _. split; [apply bytes_ok_app; split; [exact BD|constructor; [exact BC|constructor]]|]. split; [exact BP|]. rewrite zlen_app, (zlen_cons _ c p). change (zlen [c]) with 1. lia.
  - apply IH in E as (A & B & C); [|apply bytes_ok_app; split; [exact BD|constructor; [apply dc_byte; exact BC|constructor]]|exact BP].
    split; [exact A|]. split; [exact B|]. rewrite zlen_app in C. rewrite zlen_cons. change (zlen [dc c]) with 1 in C. lia.
Qed.
Definition dflow_ok (n : Z) (f : dflow) : Prop :=
  match f with DReturn _ m => bytes_ok m /\ zlen m = n | DGo don p _ => bytes_ok don /\ bytes_ok p /\ zlen don + zlen p = n end.
Lemma dadv_keeps : forall don p rem x, bytes_ok don -> bytes_ok p -> dflow_ok (zlen don + zlen p) (dadv don p rem x).
Proof.
  intros don p rem x BD BP. unfold dadv. destruct (rem <? x); cbn [dflow_ok].
  - split; [apply bytes_ok_app; auto|apply zlen_app].
  - unfold adv. rewrite <- (firstn_skipn (Z.to_nat x) p) in BP. apply bytes_ok_app in BP as (B1 & B2). split; [apply bytes_ok_app; auto|]. split; [exact B2|].
    rewrite zlen_app, <- Z.add_assoc, <- zlen_app, firstn_skipn. reflexivity.
Qed.
Lemma dcase_field_keeps : forall t don p rem f, bytes_ok don -> bytes_ok p -> dcase_field t don p rem = Ok f -> dflow_ok (zlen don + zlen p) f.
Proof.
  intros t don p rem f BD BP E. unfold dcase_field in E.
  assert (R : forall r, dflow_ok (zlen don + zlen p) (DReturn r (don ++ p))) by (intros r; cbn; split; [apply bytes_ok_app; auto|apply zlen_app]).
  destruct t; try (injection E as <-; first [apply R|apply dadv_keeps; assumption]); try (apply bind_ok in E as (o & _ & E); injection E as <-; apply dadv_keeps; assumption).
  - apply bind_ok in E as (((d, q), r) & N & E). injection E as <-. eapply dcase_name_keeps; [exact BD|exact BP|exact N].
  - apply bind_ok in E as (((d, q), r) & N & E). injection E as <-. eapply dcase_name_keeps; [exact BD|exact BP|exact N].
  - apply bind_ok in E as (o & _ & E). destruct (o >? 16); injection E as <-; [apply R|apply dadv_keeps; assumption].
  - pose proof (dadv_keeps don p rem 8 BD BP) as K. destruct (dadv don p rem 8) as [r m|d q r]; [injection E as <-; exact K|]. cbn [dflow_ok] in K. destruct K as (K1 & K2 & K3).
    apply bind_ok in E as (o & _ & E). injection E as <-. rewrite <- K3. apply dadv_keeps; assumption.
  - discriminate.
Qed.
Lemma dcase_fields_keeps : forall ts don p rem r m, bytes_ok don -> bytes_ok p -> dcase_fields ts don p rem = Ok (r, m) -> bytes_ok m /\ zlen m = zlen don + zlen p.
Proof.
  induction ts as [|t ts IH]; intros don p rem r m BD BP E; cbn [dcase_fields] in E.
  - injection E as _ <-. split; [apply bytes_ok_app; auto|apply zlen_app].
  - destruct (rem =? 0); [injection E as _ <-; split; [apply bytes_ok_app; auto|apply zlen_app]|].
    apply bind_ok in E as (f & F & E). apply dcase_field_keeps in F; [|exact BD|exact BP]. destruct f as [r' m'|d q r']; cbn [dflow_ok] in F.
    + injection E as _ <-. exact F.
    + destruct F as (F1 & F2 & F3). apply IH in E as (A & B); [|exact F1|exact F2]. split; [exact A|lia].
Qed.
Lemma downcase_rdata_keeps : forall d t c r d', bytes_ok d -> downcase_rdata d (zlen d) t c = Ok (r, d') -> bytes_ok d' /\ zlen d' = zlen d.
Proof.
  intros d t c r d' B E. unfold downcase_rdata in E. destruct (lookup_descr t) as [x|]; [|injection E as _ <-; auto].
  destruct (negb _); [injection E as _ <-; auto|]. destruct (_ || _); [|injection E as _ <-; auto].
  apply dcase_fields_keeps in E as (A & C); [|constructor|exact B]. change (zlen (@nil Z)) with 0 in C. auto.
Qed.
Lemma downcase_rdatas_keeps : forall ds t c r ds', Forall sane_data ds -> downcase_rdatas ds t c = Ok (r, ds') -> Forall sane_data ds' /\ zlen ds' = zlen ds.
Proof.
  induction ds as [|d ds IH]; intros t c r ds' F E; cbn [downcase_rdatas] in E; [injection E as _ <-; auto|].
  apply Forall_cons_iff in F as ((B & L) & F). apply bind_ok in E as ((r1, d1) & D & E). apply downcase_rdata_keeps in D as (B1 & L1); [|exact B].
  assert (S1 : sane_data d1) by (split; [exact B1|lia]).
  assert (STOP : Ok (r1, d1 :: ds) = Ok (r, ds') -> Forall sane_data ds' /\ zlen ds' = zlen (d :: ds)).
  { intros X. injection X as _ <-. split; [constructor; auto|rewrite !zlen_cons; reflexivity]. }
  destruct r1; try (apply STOP; exact E). apply bind_ok in E as ((r2, ds2) & D2 & E). injection E as _ <-. apply IH in D2 as (A & C); [|exact F].
  split; [constructor; auto|rewrite !zlen_cons; lia].
Qed.
Lemma down_sane : forall s r s', sane_set s -> downcase_rrset s = Ok (r, s') -> sane_set s'.
Proof.
  intros s r s' (A & T & TY & C & D & N) E. unfold downcase_rrset, downcase_name in E. rewrite zlen_to_nat, downcase_loop_all in E. cbn [bind] in E.
  apply bind_ok in E as ((r1, ds) & E1 & E). injection E as _ <-. apply downcase_rdatas_keeps in E1 as (F & L); [|exact D].
  unfold sane_set. cbn [rs_name rs_type rs_class rs_ttl rs_rdatas]. split; [|split; [exact T|split; [exact TY|split; [exact C|split; [exact F|lia]]]]].
  destruct A as [A AL]. split; [|unfold zlen in *; rewrite map_length; exact AL]. apply Forall_map. eapply Forall_impl; [|exact A]. cbv beta. intros a H. apply dc_byte. exact H.
Qed.

(** ** Text of RRsets: printable lines *)
Lemma set_lines : forall s sec t, sane_set s -> rrset_to_str s sec = Ok t -> printable_lines t.
Proof.
  intros s sec t (A & T & TY & C & D & N) E. unfold rrset_to_str, rrset_to_ubuf in E.
  assert (SR : forall d, In d (rs_rdatas s) -> sane_rr {| rr_name := rs_name s; rr_type := rs_type s; rr_class := rs_class s; rr_ttl := rs_ttl s; rr_rdata := Some d |}).
  { intros d I. unfold sane_rr. cbn [rr_name rr_type rr_class rr_ttl rr_rdata]. repeat (split; [assumption|]). intros d' X. injection X as <-. rewrite Forall_forall in D. auto. }
  destruct (sec =? 0).
  - destruct (rs_rdatas s) as [|d ds]; [discriminate|]. eapply rrs_lines; [| |exact E]; [constructor|]. constructor; [apply SR; left; reflexivity|constructor].
  - eapply rrs_lines; [| |exact E]; [constructor|]. apply Forall_forall. intros r I. apply in_map_iff in I as (d & <- & I). auto.
Qed.

(** ** Histories *)
Lemma or_cleared_ok : forall e h (Q : hset -> heap -> Prop) r h', e h = HErr r h' -> Q hset_zero h' -> wp (or_cleared e) h Q.
Proof. intros e h Q r h' E K. unfold or_cleared. exists hset_zero, h'. rewrite E. auto. Qed.
Lemma or_cleared_wp : forall e h (Q : hset -> heap -> Prop), wp e h Q -> wp (or_cleared e) h Q.
Proof. intros e h Q (x & h' & E & K). exists x, h'. unfold or_cleared. rewrite E. auto. Qed.

Lemma var_clear_wp : forall o x fp h L (Q : hset -> heap -> Prop), own_var o x fp -> owns h (fp ++ L) ->
  (forall x' h', own_var None x' [] -> owns h' L -> Q x' h') -> wp (clear_rrset_h x) h Q.
Proof.
  intros [s|] x fp h L Q V O K; cbn [own_var] in V.
  - destruct V as (_ & V). eapply clear_rrset_wp; [exact V|exact O|]. intros h' O'. apply K; [|exact O']. cbn. auto.
  - destruct V as (-> & A & B & C). unfold clear_rrset_h. rewrite A, B, C. cbn [Z.to_nat hfor]. apply wp_bind, wp_ret. apply wp_bind, wp_free_null. apply wp_bind, wp_free_null, wp_ret.
    apply K; [cbn; auto|exact O].
Qed.

Theorem run_sets_wp : forall ops s s' out, sets_client ops s s' out -> forall xs fp h L, own_list own_var s xs fp -> owns h (fp ++ L) ->
  wp (run_sets ops xs) h (fun y h' => snd y = out /\ exists fp', own_list own_var s' (fst y) fp' /\ owns h' (fp' ++ L)).
Proof.
  intros ops s s' out C. induction C as [s|big buf a b S y ops s' out HB E HO C IH|big buf a b r S ops s' out HB E NR C IH|a b y ops s' out C IH|a b y r z ops s' out E C IH|a b y big cap o ops s' out E C IH|a b y sec o ops s' out E C IH|a b y ops s' out C IH];
    intros xs fp h L OL O; cbn [run_sets].
  - apply wp_ret. cbn [fst snd]. split; [reflexivity|]. exists fp. auto.
  - apply own_list_split in OL as (m1 & x & m2 & f1 & g & f2 & -> & -> & A & X & B). destruct X as (-> & _).
    assert (LA : zlen m1 = zlen a) by (unfold zlen; rewrite (own_list_len _ _ _ _ _ _ A); reflexivity).
    pose proof (deserialize_hsim big buf (zlen buf) h _ HB O) as D. rewrite E in D. cbn [dsim] in D.
    apply wp_bind. apply or_cleared_wp. eapply wp_mono; [exact D|]. intros x' h1 (s1 & g & H1 & OS & O1).
    apply wp_bind. eapply wp_upd; [exact LA|].
    assert (EQ : s1 = y). { apply holds_iff in H1, HO. rewrite H1 in HO. assert (X : holds (the_obj s1) y) by (apply holds_iff; exact HO). clear - X. destruct X as (_ & A1 & A2 & A3 & A4 & _ & A5). cbn in A1, A2, A3, A4, A5.
      destruct y, s1. cbn in *. injection A1 as ->. injection A5 as A5. subst. f_equal. revert rs_rdatas A5. induction rs_rdatas0 as [|d l IH]; intros [|e m] X; try discriminate; auto. cbn in X. injection X as -> X. f_equal. auto. }
    subst s1. eapply (IH (m1 ++ x' :: m2) (f1 ++ g ++ f2) h1 L).
    + apply own_list_join; auto. cbn [own_var]. split; [eapply deser_sane; eauto|exact OS].
    + eapply owns_perm; [exact O1|]. perm.
  - apply own_list_split in OL as (m1 & x & m2 & f1 & g & f2 & -> & -> & A & X & B). destruct X as (-> & _).
    assert (LA : zlen m1 = zlen a) by (unfold zlen; rewrite (own_list_len _ _ _ _ _ _ A); reflexivity).
    pose proof (deserialize_hsim big buf (zlen buf) h _ HB O) as D. rewrite E in D. cbn [dsim] in D.
    assert (D' : exists h1, deserialize_h big buf (zlen buf) h = HErr r h1 /\ owns h1 ((f1 ++ [] ++ f2) ++ L)) by (destruct r; try exact D; contradiction).
    destruct D' as (h1 & EH & O1). apply wp_bind. eapply or_cleared_ok; [exact EH|]. apply wp_bind. eapply wp_upd; [exact LA|].
    eapply (IH (m1 ++ hset_zero :: m2) (f1 ++ [] ++ f2) h1 L); [|exact O1]. apply own_list_join; auto. cbn. auto.
  - apply own_list_split in OL as (m1 & x & m2 & f1 & g & f2 & -> & -> & A & X & B). destruct X as (SS & X).
    assert (LA : zlen m1 = zlen a) by (unfold zlen; rewrite (own_list_len _ _ _ _ _ _ A); reflexivity).
    apply wp_bind. eapply wp_elem; [exact LA|]. apply wp_bind. eapply wp_mono; [eapply (sort_h_wp y x g h (f1 ++ f2 ++ L)); [exact X|eapply owns_perm; [exact O|perm]]|].
    intros u h1 (g' & X' & _ & O1). eapply (IH (m1 ++ x :: m2) (f1 ++ g' ++ f2) h1 L).
    + apply own_list_join; auto. cbn [own_var]. split; [apply sort_sane; exact SS|exact X'].
    + eapply owns_perm; [exact O1|]. perm.
  - apply own_list_split in OL as (m1 & x & m2 & f1 & g & f2 & -> & -> & A & X & B). destruct X as (SS & X).
    assert (LA : zlen m1 = zlen a) by (unfold zlen; rewrite (own_list_len _ _ _ _ _ _ A); reflexivity).
    apply wp_bind. eapply wp_elem; [exact LA|]. apply wp_bind. eapply wp_mono; [eapply (downcase_h_wp y x g h (f1 ++ f2 ++ L)); [exact X|eapply owns_perm; [exact O|perm]|exact E]|].
    intros u h1 (_ & g' & X' & O1). eapply (IH (m1 ++ x :: m2) (f1 ++ g' ++ f2) h1 L).
    + apply own_list_join; auto. cbn [own_var]. split; [eapply down_sane; eauto|exact X'].
    + eapply owns_perm; [exact O1|]. perm.
  - apply own_list_split in OL as (m1 & x & m2 & f1 & g & f2 & -> & -> & A & X & B). pose proof X as X0. destruct X as (SS & X).
    assert (LA : zlen m1 = zlen a) by (unfold zlen; rewrite (own_list_len _ _ _ _ _ _ A); reflexivity).
    apply wp_bind. eapply wp_elem; [exact LA|].
    assert (EH : serialize_h big cap x h = HOk o h) by (eapply (serialize_h_ok big cap y x g h (f1 ++ f2 ++ L)); [exact X|eapply owns_perm; [exact O|perm]|exact E]).
    apply wp_bind. exists o, h. split; [exact EH|]. apply wp_bind. eapply wp_mono; [eapply (IH (m1 ++ x :: m2) (f1 ++ g ++ f2) h L); [apply own_list_join; auto|exact O]|].
    intros w h1 (SO & fp' & OL' & O1). apply wp_ret. cbn [fst snd]. split; [congruence|]. exists fp'. auto.
  - apply own_list_split in OL as (m1 & x & m2 & f1 & g & f2 & -> & -> & A & X & B). pose proof X as X0. destruct X as (SS & X).
    assert (LA : zlen m1 = zlen a) by (unfold zlen; rewrite (own_list_len _ _ _ _ _ _ A); reflexivity).
    apply wp_bind. eapply wp_elem; [exact LA|].
    assert (IG : incl g ((f1 ++ g ++ f2) ++ L)) by (intros z Z; rewrite !in_app_iff; auto).
    apply wp_bind. eapply print_wp.
    + eapply to_str_wp; [exact O| |intros p h' NP O'; split; [exact NP|exact O']].
      intros u h1 NU U1. eapply rrset_ubuf_wp; [exact X|exact IG|exact E|exact U1|intros h2 U2; exact U2].
    + intros h1 O1. destruct (cstr_cterm o (lines_no_nul _ (set_lines _ _ _ SS E))) as (CS & _). rewrite CS.
      apply wp_bind. eapply wp_mono; [eapply (IH (m1 ++ x :: m2) (f1 ++ g ++ f2) h1 L); [apply own_list_join; auto|exact O1]|].
      intros w h2 (SO & fp' & OL' & O2). apply wp_ret. cbn [fst snd]. split; [congruence|]. exists fp'. auto.
  - apply own_list_split in OL as (m1 & x & m2 & f1 & g & f2 & -> & -> & A & X & B).
    assert (LA : zlen m1 = zlen a) by (unfold zlen; rewrite (own_list_len _ _ _ _ _ _ A); reflexivity).
    apply wp_bind. eapply wp_elem; [exact LA|].
    apply wp_bind. eapply (var_clear_wp y x g h (f1 ++ f2 ++ L)); [exact X|eapply owns_perm; [exact O|perm]|].
    intros x' h' X' O'. apply wp_bind. eapply wp_upd; [exact LA|].
    eapply (IH (m1 ++ x' :: m2) (f1 ++ [] ++ f2) h' L).
    + apply own_list_join; auto.
    + eapply owns_perm; [exact O'|]. perm.
Qed.
