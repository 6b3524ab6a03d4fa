(** ProofHeap5.v: the printers on the heap. If the printer of ModelToStr.v yields the text t, the heap version leaves the
    ubuf with t appended and every other block as it was; the string functions return one new block with t and a NUL. *)
From Verif Require Import Base Lib ModelName ModelDescr ModelParse Libc ModelFormat ModelTables ModelRRset ModelToStr ModelFromStr
  ModelHeap SpecHeap ProofHeap ProofHeap2 ModelHeap2 ProofHeap4.
From Coq Require Import Permutation.

Lemma wp_lift : forall A (o : outcome A) a h (Q : A -> heap -> Prop), o = Ok a -> Q a h -> wp (lift o) h Q.
Proof. intros A o a h Q -> K. exists a, h. auto. Qed.

Lemma ub_rdata_wp : forall u c p l h L (Q : bytes -> heap -> Prop), ub u c L h -> In (p, CRdata l) L -> Q l h -> wp (load_rdata_h p) h Q.
Proof. intros u c p l h L Q (d & O) I K. eapply wp_load_rdata; [exact O|right; right; exact I|exact K]. Qed.

Lemma to_base64_wp : forall u c L src n t h (Q : unit -> heap -> Prop), bytes_to_base64 src n = Ok t -> ub u c L h ->
  (forall h', ub u (c ++ t) L h' -> Q tt h') -> wp (to_base64_h u src n) h Q.
Proof.
  intros u c L src n t h Q E U K. unfold to_base64_h.
  apply wp_bind. eapply ub_alloc_wp; [exact U|]. intros b h1 N U1.
  apply wp_bind. eapply wp_lift; [exact E|].
  apply wp_bind. eapply ub_store_wp; [exact U1|]. intros h2 U2.
  apply wp_bind. eapply ub_bytes_wp; [exact U2|left; reflexivity|].
  apply wp_bind. eapply ub_append_wp; [exact U2|]. intros h3 U3.
  eapply ub_free_wp; [exact U3|exact K].
Qed.

Lemma svcparam_text_wp : forall u c L key src n t r h (Q : option res -> heap -> Prop), svcparam_to_str key src n = Ok (t, r) -> ub u c L h ->
  (forall h', ub u (c ++ t) L h' -> Q r h') -> wp (svcparam_to_str_h u key src n) h Q.
Proof.
  intros u c L key src n t r h Q E U K. unfold svcparam_to_str_h. destruct (key =? spr_ech) eqn:EC.
  - assert (key = spr_ech) by lia. subst key. unfold svcparam_to_str in E.
    change (spr_ech =? spr_invalid) with false in E. change (spr_ech =? spr_nd_alpn) with false in E. change (spr_ech =? spr_mandatory) with false in E.
    change (spr_ech =? spr_port) with false in E. change (spr_ech =? spr_ech) with true in E. cbv iota zeta in E.
    apply bind_ok in E as (o & E1 & E). injection E as <- <-.
    apply wp_bind. eapply to_base64_wp; [exact E1|exact U|]. intros h1 U1.
    apply wp_bind. eapply ub_append_wp; [exact U1|]. intros h2 U2. apply wp_ret. apply K. rewrite <- app_assoc in U2. exact U2.
  - apply wp_bind. eapply wp_lift; [exact E|]. apply wp_bind. eapply ub_append_wp; [exact U|]. intros h1 U1. apply wp_ret. auto.
Qed.

Lemma emit_ok : forall A t (k : outcome (bytes * A)) o f, emit t k = Ok (o, f) -> exists o', k = Ok (o', f) /\ o = t ++ o'.
Proof. intros A t k o f E. unfold emit in E. apply bind_ok in E as ((o', f') & E & X). injection X as <- <-. eauto. Qed.

Lemma svcparams_text_wp : forall u L fuel src n c t f h (Q : tflow -> heap -> Prop), svcparams_text fuel src n = Ok (t, f) -> ub u c L h ->
  (forall h', ub u (c ++ t) L h' -> Q f h') -> wp (svcparams_text_h fuel u src n) h Q.
Proof.
  intros u L fuel. induction fuel as [|k IH]; intros src n c t f h Q E U K; cbn [svcparams_text svcparams_text_h] in *; [discriminate|].
  destruct (n >? 0); [|injection E as <- <-; apply wp_ret, K; rewrite app_nil_r; exact U].
  destruct (n <? 2); [injection E as <- <-; apply wp_ret, K; rewrite app_nil_r; exact U|].
  apply bind_ok in E as (v & Ev & E). apply wp_bind. eapply wp_lift; [exact Ev|]. cbv zeta in *.
  destruct (be16 (nth 0 v 0) (nth 1 v 0) =? spr_invalid); [injection E as <- <-; apply wp_ret, K; rewrite app_nil_r; exact U|].
  apply wp_bind. eapply ub_append_wp; [exact U|]. intros h1 U1.
  destruct (n - 2 <? 2); [injection E as <- <-; apply wp_ret, K; exact U1|].
  apply bind_ok in E as (l & El & E). apply wp_bind. eapply wp_lift; [exact El|].
  destruct (n - 2 - 2 <? be16 (nth 0 l 0) (nth 1 l 0)); [injection E as <- <-; apply wp_ret, K; exact U1|].
  apply bind_ok in E as ((t1, r) & E1 & E).
  apply wp_bind. eapply svcparam_text_wp; [exact E1|exact U1|]. intros h2 U2.
  apply emit_ok in E as (o' & E & ->). destruct r as [r|]; cbn [after_res] in E.
  - injection E as <- <-. apply wp_ret, K. rewrite app_nil_r, app_assoc. exact U2.
  - eapply IH; [exact E|exact U2|]. intros h3 U3. apply K. rewrite <- !app_assoc in *. exact U3.
Qed.

Lemma field_text_wp : forall u L ft src n c t f h (Q : tflow -> heap -> Prop), field_text ft src n = Ok (t, f) -> ub u c L h ->
  (forall h', ub u (c ++ t) L h' -> Q f h') -> wp (field_text_h u ft src n) h Q.
Proof.
  intros u L ft src n c t f h Q E U K.
  assert (PL : wp (x <-- lift (field_text ft src n) ;;; ubuf_append_h u (fst x) ;;;; ret (snd x)) h Q).
  { apply wp_bind. eapply wp_lift; [exact E|]. apply wp_bind. eapply ub_append_wp; [exact U|]. intros h1 U1. apply wp_ret. auto. }
  destruct ft; cbn [field_text_h]; try exact PL; clear PL; cbn [field_text] in E.
  - apply bind_ok in E as (o & E1 & E). injection E as <- <-. apply wp_bind. eapply to_base64_wp; [exact E1|exact U|].
    intros h1 U1. apply wp_ret. auto.
  - eapply svcparams_text_wp; eauto.
Qed.

Lemma fields_text_wp : forall u L ts src n c t f h (Q : tflow -> heap -> Prop), fields_text ts src n = Ok (t, f) -> ub u c L h ->
  (forall h', ub u (c ++ t) L h' -> Q f h') -> wp (fields_text_h u ts src n) h Q.
Proof.
  intros u L ts. induction ts as [|ft ts IH]; intros src n c t f h Q E U K; cbn [fields_text fields_text_h] in *.
  - injection E as <- <-. apply wp_ret, K. rewrite app_nil_r. exact U.
  - destruct (n =? 0); [injection E as <- <-; apply wp_ret, K; rewrite app_nil_r; exact U|].
    apply bind_ok in E as ((o, g) & E1 & E). apply wp_bind. eapply field_text_wp; [exact E1|exact U|]. intros h1 U1.
    destruct g as [src' n'| |r].
    + apply emit_ok in E as (o' & E & ->). eapply IH; [exact E|exact U1|]. intros h2 U2. apply K. rewrite app_assoc. exact U2.
    + injection E as <- <-. apply wp_ret. auto.
    + injection E as <- <-. apply wp_ret. auto.
Qed.

Lemma rdata_to_ubuf_wp : forall u L c d n t k o h (Q : unit -> heap -> Prop), rdata_to_ubuf c d n t k = Ok o -> ub u c L h ->
  (forall h', ub u o L h' -> Q tt h') -> wp (rdata_to_ubuf_h u d n t k) h Q.
Proof.
  intros u L c d n t k o h Q E U K. unfold rdata_to_ubuf, rdata_to_ubuf_h in *. destruct (lookup_descr t) as [ds|].
  - destruct (negb ((d_class ds =? class_un) || (d_class ds =? k))); [injection E as <-; apply wp_ret; auto|].
    apply bind_ok in E as ((s, f) & E1 & E). apply wp_bind. eapply fields_text_wp; [exact E1|exact U|]. intros h1 U1.
    destruct f as [src' n'| |r]; injection E as <-.
    + eapply ub_set_wp; [exact U1|exact K].
    + eapply ub_append_wp; [exact U1|]. intros h2 U2. apply K. rewrite <- app_assoc in U2. exact U2.
    + eapply ub_append_wp; [exact U1|]. intros h2 U2. apply K. rewrite <- app_assoc in U2. exact U2.
  - apply bind_ok in E as (s & E1 & E). apply bind_ok in E as (x & E2 & E). injection E as <-.
    apply wp_bind. eapply wp_lift; [exact E1|]. apply wp_bind. eapply wp_lift; [exact E2|].
    eapply ub_append_wp; [exact U|exact K].
Qed.

(** ** Strings *)
Lemma cterm_wp : forall u c L h (Q : unit -> heap -> Prop), ub u c L h -> (forall h', ub u (cterm c) L h' -> Q tt h') -> wp (ubuf_cterm_h u) h Q.
Proof.
  intros u c L h Q (d & O) K. unfold ubuf_cterm_h, cterm in *.
  apply wp_bind. eapply wp_load_ubuf; [exact O|left; reflexivity|].
  apply wp_bind. eapply wp_load_bytes; [exact O|right; left; reflexivity|].
  destruct (rev c) as [|[|q|q] r]; try (eapply ub_append_wp; [exists d; exact O|exact K]).
  apply wp_ret. apply K. exists d. exact O.
Qed.

Lemma detach_wp : forall u c L h (Q : Z * Z -> heap -> Prop), u <> 0 -> ub u c L h ->
  (forall p h', p <> 0 -> ub u [] ((p, CBytes c) :: L) h' -> Q (p, zlen c) h') -> wp (ubuf_detach_h u) h Q.
Proof.
  intros u c L h Q N (d & O) K. unfold ubuf_detach_h.
  apply wp_bind. eapply wp_load_ubuf; [exact O|left; reflexivity|].
  apply wp_bind. eapply wp_load_bytes; [exact O|right; left; reflexivity|].
  apply wp_bind. eapply wp_alloc; [exact O|]. intros d' h3 N3 O3.
  apply wp_bind. eapply (wp_store u (CUbuf d) (CUbuf d') h3 ((d', CBytes []) :: (d, CBytes c) :: L)); [exact O3|perm|]. intros h4 O4.
  apply wp_ret. apply K.
  - apply (owns_ptr h4 _ d (CBytes c)) in O4; [lia|]. right. right. left. reflexivity.
  - exists d'. exact O4.
Qed.

Lemma to_str_wp : forall f t L h (Q : Z -> heap -> Prop), owns h L ->
  (forall u h1, u <> 0 -> ub u [] L h1 -> wp (f u) h1 (fun _ h2 => ub u t L h2)) ->
  (forall p h', p <> 0 -> owns h' ((p, CBytes (cterm t)) :: L) -> Q p h') -> wp (to_str_h f) h Q.
Proof.
  intros f t L h Q O F K. unfold to_str_h. apply wp_bind. eapply ub_new_wp; [exact O|]. intros u h1 N U1.
  apply wp_bind. eapply wp_mono; [apply F; [exact N|exact U1]|]. intros x h2 U2. cbv beta in U2.
  apply wp_bind. eapply cterm_wp; [exact U2|]. intros h3 U3.
  apply wp_bind. eapply detach_wp; [exact N|exact U3|]. intros p h4 NP U4.
  apply wp_bind. eapply ub_destroy_wp; [exact N|exact U4|]. intros h5 O5. apply wp_ret. cbn [fst]. auto.
Qed.

Lemma print_wp : forall f t L h (Q : bytes -> heap -> Prop),
  wp f h (fun p h' => p <> 0 /\ owns h' ((p, CBytes (cterm t)) :: L)) -> (forall h', owns h' L -> Q (cstr (cterm t)) h') -> wp (print_h f) h Q.
Proof.
  intros f t L h Q F K. unfold print_h. apply wp_bind. eapply wp_mono; [exact F|]. intros p h1 (N & O1). 
  apply wp_bind. eapply wp_load_bytes; [exact O1|left; reflexivity|].
  apply wp_bind. eapply wp_free; [exact O1|reflexivity|]. intros h2 O2. apply wp_ret. auto.
Qed.

(** ** RRs *)
Lemma rr_ubuf_gen_wp : forall r x sec c o u L h (Q : unit -> heap -> Prop),
  hr_len x = zlen (rr_name r) -> hr_type x = rr_type r -> hr_class x = rr_class r -> hr_ttl x = rr_ttl r ->
  In (hr_name x, CBytes (rr_name r)) L -> (sec <> 0 -> forall d, rr_rdata r = Some d -> In (hr_rdata x, CRdata d) L) ->
  rr_to_ubuf c r sec = Ok o -> ub u c L h -> (forall h', ub u o L h' -> Q tt h') -> wp (rr_to_ubuf_h u x sec) h Q.
Proof.
  intros r x sec c o u L h Q E1 E2 E3 E4 IN IR E U K. unfold rr_to_ubuf, rr_to_ubuf_h in *. rewrite E1, E2, E3, E4.
  apply bind_ok in E as ((name, nn) & EN & E). cbv zeta in E.
  apply wp_bind. eapply ub_bytes_wp; [exact U|exact IN|].
  apply wp_bind. eapply wp_lift; [exact EN|].
  apply wp_bind.
  assert (W0 : wp (if sec =? 0 then ubuf_append_h u [59] else ret tt) h (fun _ h' => ub u (if sec =? 0 then c ++ [59] else c) L h')).
  { destruct (sec =? 0); [eapply ub_append_wp; [exact U|auto]|apply wp_ret; exact U]. }
  eapply wp_mono; [exact W0|]. clear W0. intros [] h1 U1. cbv beta in U1.
  apply wp_bind. eapply ub_append_wp; [exact U1|]. intros h2 U2. cbn [fst] in U2.
  apply bind_ok in E as (ttl & ET & E).
  apply wp_bind.
  assert (W1 : wp (if negb (sec =? 0) then t <-- lift (u64_text 11 (rr_ttl r)) ;;; ubuf_append_h u ([32] ++ t) else ret tt) h2
    (fun _ h' => ub u (((if sec =? 0 then c ++ [59] else c) ++ name) ++ ttl) L h')).
  { destruct (negb (sec =? 0)).
    - apply bind_ok in ET as (t & ET & X). injection X as <-. apply wp_bind. eapply wp_lift; [exact ET|]. eapply ub_append_wp; [exact U2|auto].
    - injection ET as <-. apply wp_ret. rewrite app_nil_r. exact U2. }
  eapply wp_mono; [exact W1|]. clear W1. intros [] h3 U3. cbv beta in U3.
  apply wp_bind. eapply ub_append_wp; [exact U3|]. intros h4 U4.
  apply wp_bind. eapply ub_append_wp; [exact U4|]. intros h5 U5.
  apply bind_ok in E as (u' & ER & E). injection E as <-.
  apply wp_bind.
  assert (W2 : wp (if negb (sec =? 0) then ubuf_append_h u [32] ;;;; d <-- load_rdata_h (hr_rdata x) ;;; rdata_to_ubuf_h u d (zlen d) (rr_type r) (rr_class r) else ret tt) h5
    (fun _ h' => ub u u' L h')).
  { destruct (sec =? 0) eqn:S; cbn [negb] in *.
    - injection ER as <-. apply wp_ret. exact U5.
    - destruct (rr_rdata r) as [d|]; [|discriminate]. apply wp_bind. eapply ub_append_wp; [exact U5|]. intros h6 U6.
      apply wp_bind. eapply ub_rdata_wp; [exact U6|apply IR; [lia|reflexivity]|].
      eapply rdata_to_ubuf_wp; [exact ER|exact U6|auto]. }
  eapply wp_mono; [exact W2|]. clear W2. intros [] h6 U6. cbv beta in U6.
  eapply ub_append_wp; [exact U6|exact K].
Qed.

Lemma own_rr_in : forall r x fp, own_rr r x fp -> hr_len x = zlen (rr_name r) /\ hr_type x = rr_type r /\ hr_class x = rr_class r /\ hr_ttl x = rr_ttl r /\
  In (hr_name x, CBytes (rr_name r)) fp /\ (forall d, rr_rdata r = Some d -> In (hr_rdata x, CRdata d) fp).
Proof.
  intros r x fp (A & _ & B & C & D & F). repeat (split; [assumption|]). destruct (rr_rdata r) as [d|].
  - subst fp. split; [left; reflexivity|]. intros d' [= <-]. right. left. reflexivity.
  - destruct F as (_ & ->). split; [left; reflexivity|]. discriminate.
Qed.

Lemma rr_ubuf_wp : forall r x fp sec c o u L h (Q : unit -> heap -> Prop), own_rr r x fp -> incl fp L ->
  rr_to_ubuf c r sec = Ok o -> ub u c L h -> (forall h', ub u o L h' -> Q tt h') -> wp (rr_to_ubuf_h u x sec) h Q.
Proof.
  intros r x fp sec c o u L h Q OR IN E U K. apply own_rr_in in OR as (A & B & C & D & F & G).
  eapply (rr_ubuf_gen_wp r x sec c o u L h Q); eauto.
Qed.

(** ** RRsets *)
Lemma rrset_rdatas_wp : forall s x u L sec ps ds dn c o h (Q : unit -> heap -> Prop),
  hs_len x = zlen (rs_name s) -> hs_type x = rs_type s -> hs_class x = rs_class s -> hs_ttl x = rs_ttl s ->
  In (hs_name x, CBytes (rs_name s)) L -> In (hs_rdatas x, CPtrs (dn ++ ps)) L -> (length ds <= length ps)%nat -> incl (combine ps (map CRdata ds)) L ->
  rrs_to_ubuf c (map (fun d => {| rr_name := rs_name s; rr_type := rs_type s; rr_class := rs_class s; rr_ttl := rs_ttl s; rr_rdata := Some d |}) ds) sec = Ok o ->
  ub u c L h -> (forall h', ub u o L h' -> Q tt h') ->
  wp (hfor (length ds) (zlen dn) (fun i => ps <-- load_ptrs (hs_rdatas x) ;;; q <-- elem ps i ;;;
    rr_to_ubuf_h u (mkHrr (hs_len x) (hs_name x) (hs_type x) (hs_class x) (hs_ttl x) q) sec)) h Q.
Proof.
  intros s x u L sec ps ds. revert ps. induction ds as [|d ds IH]; intros ps dn c o h Q E1 E2 E3 E4 IN IP LE IR E U K; cbn [length hfor map rrs_to_ubuf] in *.
  - injection E as <-. apply wp_ret. auto.
  - destruct ps as [|p ps]; [cbn [length] in LE; lia|]. apply bind_ok in E as (c' & EC & E).
    apply wp_bind. destruct U as (du & O). apply wp_bind. eapply wp_load_ptrs; [exact O|right; right; exact IP|].
    apply wp_bind. eapply wp_elem; [reflexivity|].
    eapply (rr_ubuf_gen_wp {| rr_name := rs_name s; rr_type := rs_type s; rr_class := rs_class s; rr_ttl := rs_ttl s; rr_rdata := Some d |});
      [exact E1|exact E2|exact E3|exact E4|exact IN| |exact EC|exists du; exact O|].
    + intros _ d' [= <-]. apply IR. left. reflexivity.
    + intros h1 U1. replace (zlen dn + 1) with (zlen (dn ++ [p])) by (rewrite zlen_app; reflexivity).
      eapply (IH ps (dn ++ [p])); [exact E1|exact E2|exact E3|exact E4|exact IN| |cbn [length] in LE; lia| |exact E|exact U1|exact K].
      * rewrite <- app_assoc. exact IP.
      * intros z Z. apply IR. right. exact Z.
Qed.

Lemma rrset_ubuf_wp : forall s x fp sec c o u L h (Q : unit -> heap -> Prop), own_set s x fp -> incl fp L ->
  rrset_to_ubuf c s sec = Ok o -> ub u c L h -> (forall h', ub u o L h' -> Q tt h') -> wp (rrset_to_ubuf_h u x sec) h Q.
Proof.
  intros s x fp sec c o u L h Q (A & _ & B & C & D & N & ps & LP & NZ & ->) IN E U K. unfold rrset_to_ubuf, rrset_to_ubuf_h in *.
  assert (I1 : In (hs_name x, CBytes (rs_name s)) L) by (apply IN; left; reflexivity).
  assert (I2 : ps <> [] -> In (hs_rdatas x, CPtrs ps) L).
  { intros NP. apply IN. right. apply in_app_iff. left. rewrite block_some by (intros X; apply NP, NZ, X). left. reflexivity. }
  assert (I3 : incl (combine ps (map CRdata (rs_rdatas s))) L).
  { intros z Z. apply IN. right. apply in_app_iff. right. exact Z. }
  destruct (sec =? 0) eqn:S.
  - destruct (rs_rdatas s) as [|d ds] eqn:R; [discriminate|]. cbn [length] in LP.
    change (Z.to_nat 1) with (length [d]). change 0 with (zlen (@nil Z)).
    eapply (rrset_rdatas_wp s x u L sec ps [d] []); [exact A|exact B|exact C|exact D|exact I1|apply I2; intros ->; discriminate LP|cbn [length]; lia| |exact E|exact U|exact K].
    intros z Z. apply I3. destruct ps as [|p ps]; [discriminate LP|]. cbn [map combine] in *. destruct Z as [<-|Z]; [left; reflexivity|]. destruct ps; contradiction.
  - rewrite (zlen_nat _ _ _ N). destruct (rs_rdatas s) as [|d ds] eqn:R.
    + cbn [length hfor map rrs_to_ubuf] in *. injection E as <-. apply wp_ret. auto.
    + change 0 with (zlen (@nil Z)).
      eapply (rrset_rdatas_wp s x u L sec ps (d :: ds) []); [exact A|exact B|exact C|exact D|exact I1|apply I2; intros ->; discriminate LP|lia|exact I3|exact E|exact U|exact K].
Qed.

(** ** Arrays *)
Lemma rrs_ubuf_wp : forall p u L sec rs xs f, own_list own_rr rs xs f -> forall dn c o h (Q : unit -> heap -> Prop), incl f L ->
  In (p, CRRs (dn ++ xs)) L -> rrs_to_ubuf c rs sec = Ok o -> ub u c L h -> (forall h', ub u o L h' -> Q tt h') ->
  wp (hfor (length xs) (zlen dn) (fun i => l <-- load_rrs p ;;; r <-- elem l i ;;; rr_to_ubuf_h u r sec)) h Q.
Proof.
  intros p u L sec rs xs f OL. induction OL as [|r rs x xs f g OR OL IH]; intros dn c o h Q IN IP E U K; cbn [length hfor rrs_to_ubuf] in *.
  - injection E as <-. apply wp_ret. auto.
  - apply bind_ok in E as (c' & EC & E). apply wp_bind. destruct U as (du & O). apply wp_bind. eapply wp_load_rrs; [exact O|right; right; exact IP|].
    apply wp_bind. eapply wp_elem; [reflexivity|].
    eapply (rr_ubuf_wp r x f); [exact OR|intros z Z; apply IN, in_app_iff; auto|exact EC|exists du; exact O|]. intros h1 U1.
    replace (zlen dn + 1) with (zlen (dn ++ [x])) by (rewrite zlen_app; reflexivity).
    eapply (IH (dn ++ [x])); [intros z Z; apply IN, in_app_iff; auto| |exact E|exact U1|exact K].
    rewrite <- app_assoc. exact IP.
Qed.

Lemma array_ubuf_wp : forall a x fp sec c o u L h (Q : unit -> heap -> Prop), own_arr a x fp -> incl fp L ->
  rrset_array_to_ubuf c a sec = Ok o -> ub u c L h -> (forall h', ub u o L h' -> Q tt h') -> wp (array_to_ubuf_h u x sec) h Q.
Proof.
  intros a x fp sec c o u L h Q (xs & f1 & ys & f2 & OL & _ & N & _ & NZ & _ & ->) IN E U K. unfold rrset_array_to_ubuf, array_to_ubuf_h in *.
  rewrite (zlen_nat _ _ _ N). destruct xs as [|y xs].
  - apply own_list_nil in OL as (EA & _). rewrite EA in E. cbn [rrs_to_ubuf length hfor] in *. injection E as <-. apply wp_ret. auto.
  - change 0 with (zlen (@nil Z)).
    eapply (rrs_ubuf_wp (ha_rrs x) u L sec _ _ _ OL []); [| |exact E|exact U|exact K].
    + intros z Z. apply IN. apply in_app_iff. right. apply in_app_iff. left. exact Z.
    + apply IN. apply in_app_iff. left. rewrite block_some; [left; reflexivity|]. intros X. apply NZ in X. discriminate.
Qed.

(** ** Messages *)
Lemma head_same : forall m x fp, own_msg m x fp -> head_h x = header_text m.
Proof.
  intros m x fp (f0 & f1 & f2 & f3 & A0 & A1 & A2 & A3 & _ & _ & _ & _ & E1 & E2 & E3 & _).
  assert (N : forall a y f, own_arr a y f -> ha_nrrs y = zlen (a_rrs a)).
  { intros a y f (xs & g1 & ys & g2 & OL & _ & N & _). rewrite N. apply own_list_len in OL. unfold zlen. rewrite OL. reflexivity. }
  unfold head_h, header_text, opcode_text, rcode_text. rewrite E1, E2, E3, (N _ _ _ A0), (N _ _ _ A1), (N _ _ _ A2), (N _ _ _ A3). reflexivity.
Qed.

Lemma cstr_cterm : forall t, ~ In 0 t -> cstr (cterm t) = t /\ cterm t = t ++ [0].
Proof.
  intros t N.
  assert (E : cterm t = t ++ [0]).
  { unfold cterm. destruct (rev t) as [|[|q|q] r] eqn:R; try reflexivity. exfalso. apply N. apply in_rev. rewrite R. left. reflexivity. }
  split; [|exact E]. rewrite E. clear E. unfold cstr. induction t as [|c t IH]; cbn [app split_at]; [reflexivity|].
  destruct (c =? 0) eqn:C; [exfalso; apply N; left; lia|].
  assert (N' : ~ In 0 t) by (intros X; apply N; right; exact X). specialize (IH N').
  destruct (split_at (fun c => c =? 0) (t ++ [0])) as (l, r). cbn [fst] in *. congruence.
Qed.

Lemma edns_ubuf_wp : forall m x fp u c e L h (Q : unit -> heap -> Prop), own_msg m x fp -> incl fp L ->
  (forall p d, In (p, CRdata d) fp -> p <> 0) ->
  (forall d t, e_options (m_edns m) = Some d -> rdata_to_ubuf [] d (zlen d) 41 class_un = Ok t -> ~ In 0 t) ->
  edns_text (m_edns m) = Ok e -> ub u c L h -> (forall h', ub u (c ++ e) L h' -> Q tt h') -> wp (edns_to_ubuf_h u x) h Q.
Proof.
  intros m x fp u c e L h Q (f0 & f1 & f2 & f3 & _ & _ & _ & _ & E1 & E2 & E3 & E4 & _ & _ & _ & EO) IN NZ NN E U K.
  unfold edns_text, edns_to_ubuf_h in *. rewrite E1, E2, E3, E4. destruct (negb (e_present (m_edns m))).
  - injection E as <-. apply wp_ret, K. rewrite app_nil_r. exact U.
  - apply bind_ok in E as (o & EX & E). injection E as <-.
    apply wp_bind. eapply ub_append_wp; [exact U|]. intros h1 U1.
    destruct (e_options (m_edns m)) as [d|].
    + subst fp. replace (hm_options x =? 0) with false by (symmetry; apply Z.eqb_neq; eapply NZ; left; reflexivity).
      apply bind_ok in EX as (t & ET & EX). destruct U1 as (du & O1).
      match type of O1 with owns h1 ((u, CUbuf du) :: (du, CBytes ?x) :: L) => set (c1 := x) in * end.
      apply wp_bind. eapply ub_new_wp; [exact O1|]. intros w h2 NW U2.
      assert (IO : In (hm_options x, CRdata d) L) by (apply IN; left; reflexivity).
      apply wp_bind. eapply ub_rdata_wp; [exact U2|right; right; exact IO|].
      apply wp_bind. eapply rdata_to_ubuf_wp; [exact ET|exact U2|]. intros h3 U3.
      apply wp_bind. eapply cterm_wp; [exact U3|]. intros h4 (dw & O4).
      apply wp_bind. eapply wp_load_ubuf; [exact O4|left; reflexivity|].
      apply wp_bind. eapply wp_load_bytes; [exact O4|right; left; reflexivity|].
      destruct (cstr_cterm t (NN d t eq_refl ET)) as (CS & _). rewrite CS.
      apply wp_bind. eapply wp_lift; [exact EX|].
      apply wp_bind. eapply (ub_append_wp u c1 o h4 ((w, CUbuf dw) :: (dw, CBytes (cterm t)) :: L)).
      * exists du. eapply owns_perm; [exact O4|perm].
      * intros h5 (du' & O5). eapply (ubuf_destroy_wp w dw (CBytes (cterm t)) h5 ((u, CUbuf du') :: (du', CBytes (c1 ++ o)) :: L)); [exact NW|eapply owns_perm; [exact O5|perm]|].
        intros h6 O6. apply K. exists du'. unfold c1 in O6. rewrite <- !app_assoc in O6. exact O6.
    + destruct EO as (-> & _). injection EX as <-. change (0 =? 0) with true. cbv iota. apply wp_ret, K. rewrite app_nil_r. exact U1.
Qed.

Lemma message_ubuf_wp : forall m x fp u o L h (Q : unit -> heap -> Prop), own_msg m x fp -> incl fp L ->
  (forall p d, In (p, CRdata d) fp -> p <> 0) ->
  (forall d t, e_options (m_edns m) = Some d -> rdata_to_ubuf [] d (zlen d) 41 class_un = Ok t -> ~ In 0 t) ->
  message_to_str m = Ok o -> ub u [] L h -> (forall h', ub u o L h' -> Q tt h') -> wp (message_to_ubuf_h u x) h Q.
Proof.
  intros m x fp u o L h Q OM IN NZ NN E U K. unfold message_to_str, message_to_ubuf_h in *.
  apply bind_ok in E as (e & EE & E). cbv zeta in E.
  apply bind_ok in E as (u1 & EQ & E). apply bind_ok in E as (u2 & EA & E). apply bind_ok in E as (u3 & EN & E).
  pose proof OM as (f0 & f1 & f2 & f3 & A0 & A1 & A2 & A3 & _ & _ & _ & _ & _ & _ & _ & EO).
  assert (IF : incl (f0 ++ f1 ++ f2 ++ f3) L).
  { destruct (e_options (m_edns m)); [subst fp; intros z Z; apply IN; right; exact Z|destruct EO as (_ & ->); exact IN]. }
  assert (I0 : incl f0 L) by (intros z Z; apply IF, in_app_iff; auto).
  assert (I1 : incl f1 L) by (intros z Z; apply IF; rewrite !in_app_iff; auto).
  assert (I2 : incl f2 L) by (intros z Z; apply IF; rewrite !in_app_iff; auto).
  assert (I3 : incl f3 L) by (intros z Z; apply IF; rewrite !in_app_iff; auto).
  apply wp_bind. eapply ub_append_wp; [exact U|]. intros h1 U1. cbn [app] in U1. rewrite (head_same _ _ _ OM) in U1.
  apply wp_bind. eapply edns_ubuf_wp; [exact OM|exact IN|exact NZ|exact NN|exact EE|exact U1|]. intros h2 U2.
  apply wp_bind. eapply ub_append_wp; [exact U2|]. intros h3 U3.
  apply wp_bind. eapply array_ubuf_wp; [exact A0|exact I0|exact EQ|exact U3|]. intros h4 U4.
  apply wp_bind. eapply ub_append_wp; [exact U4|]. intros h5 U5.
  apply wp_bind. eapply array_ubuf_wp; [exact A1|exact I1|exact EA|exact U5|]. intros h6 U6.
  apply wp_bind. eapply ub_append_wp; [exact U6|]. intros h7 U7.
  apply wp_bind. eapply array_ubuf_wp; [exact A2|exact I2|exact EN|exact U7|]. intros h8 U8.
  apply wp_bind. eapply ub_append_wp; [exact U8|]. intros h9 U9.
  eapply array_ubuf_wp; [exact A3|exact I3|exact E|exact U9|exact K].
Qed.
