(** ProofOom2.v: proofs for PropOom2.v. *)
From Verif Require Import Base Lib Libc ModelName ModelDescr ModelParse ModelFormat ModelTables ModelToStr ModelOom ModelOom2 SpecOom ProofOom.

Section Oom.
Variable fails : Z -> bool.
Variable w : bool.
Local Notation fol := (fol fails w).
Local Notation ret_ := (f_ret fails w).
Local Notation lift_ := (f_lift fails w).
Lemma o_ret : forall A (a : A), fol (Ok a) (oret a). Proof. intros. apply f_ret. Qed.
Lemma o_lift : forall A (o : outcome A), fol o (olift o). Proof. intros. apply f_lift. Qed.
Local Hint Resolve o_ret o_lift : core.

Lemma o_base64 : forall s n, fol (bytes_to_base64 s n) (to_base64_o fails s n).
Proof.
  intros s n. unfold to_base64_o. apply f_raw; [apply f_use, f_must; auto|]. intros X. cbn [orb]. destruct (n =? 0); [apply f_use, f_must; auto|apply f_null; auto].
Qed.
Lemma o_svcparam : forall key s n, fol (svcparam_to_str key s n) (svcparam_to_str_o fails key s n).
Proof.
  intros key s n. unfold svcparam_to_str_o. destruct (key =? spr_ech) eqn:E; [|apply f_must; auto]. apply Z.eqb_eq in E as ->.
  change (svcparam_to_str spr_ech s n) with (t <- bytes_to_base64 s n ;; Ok (t ++ [32], @None res)). apply f_bind; [apply o_base64|]. intros t. apply f_must. auto.
Qed.
Lemma o_svcparams : forall k s n, fol (svcparams_text k s n) (svcparams_text_o fails k s n).
Proof.
  induction k as [|k IH]; intros s n; [intros m; left; reflexivity|]. cbn [svcparams_text svcparams_text_o].
  destruct (n >? 0); auto. destruct (n <? 2); auto. apply f_olift. intros v. cbn zeta. destruct (_ =? spr_invalid); auto. apply f_must.
  destruct (n - 2 <? 2); auto. apply f_olift. intros l. cbn zeta. destruct (n - 2 - 2 <? _); auto.
  apply f_bind; [apply o_svcparam|]. intros [t r]. cbn [fst snd]. unfold emit. apply f_bind.
  - destruct r as [r|]; cbn [after_res]; auto.
  - intros [o f]. cbn [fst snd]. auto.
Qed.
Lemma o_field : forall t s n, fol (field_text t s n) (field_text_o fails t s n).
Proof.
  intros t s n. destruct t; cbn [field_text_o]; try (apply f_must; auto; fail).
  - cbn [field_text]. apply f_bind; [apply o_base64|]. auto.
  - cbn [field_text]. apply o_svcparams.
Qed.
Lemma o_fields : forall ts s n, fol (fields_text ts s n) (fields_text_o fails ts s n).
Proof.
  induction ts as [|t ts IH]; intros s n; cbn [fields_text fields_text_o]; auto. destruct (n =? 0); auto.
  apply f_bind; [apply o_field|]. intros [o f]. cbn [fst snd]. destruct f as [s' n'| |r]; auto. unfold emit. apply f_bind; [apply IH|]. intros [p f]. cbn [fst snd]. auto.
Qed.
Lemma o_rdata : forall u d n t c, fol (rdata_to_ubuf u d n t c) (rdata_to_ubuf_o fails u d n t c).
Proof.
  intros u d n t c. unfold rdata_to_ubuf_o. destruct (lookup_descr t) as [e|] eqn:L; [|apply f_must; auto]. unfold rdata_to_ubuf. rewrite L.
  destruct (negb _); auto. apply f_bind; [apply o_fields|]. intros [x f]. cbn [fst snd]. apply f_must. destruct f; auto.
Qed.
Lemma o_to_str : forall o m, fol o m -> fol o (to_str_o fails m).
Proof.
  intros o m F. unfold to_str_o. apply f_must, f_must. eapply fol_eq; [symmetry; apply bind_ok|]. apply f_bind; [exact F|]. intros a. apply f_must, f_must. auto.
Qed.
Lemma o_rr : forall u r sec, fol (rr_to_ubuf u r sec) (rr_to_ubuf_o fails u r sec).
Proof.
  intros u r sec. unfold rr_to_ubuf, rr_to_ubuf_o. apply f_must, f_olift. intros [name z]. cbn [fst]. cbn zeta. apply f_olift. intros ttl. apply f_bind.
  - destruct (negb (sec =? 0)); auto. destruct (rr_rdata r) as [d|]; [apply o_rdata|apply o_lift].
  - intros x. apply f_must. auto.
Qed.
Lemma o_rrs : forall rs u sec, fol (rrs_to_ubuf u rs sec) (rrs_to_ubuf_o fails u rs sec).
Proof. induction rs as [|r rs IH]; intros u sec; cbn [rrs_to_ubuf rrs_to_ubuf_o]; auto. apply f_bind; [apply o_rr|]. intros; apply IH. Qed.
Lemma o_rrset : forall u s sec, fol (rrset_to_ubuf u s sec) (rrset_to_ubuf_o fails u s sec).
Proof. intros u s sec. unfold rrset_to_ubuf, rrset_to_ubuf_o. cbn zeta. destruct (sec =? 0); [destruct (rs_rdatas s); [apply o_lift|]|]; apply o_rrs. Qed.
Lemma o_edns : forall e, fol (edns_text e) (edns_text_o fails e).
Proof.
  intros e. unfold edns_text, edns_text_o. destruct (negb (e_present e)); auto. apply f_must, f_bind; [|auto]. destruct (e_options e) as [d|]; auto.
  apply f_must, f_must, f_bind; [apply o_rdata|]. intros t. apply f_must, f_must. auto.
Qed.
Lemma o_message : forall m, fol (message_to_str m) (message_to_str_o fails m).
Proof.
  intros m. unfold message_to_str, message_to_str_o. apply o_to_str, f_must, f_bind; [apply o_edns|]. intros e. cbn zeta. unfold rrset_array_to_ubuf, rrset_array_to_ubuf_o.
  apply f_bind; [apply o_rrs|]. intros u1. apply f_bind; [apply o_rrs|]. intros u2. apply f_bind; [apply o_rrs|]. intros u3. apply o_rrs.
Qed.
End Oom.
Lemma fol_stop : forall fails A (o : outcome A) m n, fol fails false o m -> fail_stop fails o (m n).
Proof. intros fails A o m n F. destruct (F n) as [S|(X & [W|[E|E]])]; [left; auto|discriminate|right; auto|right; auto]. Qed.
(** ** No access through NULL *)
Definition nn {A} (m : om A) : Prop := forall n, m n <> ONull.
Lemma nn_ret : forall A (a : A), nn (oret a). Proof. intros A a n. discriminate. Qed.
Lemma nn_lift : forall A (o : outcome A), nn (olift o). Proof. intros A o n. unfold olift. destruct o; discriminate. Qed.
Lemma nn_bind : forall A B (m : om A) (k : A -> om B), nn m -> (forall a, nn (k a)) -> nn (obind m k).
Proof. intros A B m k M K n. unfold obind. specialize (M n). destruct (m n) eqn:E; try discriminate; [apply K|congruence]. Qed.
Lemma nn_must : forall f A (m : om A), nn m -> nn (must f ~;; m).
Proof. intros f A m M n. unfold obind, must. destruct (f n); [discriminate|apply M]. Qed.
Global Hint Resolve nn_ret nn_lift nn_must : nn.
Section Null.
Variable fails : Z -> bool.
Lemma nn_fields : forall ts s n, ~ In rdf_bytes_b64 ts -> ~ In rdf_svcparams ts -> nn (fields_text_o fails ts s n).
Proof.
  induction ts as [|t ts IH]; intros s n N M; cbn [fields_text_o]; auto with nn. destruct (n =? 0); auto with nn.
  apply nn_bind; [destruct t; cbn [field_text_o]; auto with nn; exfalso; [apply N|apply M]; left; reflexivity|].
  intros [o f]. cbn [fst snd]. destruct f; auto with nn. apply nn_bind; [apply IH; intros I; [apply N|apply M]; right; exact I|]. auto with nn.
Qed.
Lemma no_b64 : forall t d, lookup_descr t = Some d -> ~ In t [46; 48; 60; 61; 64; 65] -> ~ In rdf_bytes_b64 (d_types d) /\ ~ In rdf_svcparams (d_types d).
Proof.
  intros t d D N. cbn [In] in N. unfold lookup_descr in D. revert D. unfold assocZ, record_table.
  repeat (match goal with |- (if ?a =? ?b then _ else _) = _ -> _ => destruct (Z.eqb_spec a b) as [E|_]; [intros D; injection D as <-; cbn [d_types In]; intuition (try discriminate; lia)|] end). discriminate.
Qed.
Definition no_base64 (t : Z) : Prop := ~ In t [46; 48; 60; 61; 64; 65].
Lemma nn_rdata : forall u d n t c, no_base64 t -> nn (rdata_to_ubuf_o fails u d n t c).
Proof.
  intros u d n t c N. unfold rdata_to_ubuf_o. destruct (lookup_descr t) as [e|] eqn:L; auto with nn. destruct (no_b64 t e L N). destruct (negb _); auto with nn.
  apply nn_bind; [apply nn_fields; auto|]. intros [x f]. auto with nn.
Qed.
Lemma nn_to_str : forall m, nn m -> nn (to_str_o fails m).
Proof. intros m M. unfold to_str_o. apply nn_must, nn_must, nn_bind; auto. intros a. auto with nn. Qed.
Lemma nn_rr : forall u r sec, sec = 0 \/ no_base64 (rr_type r) -> nn (rr_to_ubuf_o fails u r sec).
Proof.
  intros u r sec N. unfold rr_to_ubuf_o. apply nn_must, nn_bind; auto with nn. intros [name z]. cbn zeta. apply nn_bind; auto with nn. intros ttl. apply nn_bind.
  - destruct (Z.eqb_spec sec 0) as [E|E]; cbn [negb]; auto with nn. destruct (rr_rdata r) as [d|]; auto with nn. apply nn_rdata. destruct N; [contradiction|auto].
  - intros x. auto with nn.
Qed.
Lemma nn_rrs : forall rs u sec, sec = 0 \/ Forall (fun r => no_base64 (rr_type r)) rs -> nn (rrs_to_ubuf_o fails u rs sec).
Proof.
  induction rs as [|r rs IH]; intros u sec N; cbn [rrs_to_ubuf_o]; auto with nn. apply nn_bind; [apply nn_rr; destruct N as [N|N]; auto; right; inversion N; auto|].
  intros x. apply IH. destruct N as [N|N]; auto. right. inversion N; auto.
Qed.
Lemma nn_rrset : forall u s sec, sec = 0 \/ no_base64 (rs_type s) -> nn (rrset_to_ubuf_o fails u s sec).
Proof.
  intros u s sec N. unfold rrset_to_ubuf_o. cbn zeta. destruct (sec =? 0) eqn:E; [destruct (rs_rdatas s); auto with nn; apply nn_rrs; left; lia|].
  apply nn_rrs. destruct N as [N|N]; [lia|]. right. apply Forall_forall. intros r I. apply in_map_iff in I as (d & <- & _). exact N.
Qed.
Lemma nn_edns : forall e, nn (edns_text_o fails e).
Proof.
  intros e. unfold edns_text_o. destruct (negb _); auto with nn. apply nn_must, nn_bind; [|auto with nn]. destruct (e_options e) as [d|]; auto with nn.
  apply nn_must, nn_must, nn_bind; [apply nn_rdata; unfold no_base64; cbn [In]; lia|]. intros t. auto with nn.
Qed.
Lemma nn_message : forall m, (forall r, In r (a_rrs (m_an m) ++ a_rrs (m_ns m) ++ a_rrs (m_ar m)) -> no_base64 (rr_type r)) -> nn (message_to_str_o fails m).
Proof.
  intros m N. unfold message_to_str_o. apply nn_to_str, nn_must, nn_bind; [apply nn_edns|]. intros e. cbn zeta. unfold rrset_array_to_ubuf_o.
  assert (F : forall l, incl l (a_rrs (m_an m) ++ a_rrs (m_ns m) ++ a_rrs (m_ar m)) -> Forall (fun r => no_base64 (rr_type r)) l) by (intros l I; apply Forall_forall; auto).
  apply nn_bind; [apply nn_rrs; auto|]. intros u1. apply nn_bind; [apply nn_rrs; right; apply F; auto with datatypes|]. intros u2.
  apply nn_bind; [apply nn_rrs; right; apply F; auto with datatypes|]. intros u3. apply nn_rrs. right. apply F. auto with datatypes.
Qed.
End Null.
