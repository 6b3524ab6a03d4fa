(** ProofOom.v: proofs for PropOom.v. *)
From Verif Require Import Base Lib Libc ModelName ModelDescr ModelFormat ModelTables ModelFromStr ModelOom SpecOom.

Section Oom.
Variable fails : Z -> bool.
Variable w : bool.
(** With [w] anything may happen after a failure. *)
Definition fol {A} (o : outcome A) (m : om A) : Prop := forall n, same_end o (m n) \/ ((exists k, fails k = true) /\ (w = true \/ m n = OAbort \/ m n = ONull)).
Lemma f_ret : forall A (a : A), fol (Ok a) (oret a). Proof. intros A a n. left. exists n. reflexivity. Qed.
Lemma f_err : forall A r, fol (@Err A r) (oerr r). Proof. intros A r n. left. exists n. reflexivity. Qed.
Lemma f_lift : forall A (o : outcome A), fol o (olift o). Proof. intros A o n. left. unfold olift, same_end. destruct o; eauto. Qed.
Lemma f_bind : forall A B (o : outcome A) (m : om A) (k : A -> outcome B) (mk : A -> om B), fol o m -> (forall a, fol (k a) (mk a)) -> fol (bind o k) (obind m mk).
Proof.
  intros A B o m k mk F G n. unfold obind. destruct (F n) as [S|(X & [W|[E|E]])]; [|right; auto|right; rewrite E; auto|right; rewrite E; auto].
  destruct o; cbn [same_end] in S; cbn [bind].
  - destruct S as (n' & ->). apply G.
  - destruct S as (n' & ->). left. exists n'. reflexivity.
  - rewrite S. left. reflexivity.
  - rewrite S. left. reflexivity.
Qed.
Lemma f_bind_ok : forall A B (o : outcome B) (a : A) (m : om A) (mk : A -> om B), fol (Ok a) m -> fol o (mk a) -> fol o (obind m mk).
Proof.
  intros A B o a m mk F G n. unfold obind. destruct (F n) as [(n' & ->)|(X & [W|[E|E]])]; [apply G|right; auto|right; rewrite E; auto|right; rewrite E; auto].
Qed.
Lemma f_must : forall A (o : outcome A) (m : om A), fol o m -> fol o (must fails ~;; m).
Proof. intros A o m F n. unfold obind, must. destruct (fails n) eqn:E; [right; eauto|apply F]. Qed.
Lemma f_raw : forall A (o : outcome A) (m : bool -> om A), fol o (m true) -> ((exists k, fails k = true) -> fol o (m false)) -> fol o (b <~ raw fails ;;; m b).
Proof. intros A o m F G n. unfold obind, raw. destruct (fails n) eqn:E; [apply G; eauto|apply F]. Qed.
Lemma f_use : forall A (o : outcome A) (m : om A), fol o m -> fol o (use true ~;; m). Proof. intros A o m F n. apply F. Qed.
Lemma f_null : forall A (o : outcome A) (m : om A), (exists k, fails k = true) -> fol o (use false ~;; m). Proof. intros A o m F n. right. auto. Qed.
Lemma f_nul : forall A (o : outcome A), (exists k, fails k = true) -> fol o (fun _ => ONull). Proof. intros A o F n. right. auto. Qed.
Lemma f_dup : forall A B (o : outcome A) (t : bytes) (f : bytes -> B) (m : B -> om A), fol o (m (f t)) -> fol o (x <~ with_dup_o fails t f ;;; m x).
Proof. intros A B o t f m F n. unfold with_dup_o, obind, raw. destruct (fails n) eqn:E; cbn [negb]; [right; eauto|apply F]. Qed.
Lemma f_olift : forall A B (o : outcome A) (k : A -> outcome B) (mk : A -> om B), (forall a, fol (k a) (mk a)) -> fol (bind o k) (obind (olift o) mk).
Proof. intros. apply f_bind; auto using f_lift. Qed.
Lemma f_clip : forall A (o : outcome A) (m : om A), fol o m -> fol o (clip_on_err fails m).
Proof.
  intros A o m F n. unfold clip_on_err. destruct (F n) as [S|(X & [W|[E|E]])]; [|right; auto|right; rewrite E; auto|right; rewrite E; auto].
  destruct o; cbn [same_end] in S.
  - destruct S as (n' & ->). left. exists n'. reflexivity.
  - destruct S as (n' & ->). destruct (fails n') eqn:E; [right; eauto|]. left. exists (n' + 1). reflexivity.
  - rewrite S. left. reflexivity.
  - rewrite S. left. reflexivity.
Qed.
Lemma fol_eq : forall A (o o' : outcome A) m, o = o' -> fol o' m -> fol o m. Proof. intros. subst. auto. Qed.
Lemma bind_ok : forall A (o : outcome A), bind o Ok = o. Proof. intros A [ | | | ]; reflexivity. Qed.
Local Hint Resolve f_ret f_err f_lift : core.

Lemma f_name : forall s, fol (parse_text_field rdf_name s) (name_field_o fails s).
Proof.
  intros s. cbn [parse_text_field]. unfold name_field_o. destruct (token s) as [t e].
  apply f_raw; [|intros X; apply f_raw; intros; apply f_null; auto].
  apply f_raw; [|intros X; apply f_use, f_null; auto]. apply f_use, f_use.
  apply f_bind; [apply f_must, f_lift|]. intros [d len]. apply f_must. apply f_olift. intros l. auto.
Qed.
Lemma f_base64 : forall s, fol (base64_str_to_bytes s) (base64_o fails s).
Proof.
  intros s. unfold base64_o. apply f_raw; [|intros X; apply f_null; auto]. apply f_use.
  eapply fol_eq; [symmetry; apply bind_ok|]. apply f_olift. intros a. apply f_must. auto.
Qed.
Lemma f_prefix : forall s, fol (prefix_field s) (prefix_field_o fails s).
Proof.
  intros s. unfold prefix_field, prefix_field_o. destruct (token s) as [t e]. destruct (negb (forallb is_digit t)); auto.
  destruct (scan_u s) as [ | |v r]; auto; try apply f_lift. cbn zeta. destruct (v mod 256 >? 128); auto. apply f_must.
  destruct (skip_space e) as [|c r'] eqn:K; auto. destruct (token (c :: r')) as [t' e']. apply f_dup.
  destruct (inet_pton6 t') as [a|].
  - apply f_must. apply f_olift. intros o. destruct (end_or_null e') as [e''|]; auto. destruct (v mod 256 =? 0); auto. destruct (skip_space e''); auto.
  - destruct (negb (v mod 256 =? 128)); auto.
Qed.
Lemma f_hash : forall s, fol (parse_text_field rdf_hash s) (hash_field_o fails s).
Proof.
  intros s. cbn [parse_text_field]. unfold hash_field_o. destruct (token s) as [t e]. destruct (zlen t =? 1).
  - apply f_must, f_olift. auto.
  - assert (K : fol (o <- base32_decode (zlen t) t ;; match o with None => Err res_parse_error | Some l => if negb (zlen l mod 256 =? zlen l) then Err res_parse_error else Ok (zlen l :: l, Some e) end)
      (o <~ olift (base32_decode (zlen t) t) ;;; match o with None => oerr res_parse_error | Some l => if negb (zlen l mod 256 =? zlen l) then oerr res_parse_error else must fails ~;; oret (zlen l :: l, Some e) end)).
    { apply f_olift. intros [l|]; auto. destruct (negb _); auto. apply f_must. auto. }
    apply f_raw; [apply f_use, K|]. intros X. cbn [orb]. destruct (negb (b32_stores t 0)); [apply f_use, K|apply f_null; auto].
Qed.
Lemma f_svcparam : forall key v, key <> spr_invalid -> fol (str_to_svcparam key (Some v)) (str_to_svcparam_o fails key v).
Proof.
  intros key v N. unfold str_to_svcparam_o. apply f_must. destruct (key =? spr_ech) eqn:E; [|apply f_lift].
  apply Z.eqb_eq in E as ->. unfold str_to_svcparam. cbn [Z.eqb spr_ech spr_invalid spr_nd_alpn spr_mandatory spr_port].
  change (spr_ech =? spr_invalid) with false. change (spr_ech =? spr_nd_alpn) with false. change (spr_ech =? spr_mandatory) with false. change (spr_ech =? spr_port) with false. change (spr_ech =? spr_ech) with true. cbn match. cbn zeta.
  destruct (strtok 32 (cstr v)) as [[t r]|]; [|apply f_err]. destruct (zlen t >? 255); [apply f_err|].
  eapply fol_eq; [|apply f_bind; [apply f_base64|intros o; apply f_ret]]. destruct (base64_str_to_bytes t); reflexivity.
Qed.
Lemma svc_key : forall s, str_to_svckey s = spr_invalid \/ str_to_svckey s <> spr_invalid. Proof. intros. destruct (Z.eq_dec (str_to_svckey s) spr_invalid); auto. Qed.
(** The parameters, when a failure may lead anywhere. *)
Lemma f_svcparams_w : w = true -> forall k s, fol (svcparams_parse k s) (svcparams_o fails k s).
Proof.
  intros W. induction k as [|k IH]; intros s; [intros n; left; reflexivity|]. cbn [svcparams_parse svcparams_o].
  destruct s as [|c r]; auto. destruct (c =? 32); [apply IH|]. destruct (split_at _ (c :: r)) as [ks val]. apply f_dup.
  destruct (str_to_svckey ks =? spr_invalid) eqn:K; auto. cbn zeta.
  assert (B : fol (if negb (str_to_svckey ks =? spr_nd_alpn) then Err res_parse_error else o <- str_to_svcparam (str_to_svckey ks) None ;; o' <- svcparams_parse k val ;; Ok (o ++ o'))
    (if negb (str_to_svckey ks =? spr_nd_alpn) then oerr res_parse_error else must fails ~;; o <~ olift (str_to_svcparam (str_to_svckey ks) None) ;;; o' <~ svcparams_o fails k val ;;; oret (o ++ o'))).
  { destruct (negb _); auto. apply f_must, f_olift. intros o. apply f_bind; [apply IH|]. auto. }
  destruct val as [|d v]; [apply B|]. destruct (d =? 61); [|apply B]. apply f_must. destruct (from_str_string v) as [[l e]|]; auto.
  apply f_raw; [|intros X n; right; auto]. apply f_bind; [apply f_must, f_svcparam; lia|]. intros o. apply f_bind; [apply IH|]. auto.
Qed.
(** The parameters of a text that is read. *)
Lemma f_svcparams_ok : forall k s o, svcparams_parse k s = Ok o -> fol (Ok o) (svcparams_o fails k s).
Proof.
  induction k as [|k IH]; intros s o E; [discriminate|]. cbn [svcparams_parse svcparams_o] in *.
  destruct s as [|c r]; [assert (o = []) as -> by congruence; auto|]. destruct (c =? 32); [apply IH; auto|]. destruct (split_at _ (c :: r)) as [ks val]. apply f_dup.
  destruct (str_to_svckey ks =? spr_invalid) eqn:K; [discriminate|]. cbn zeta in *.
  assert (B : (if negb (str_to_svckey ks =? spr_nd_alpn) then Err res_parse_error else o <- str_to_svcparam (str_to_svckey ks) None ;; o' <- svcparams_parse k val ;; Ok (o ++ o')) = Ok o ->
    fol (Ok o) (if negb (str_to_svckey ks =? spr_nd_alpn) then oerr res_parse_error else must fails ~;; o <~ olift (str_to_svcparam (str_to_svckey ks) None) ;;; o' <~ svcparams_o fails k val ;;; oret (o ++ o'))).
  { destruct (negb _); [discriminate|]. intros E'. apply f_must. destruct (str_to_svcparam _ None) as [o1| | |]; cbn [bind] in E'; try discriminate.
    destruct (svcparams_parse k val) as [o2| | |] eqn:P; cbn [bind] in E'; try discriminate. assert (o = o1 ++ o2) as -> by congruence.
    apply (f_olift _ _ (Ok o1) (fun o1 => Ok (o1 ++ o2))). intros a. apply (f_bind _ _ (Ok o2) _ (fun o2 => Ok (a ++ o2))); auto. }
  destruct val as [|d v]; [apply B, E|]. destruct (d =? 61); [|apply B, E]. apply f_must. destruct (from_str_string v) as [[l e]|]; [|discriminate].
  destruct (str_to_svcparam (str_to_svckey ks) (Some l)) as [o1| | |] eqn:Q; cbn [bind] in E; try discriminate.
  destruct (svcparams_parse k e) as [o2| | |] eqn:P; cbn [bind] in E; try discriminate. assert (o = o1 ++ o2) as -> by congruence.
  assert (T : forall m, fol (Ok o1) m -> fol (Ok (o1 ++ o2)) (o <~ m ;;; o' <~ svcparams_o fails k e ;;; oret (o ++ o'))).
  { intros m F. apply (f_bind _ _ (Ok o1) _ (fun o1 => Ok (o1 ++ o2))); auto. intros a. apply (f_bind _ _ (Ok o2) _ (fun o2 => Ok (a ++ o2))); auto. }
  apply f_raw; [|intros X]; apply T.
  - rewrite <- Q. apply f_must, f_svcparam. lia.
  - destruct l as [|x l]; [|apply f_nul; auto]. apply f_must. unfold str_to_svcparam_null_o. apply f_must.
    destruct (str_to_svckey ks =? spr_nd_alpn) eqn:Y.
    + apply Z.eqb_eq in Y. rewrite Y in Q. discriminate.
    + destruct (_ || _); [apply f_nul; auto|]. rewrite Q. apply f_lift.
Qed.
Lemma f_bitmap : forall k s, fol (bitmap_toks k s) (bitmap_o fails k s).
Proof.
  induction k as [|k IH]; intros s; [intros n; left; reflexivity|]. cbn [bitmap_toks bitmap_o]. destruct s as [|c r]; auto. destruct (isspace c); [apply IH|].
  destruct (token (c :: r)) as [t e]. apply f_dup. destruct (_ && _); auto. apply f_must, f_bind; [apply IH|]. auto.
Qed.
Lemma f_field : forall t s, t <> rdf_svcparams -> fol (parse_text_field t s) (text_field_o fails t s).
Proof.
  intros t s N. destruct t; try congruence; cbn [text_field_o]; try (apply f_must, f_lift); try apply f_name; try apply f_hash; try apply f_prefix; cbn [parse_text_field].
  - apply f_bind; [apply f_base64|]. intros o. apply f_olift. auto.
  - destruct (token s) as [t e]. apply f_dup. destruct (inet_pton4 t); auto. apply f_must. auto.
  - destruct (token s) as [t e]. apply f_dup. destruct (inet_pton6 t); auto. apply f_must. auto.
  - destruct (token s) as [t e]. apply f_dup. cbn zeta. destruct (str_to_rrtype t >? 0); auto. apply f_must. auto.
  - apply f_must, f_bind; [apply f_bitmap|]. intros ts. apply f_olift. intros o. apply f_must. auto.
Qed.
Lemma f_fields : forall ts s, w = true \/ ~ In rdf_svcparams ts -> fol (parse_text_fields ts s) (text_fields_o fails ts s).
Proof.
  induction ts as [|t ts IH]; intros s W; cbn [parse_text_fields text_fields_o]; auto. destruct s as [s|]; auto. destruct (skip_space s) as [|c r] eqn:K; auto.
  assert (F : fol (parse_text_field t (c :: r)) (text_field_o fails t (c :: r))).
  { destruct W as [W|W]; [|apply f_field; intros E; apply W; left; exact E].
    destruct t; try (apply f_field; discriminate). cbn [parse_text_field text_field_o]. apply f_bind; [apply f_svcparams_w; auto|]. auto. }
  apply f_bind; [exact F|]. intros [o e]. apply f_bind; [apply IH; destruct W as [W|W]; auto; right; intros I; apply W; right; exact I|]. cbn [fst]. auto.
Qed.
Lemma f_field_ok : forall t s x, parse_text_field t s = Ok x -> fol (Ok x) (text_field_o fails t s).
Proof.
  intros t s x E. destruct t; try (rewrite <- E; apply f_field; discriminate). cbn [parse_text_field text_field_o] in *.
  destruct (svcparams_parse (S (length s)) s) as [o| | |] eqn:P; cbn [bind] in E; try discriminate. assert (x = (o, Some s)) as -> by congruence.
  apply (f_bind _ _ (Ok o) _ (fun o => Ok (o, Some s))); [apply f_svcparams_ok; exact P|]. auto.
Qed.
Lemma f_fields_ok : forall ts s o, parse_text_fields ts s = Ok o -> fol (Ok o) (text_fields_o fails ts s).
Proof.
  induction ts as [|t ts IH]; intros s o E; cbn [parse_text_fields text_fields_o] in *; [assert (o = []) as -> by congruence; auto|].
  destruct s as [s|]; [|assert (o = []) as -> by congruence; auto]. destruct (skip_space s) as [|c r] eqn:K; [assert (o = []) as -> by congruence; auto|].
  destruct (parse_text_field t (c :: r)) as [[o1 e]| | |] eqn:P; cbn [bind] in E; try discriminate.
  destruct (parse_text_fields ts e) as [o2| | |] eqn:Q; cbn [bind] in E; try discriminate. assert (o = o1 ++ o2) as -> by congruence.
  apply (f_bind_ok _ _ _ (o1, e)); [apply f_field_ok; exact P|]. cbn [fst snd]. apply (f_bind_ok _ _ _ o2); auto.
Qed.
Lemma f_rdata : forall s t c, w = true \/ (t <> 64 /\ t <> 65) -> fol (str_to_rdata s t c) (str_to_rdata_o fails s t c).
Proof.
  intros s t c W. unfold str_to_rdata_o. apply f_must, f_must. eapply fol_eq; [symmetry; apply bind_ok|]. apply f_bind; [|intros; apply f_must; auto]. apply f_clip. unfold str_to_rdata.
  destruct (lookup_descr t) as [d|] eqn:D; [|apply f_must, f_lift]. destruct (negb _); auto. apply f_fields.
  destruct W as [W|(N & M)]; [auto|right]. unfold lookup_descr in D. revert D. unfold assocZ, record_table.
  repeat (match goal with |- (if ?a =? ?b then _ else _) = _ -> _ => destruct (Z.eqb_spec a b) as [E|_]; [intros D; injection D as <-; cbn [d_types In]; intuition (try discriminate; congruence)|] end). discriminate.
Qed.
Lemma f_rdata_ok : forall s t c o, str_to_rdata s t c = Ok o -> fol (Ok o) (str_to_rdata_o fails s t c).
Proof.
  intros s t c o E. unfold str_to_rdata_o. apply f_must, f_must. apply (f_bind _ _ (Ok o) _ (fun o => Ok o)); [|intros; apply f_must; auto]. apply f_clip. unfold str_to_rdata in E.
  destruct (lookup_descr t) as [d|]; [|apply f_must; rewrite <- E; apply f_lift]. destruct (negb _); [assert (o = []) as -> by congruence; auto|]. apply f_fields_ok, E.
Qed.
End Oom.
