(** ProofMono2.v: only a fault makes the memory behind the packet matter; a run that does not end does not end with any memory. *)
From Verif Require Import Base Lib ModelName ModelDescr ModelParse ProofMono ProofCopy PropName.

Definition nf {A} (o o' : outcome A) : Prop := match o with UB _ => True | _ => o' = o end.
Lemma nf_refl : forall A (o : outcome A), nf o o.
Proof. intros A [a|r|f|]; cbn; auto. Qed.
Lemma nf_bind : forall A B (o o' : outcome A) (k k' : A -> outcome B), nf o o' -> (forall a, nf (k a) (k' a)) -> nf (bind o k) (bind o' k').
Proof. intros A B [a|r|f|] o' k k' H K; cbn in *; auto; subst; cbn; auto. Qed.
Lemma nf_ub : forall A (f : fault) (o : outcome A), nf (UB f) o.
Proof. cbn. auto. Qed.
Lemma nf_of_rf : forall A (o o' : outcome A), rf o o' -> o <> NoFuel -> nf o o'.
Proof. intros A [a|r|f|] o' H N; cbn in *; auto. contradiction. Qed.

Section Mono.
Variables m x : list Z.

Lemma nf_rd : forall i, nf (rd m i) (rd (m ++ x) i).
Proof.
  intros i. unfold rd. destruct (i <? 0); [cbn; auto|]. destruct (nth_error m (Z.to_nat i)) eqn:E; [|cbn; auto].
  assert (Z.to_nat i < length m)%nat by (apply nth_error_Some; congruence). rewrite nth_error_app1 by auto. rewrite E. cbn. auto.
Qed.
Lemma nf_rds : forall i n, nf (rds m i n) (rds (m ++ x) i n).
Proof.
  intros i n. unfold rds. destruct ((i <? 0) || (n <? 0) || (zlen m <? i + n)) eqn:E; [cbn; auto|].
  assert (zlen (m ++ x) = zlen m + zlen x) as L by apply zlen_app. pose proof (zlen_nonneg _ x).
  replace ((i <? 0) || (n <? 0) || (zlen (m ++ x) <? i + n)) with false by lia. cbn. f_equal. unfold zlen in *.
  rewrite skipn_app, firstn_app, skipn_length. replace (Z.to_nat n - (length m - Z.to_nat i))%nat with 0%nat by lia.
  cbn [firstn]. rewrite app_nil_r. reflexivity.
Qed.

Ltac step := first
  [ apply nf_refl | apply nf_ub | apply nf_rd | apply nf_rds | apply nf_bind; [|intros ?]
  | match goal with |- nf (if ?b then _ else _) (if ?b then _ else _) => destruct b end
  | match goal with |- nf (match ?a with _ => _ end) (match ?a with _ => _ end) => destruct a end ].

Hypothesis B : bytes_ok m.
Lemma nf_skip : forall eod s, nf (skip_name m eod s) (skip_name (m ++ x) eod s).
Proof.
  intros eod s. apply nf_of_rf; [apply rf_skip|]. unfold skip_name. destruct (Z.lt_ge_cases s 0) as [L|L].
  - cbn [skip_loop]. destruct (s <=? eod); [|cbn [bind]; destruct (s + 1 >? eod); discriminate]. unfold rd. replace (s <? 0) with true by lia. discriminate.
  - destruct (skip_loop_total (S (S (length m))) m eod s B L ltac:(lia) ltac:(unfold zlen; lia)) as [(t & E & _)|(E & _)]; rewrite E; cbn [bind]; try discriminate; destruct (t + 1 >? eod); discriminate.
Qed.
Lemma nf_unpack : forall eop s, nf (unpack_name m eop s) (unpack_name (m ++ x) eop s).
Proof. intros eop s. apply nf_of_rf; [apply rf_unpack|]. apply (C02_unpack_total m eop s B). Qed.

Lemma nf_copy : forall st n, nf (copy_bytes m st n) (copy_bytes (m ++ x) st n).
Proof. intros [[s sb] u] n. unfold copy_bytes. repeat step. Qed.
Lemma nf_alpn : forall f v n o, nf (alpn_loop f m v n o) (alpn_loop f (m ++ x) v n o).
Proof. induction f as [|f IH]; intros v n o; [cbn; auto|]. cbn [alpn_loop]. repeat (step || apply IH). Qed.
Lemma nf_validate : forall k n v, nf (svcparam_key_validate m k n v) (svcparam_key_validate (m ++ x) k n v).
Proof. intros. unfold svcparam_key_validate. repeat (step || apply nf_alpn). Qed.
Lemma nf_rep : forall f st, nf (repstring_loop f m st) (repstring_loop f (m ++ x) st).
Proof. induction f as [|f IH]; intros [[s sb] u]; [cbn; auto|]. cbn [repstring_loop]. repeat (apply nf_copy || step || apply IH). Qed.
Lemma nf_bitmap : forall f st, nf (bitmap_loop f m st) (bitmap_loop f (m ++ x) st).
Proof. induction f as [|f IH]; intros [[s sb] u]; [cbn; auto|]. cbn [bitmap_loop]. repeat (apply nf_copy || step || apply IH). Qed.
Lemma nf_svc : forall f st, nf (svc_loop f m st) (svc_loop f (m ++ x) st).
Proof.
  induction f as [|f IH]; intros [[s sb] u]; [cbn; auto|]. cbn [svc_loop].
  repeat (apply nf_copy || apply nf_validate || step || apply IH).
Qed.
Lemma nf_field : forall f eop t st, nf (parse_field f m eop t st) (parse_field f (m ++ x) eop t st).
Proof.
  intros f eop t [[s sb] u]. destruct t; cbn [parse_field];
  repeat (apply nf_copy || apply nf_rep || apply nf_bitmap || apply nf_svc || apply nf_unpack || apply nf_skip || step).
Qed.
Lemma nf_fields : forall f eop ts st, nf (parse_fields f m eop ts st) (parse_fields f (m ++ x) eop ts st).
Proof.
  induction ts as [|t ts IH]; intros [[s sb] u]; [cbn; auto|]. cbn [parse_fields].
  repeat (apply nf_field || step || apply IH).
Qed.
Lemma nf_rdata : forall f eop t c s n, nf (parse_rdata f m eop t c s n) (parse_rdata f (m ++ x) eop t c s n).
Proof. intros. unfold parse_rdata. repeat (apply nf_copy || apply nf_fields || step). Qed.
Lemma nf_get16 : forall i, nf (get16 m i) (get16 (m ++ x) i).
Proof. intros. unfold get16. repeat step. Qed.
Lemma nf_get32 : forall i, nf (get32 m i) (get32 (m ++ x) i).
Proof. intros. unfold get32. repeat step. Qed.
Lemma nf_rr : forall f sec eop i, nf (parse_message_rr f sec m eop i) (parse_message_rr f sec (m ++ x) eop i).
Proof.
  intros. unfold parse_message_rr. cbv zeta.
  repeat (apply nf_get16 || apply nf_get32 || apply nf_rdata || apply nf_unpack || apply nf_skip || step).
Qed.
Lemma nf_section : forall f len sec n p M, nf (parse_section f n sec m len p M) (parse_section f n sec (m ++ x) len p M).
Proof.
  intros f len sec n. induction n as [|n IH]; intros p M; [cbn; auto|]. cbn [parse_section].
  destruct (p =? len); [apply nf_refl|]. pose proof (nf_rr f sec len p) as R.
  destruct (parse_message_rr f sec m len p) as [[r k]|e|g|]; cbn in R; try rewrite R; try exact I; try apply nf_refl.
  repeat (step || apply IH).
Qed.
Lemma nf_sections : forall f len secs p M, nf (parse_sections f secs m len p M) (parse_sections f secs (m ++ x) len p M).
Proof.
  intros f len secs. induction secs as [|[sec n] secs IH]; intros p M; [cbn; auto|]. cbn [parse_sections].
  apply nf_bind; [apply nf_section|]. intros [p' M'|r M']; [apply IH|apply nf_refl].
Qed.
Theorem nf_message : forall f len, nf (parse_message f m len) (parse_message f (m ++ x) len).
Proof.
  intros f len. unfold parse_message. destruct (len <? 12); [apply nf_refl|].
  do 6 (apply nf_bind; [apply nf_get16|intros ?]). apply nf_sections.
Qed.
End Mono.

