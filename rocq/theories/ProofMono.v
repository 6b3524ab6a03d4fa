(** ProofMono.v: a run that ends without a fault does the same with more memory behind it and with more fuel. *)
From Verif Require Import Base Lib ModelName ModelDescr ModelParse.

Definition rf {A} (o o' : outcome A) : Prop := match o with UB _ | NoFuel => True | _ => o' = o end.

Lemma rf_refl : forall A (o : outcome A), rf o o.
Proof. intros A [a|r|f|]; cbn; auto. Qed.
Lemma rf_bind : forall A B (o o' : outcome A) (k k' : A -> outcome B), rf o o' -> (forall a, rf (k a) (k' a)) -> rf (bind o k) (bind o' k').
Proof. intros A B [a|r|f|] o' k k' H K; cbn in *; auto; subst; cbn; auto. Qed.
Lemma rf_ub : forall A (f : fault) (o : outcome A), rf (UB f) o.
Proof. cbn. auto. Qed.

Section Mono.
Variables m x : list Z.

Lemma rf_rd : forall i, rf (rd m i) (rd (m ++ x) i).
Proof.
  intros i. unfold rd. destruct (i <? 0); [cbn; auto|]. destruct (nth_error m (Z.to_nat i)) eqn:E; [|cbn; auto].
  assert (Z.to_nat i < length m)%nat by (apply nth_error_Some; congruence). rewrite nth_error_app1 by auto. rewrite E. cbn. auto.
Qed.
Lemma rf_rds : forall i n, rf (rds m i n) (rds (m ++ x) i n).
Proof.
  intros i n. unfold rds. destruct ((i <? 0) || (n <? 0) || (zlen m <? i + n)) eqn:E; [cbn; auto|].
  assert (zlen (m ++ x) = zlen m + zlen x) as L by apply zlen_app. pose proof (zlen_nonneg _ x).
  replace ((i <? 0) || (n <? 0) || (zlen (m ++ x) <? i + n)) with false by lia. cbn. f_equal. unfold zlen in *.
  rewrite skipn_app, firstn_app, skipn_length. replace (Z.to_nat n - (length m - Z.to_nat i))%nat with 0%nat by lia.
  cbn [firstn]. rewrite app_nil_r. reflexivity.
Qed.

Ltac step := first
  [ apply rf_refl | apply rf_ub | apply rf_rd | apply rf_rds | apply rf_bind; [|intros ?]
  | match goal with |- rf (if ?b then _ else _) (if ?b then _ else _) => destruct b end
  | match goal with |- rf (match ?a with _ => _ end) (match ?a with _ => _ end) => destruct a end ].

Lemma rf_skip_loop : forall f f' eod s, (f <= f')%nat -> rf (skip_loop f m eod s) (skip_loop f' (m ++ x) eod s).
Proof.
  induction f as [|f IH]; intros f' eod s L; [cbn; auto|]. destruct f' as [|f']; [lia|]. cbn [skip_loop]. repeat step. apply IH. lia.
Qed.
Lemma rf_skip : forall eod s, rf (skip_name m eod s) (skip_name (m ++ x) eod s).
Proof. intros. unfold skip_name. apply rf_bind; [|intros; apply rf_refl]. apply rf_skip_loop. rewrite app_length. lia. Qed.

Lemma rf_unpack_loop : forall f f' eop s t o, (f <= f')%nat -> rf (unpack_loop f m eop s t o) (unpack_loop f' (m ++ x) eop s t o).
Proof.
  induction f as [|f IH]; intros f' eop s t o L; [cbn; auto|]. destruct f' as [|f']; [lia|]. cbn [unpack_loop].
  repeat (step || (apply IH; lia)).
Qed.
Lemma rf_unpack : forall eop s, rf (unpack_name m eop s) (unpack_name (m ++ x) eop s).
Proof.
  intros. unfold unpack_name. destruct ((0 >=? eop) || (s >=? eop) || (s <? 0)); [apply rf_refl|]. apply rf_unpack_loop.
  unfold unpack_fuel. rewrite app_length. lia.
Qed.

Lemma rf_copy : forall st n, rf (copy_bytes m st n) (copy_bytes (m ++ x) st n).
Proof. intros [[s sb] u] n. unfold copy_bytes. repeat step. Qed.
Lemma rf_alpn : forall f v n o, rf (alpn_loop f m v n o) (alpn_loop f (m ++ x) v n o).
Proof. induction f as [|f IH]; intros v n o; [cbn; auto|]. cbn [alpn_loop]. repeat (step || apply IH). Qed.
Lemma rf_validate : forall k n v, rf (svcparam_key_validate m k n v) (svcparam_key_validate (m ++ x) k n v).
Proof. intros. unfold svcparam_key_validate. repeat (step || apply rf_alpn). Qed.
Lemma rf_rep : forall f st, rf (repstring_loop f m st) (repstring_loop f (m ++ x) st).
Proof. induction f as [|f IH]; intros [[s sb] u]; [cbn; auto|]. cbn [repstring_loop]. repeat (apply rf_copy || step || apply IH). Qed.
Lemma rf_bitmap : forall f st, rf (bitmap_loop f m st) (bitmap_loop f (m ++ x) st).
Proof. induction f as [|f IH]; intros [[s sb] u]; [cbn; auto|]. cbn [bitmap_loop]. repeat (apply rf_copy || step || apply IH). Qed.
Lemma rf_svc : forall f f' st, (f <= f')%nat -> rf (svc_loop f m st) (svc_loop f' (m ++ x) st).
Proof.
  induction f as [|f IH]; intros f' [[s sb] u] L; [cbn; auto|]. destruct f' as [|f']; [lia|]. cbn [svc_loop].
  repeat (apply rf_copy || apply rf_validate || step || (apply IH; lia)).
Qed.
Lemma rf_field : forall f f' eop t st, (f <= f')%nat -> rf (parse_field f m eop t st) (parse_field f' (m ++ x) eop t st).
Proof.
  intros f f' eop t [[s sb] u] L. destruct t; cbn [parse_field];
  repeat (apply rf_copy || apply rf_rep || apply rf_bitmap || (apply rf_svc; lia) || apply rf_unpack || apply rf_skip || step).
Qed.
Lemma rf_fields : forall f f' eop ts st, (f <= f')%nat -> rf (parse_fields f m eop ts st) (parse_fields f' (m ++ x) eop ts st).
Proof.
  induction ts as [|t ts IH]; intros [[s sb] u] L; [cbn; auto|]. cbn [parse_fields].
  repeat ((apply rf_field; lia) || step || (apply IH; lia)).
Qed.
Lemma rf_rdata : forall f f' eop t c s n, (f <= f')%nat -> rf (parse_rdata f m eop t c s n) (parse_rdata f' (m ++ x) eop t c s n).
Proof. intros. unfold parse_rdata. repeat (apply rf_copy || (apply rf_fields; lia) || step). Qed.
Lemma rf_get16 : forall i, rf (get16 m i) (get16 (m ++ x) i).
Proof. intros. unfold get16. repeat step. Qed.
Lemma rf_get32 : forall i, rf (get32 m i) (get32 (m ++ x) i).
Proof. intros. unfold get32. repeat step. Qed.
Lemma rf_rr : forall f f' sec eop i, (f <= f')%nat -> rf (parse_message_rr f sec m eop i) (parse_message_rr f' sec (m ++ x) eop i).
Proof.
  intros. unfold parse_message_rr. cbv zeta.
  repeat (apply rf_get16 || apply rf_get32 || (apply rf_rdata; lia) || apply rf_unpack || apply rf_skip || step).
Qed.
Lemma rf_section : forall f f' len sec n p M, (f <= f')%nat -> rf (parse_section f n sec m len p M) (parse_section f' n sec (m ++ x) len p M).
Proof.
  intros f f' len sec n. induction n as [|n IH]; intros p M L; [cbn; auto|]. cbn [parse_section].
  destruct (p =? len); [apply rf_refl|]. pose proof (rf_rr f f' sec len p L) as R.
  destruct (parse_message_rr f sec m len p) as [[r k]|e|g|]; cbn in R; try rewrite R; try exact I; [|apply rf_refl].
  repeat (step || (apply IH; lia)).
Qed.
Lemma rf_sections : forall f f' len secs p M, (f <= f')%nat -> rf (parse_sections f secs m len p M) (parse_sections f' secs (m ++ x) len p M).
Proof.
  intros f f' len secs. induction secs as [|[sec n] secs IH]; intros p M L; [cbn; auto|]. cbn [parse_sections].
  apply rf_bind; [apply rf_section; auto|]. intros [p' M'|r M']; [apply IH; auto|apply rf_refl].
Qed.
Theorem rf_message : forall f f' len, (f <= f')%nat -> rf (parse_message f m len) (parse_message f' (m ++ x) len).
Proof.
  intros f f' len L. unfold parse_message. destruct (len <? 12); [apply rf_refl|].
  do 6 (apply rf_bind; [apply rf_get16|intros ?]). apply rf_sections. auto.
Qed.
End Mono.

Lemma message_fuel : forall f f' m len r, (f <= f')%nat -> parse_message f m len = Ok r -> parse_message f' m len = Ok r.
Proof. intros f f' m len r L E. pose proof (rf_message m [] f f' len L) as R. rewrite E in R. rewrite app_nil_r in R. exact R. Qed.
Lemma message_memory : forall f m x len r, parse_message f m len = Ok r -> parse_message f (m ++ x) len = Ok r.
Proof. intros f m x len r E. pose proof (rf_message m x f f len ltac:(lia)) as R. rewrite E in R. exact R. Qed.
