(** ProofTables.v: mnemonics. *)
From Verif Require Import Base Lib ModelName SpecName Libc SpecFormat SpecTables ModelTables ProofFormat.

Lemma strcasecmp_zero : forall a b, c_string a -> c_string b -> strcasecmp a b = 0 -> map tolower a = map tolower b.
Proof.
  assert (P : forall c, 0 < c < 256 -> tolower c <> 0) by (intros c H; unfold tolower; destruct ((65 <=? c) && (c <=? 90)); lia).
  induction a as [|x a IH]; intros [|y b] Ha Hb E; cbn [strcasecmp] in E; [reflexivity| | |].
  - inversion Hb; subst. exfalso. apply (P y); auto; lia.
  - inversion Ha; subst. exfalso. apply (P x); auto; lia.
  - inversion Ha; inversion Hb; subst. destruct (tolower x =? tolower y) eqn:T; [|lia]. cbn [map]. f_equal; [lia|auto].
Qed.

Lemma strcasecmp_case : forall a a' b, map tolower a = map tolower a' -> strcasecmp a b = strcasecmp a' b.
Proof.
  induction a as [|x a IH]; intros [|x' a'] b E; try discriminate; [reflexivity|]. cbn [map] in E. injection E as E1 E2.
  destruct b as [|y b]; cbn [strcasecmp]; rewrite E1; [reflexivity|]. rewrite (IH a' b) by auto. reflexivity.
Qed.

Lemma same_letters_lower : forall a b, same_letters a b -> map tolower a = map tolower b.
Proof.
  intros a b H. induction H as [|x y a b H F IH]; [reflexivity|]. cbn [map]. f_equal; [|auto].
  destruct H as [-> |[[H ->]|[H ->]]]; [reflexivity| |]; unfold tolower.
  - replace ((65 <=? x) && (x <=? 90)) with true by lia. replace ((65 <=? x + 32) && (x + 32 <=? 90)) with false by lia. reflexivity.
  - replace ((65 <=? y) && (y <=? 90)) with true by lia. replace ((65 <=? y + 32) && (y + 32 <=? 90)) with false by lia. reflexivity.
Qed.

Lemma lower_same_letters : forall a b, map tolower a = map tolower b -> same_letters a b.
Proof.
  induction a as [|x a IH]; intros [|y b] E; try discriminate; [constructor|]. cbn [map] in E. injection E as E1 E2. constructor; [|exact (IH b E2)].
  unfold tolower in E1. destruct ((65 <=? x) && (x <=? 90)) eqn:A, ((65 <=? y) && (y <=? 90)) eqn:B; lia.
Qed.

Lemma bsearch_loop_in : forall A (cmp : A -> Z) t fuel l u e, bsearch_loop fuel cmp t l u = Some e -> In e t /\ cmp e = 0.
Proof.
  induction fuel as [|k IH]; intros l u e E; cbn [bsearch_loop] in E; [discriminate|].
  destruct (l <? u); [|discriminate]. cbv zeta in E. destruct (nth_error t (Z.to_nat ((l + u) / 2))) as [x|] eqn:N; [|discriminate].
  destruct (cmp x <? 0) eqn:C1; [eapply IH; eauto|]. destruct (cmp x >? 0) eqn:C2; [eapply IH; eauto|].
  injection E as <-. split; [eapply nth_error_In; eauto|lia].
Qed.
Lemma bsearch_loop_ext : forall A (cmp cmp' : A -> Z) t fuel l u, (forall e, cmp e = cmp' e) -> bsearch_loop fuel cmp t l u = bsearch_loop fuel cmp' t l u.
Proof.
  intros A cmp cmp' t. induction fuel as [|k IH]; intros l u H; [reflexivity|]. cbn [bsearch_loop]. destruct (l <? u); [|reflexivity]. cbv zeta.
  destruct (nth_error t (Z.to_nat ((l + u) / 2))) as [x|]; [|reflexivity]. rewrite H, !IH by auto. reflexivity.
Qed.

Lemma lookup_case : forall t a b, map tolower a = map tolower b -> lookup t a = lookup t b.
Proof. intros t a b E. unfold lookup, bsearch. erewrite bsearch_loop_ext; [reflexivity|]. intros e. cbn. apply strcasecmp_case; auto. Qed.

Lemma lookup_in : forall t s v, lookup t s = Some v -> exists n, In (n, v) (sorted_table t) /\ strcasecmp s n = 0.
Proof.
  intros t s v E. unfold lookup, bsearch in E. match type of E with match ?x with _ => _ end = _ => destruct x as [[n w]|] eqn:B end; [|discriminate].
  injection E as <-. apply bsearch_loop_in in B. exists n. exact B.
Qed.

(** A decidable check of everything finite about a table: each entry's name is found with its value, has the printed form, is
    a string without NUL and does not start with the generic prefix; printed forms and registry agree. *)
Definition check_table (t : list (bytes * Z)) (reg : list (Z * String.string)) (p : bytes) : bool :=
  forallb (fun e => match lookup t (fst e) with Some v => v =? snd e | None => false end) (sorted_table t) &&
  forallb (fun e => match switch_str t (snd e) with Some s => streq s (fst e) | None => false end) (sorted_table t) &&
  forallb (fun e => forallb (fun c => (0 <? c) && (c <? 256)) (fst e)) (sorted_table t) &&
  forallb (fun e => negb (prefix_caseeq p (fst e))) (sorted_table t) &&
  forallb (fun e => (0 <=? snd e) && (snd e <? 65536)) (sorted_table t) &&
  forallb (fun e => existsb (fun r => (fst r =? snd e) && streq (lit (snd r)) (fst e)) reg) (sorted_table t) &&
  forallb (fun r => match switch_str t (fst r) with Some s => streq s (lit (snd r)) | None => false end) reg &&
  forallb (fun e => existsb (fun f => streq (fst f) (gen_name (fst e)) && (snd f =? snd e)) (sorted_table t)) t.

Lemma types_ok : check_table hdr_types iana_types (lit "TYPE") = true. Proof. vm_compute. reflexivity. Qed.
Lemma classes_ok : check_table hdr_classes iana_classes (lit "CLASS") = true. Proof. vm_compute. reflexivity. Qed.
Lemma rcodes_ok : check_table hdr_rcodes iana_rcodes [0] = true. Proof. vm_compute. reflexivity. Qed.

Lemma streq_eq : forall a b, streq a b = true -> a = b.
Proof.
  induction a as [|x a IH]; intros [|y b] E; try discriminate; [reflexivity|]. cbn [streq] in E. apply andb_prop in E as [E1 E2].
  f_equal; [lia|auto].
Qed.
Lemma streq_refl : forall a, streq a a = true.
Proof. induction a; [reflexivity|]. cbn [streq]. rewrite Z.eqb_refl. auto. Qed.

Lemma switch_in : forall t v s, switch_str t v = Some s -> exists m, In (m, v) t /\ s = gen_name m.
Proof.
  induction t as [|[m n] t IH]; intros v s E; cbn [switch_str] in E; [discriminate|].
  destruct (n =? v) eqn:Q; [injection E as <-; exists m; split; [left; f_equal; lia|reflexivity]|].
  destruct (IH _ _ E) as (m' & I & ->). exists m'. split; [right; auto|reflexivity].
Qed.

Section Table.
  Variables (t : list (bytes * Z)) (reg : list (Z * String.string)) (p : bytes).
  Hypothesis OK : check_table t reg p = true.

  Lemma table_parts :
    (forall n v, In (n, v) (sorted_table t) -> lookup t n = Some v /\ switch_str t v = Some n /\ c_string n /\ prefix_caseeq p n = false /\
      0 <= v < 65536 /\ mnemonic reg v n) /\
    (forall v m, In (v, m) reg -> switch_str t v = Some (lit m)) /\
    (forall v s, switch_str t v = Some s -> In (s, v) (sorted_table t)).
  Proof.
    unfold check_table in OK.
    apply andb_prop in OK as [OK G8]. apply andb_prop in OK as [OK G7]. apply andb_prop in OK as [OK G6]. apply andb_prop in OK as [OK G5].
    apply andb_prop in OK as [OK G4]. apply andb_prop in OK as [OK G3]. apply andb_prop in OK as [G1 G2]. rewrite forallb_forall in G1, G2, G3, G4, G5, G6, G7, G8.
    split; [|split].
    - intros n v I.
      specialize (G1 _ I). specialize (G2 _ I). specialize (G3 _ I). specialize (G4 _ I). specialize (G5 _ I). specialize (G6 _ I). cbn [fst snd] in *.
      destruct (lookup t n); [|discriminate]. destruct (switch_str t v); [|discriminate]. apply streq_eq in G2. subst l.
      split; [f_equal; lia|]. split; [reflexivity|]. split; [|split; [|split]].
      + unfold c_string. apply Forall_forall. intros c Ic. rewrite forallb_forall in G3. specialize (G3 c Ic). lia.
      + apply negb_true_iff in G4. exact G4.
      + lia.
      + apply existsb_exists in G6 as ([v' m] & I' & G6). cbn [fst snd] in *.
        apply andb_prop in G6 as [H8 H9]. apply streq_eq in H9. exists m. assert (v' = v) by lia. subst v'. auto.
    - intros v m I. specialize (G7 _ I). cbn [fst snd] in G7.
      destruct (switch_str t v); [|discriminate]. f_equal. apply streq_eq. auto.
    - intros v s E. apply switch_in in E as (m & I & ->).
      specialize (G8 _ I). cbn [fst snd] in G8. apply existsb_exists in G8 as ([n' v'] & I' & H).
      cbn [fst snd] in *. apply andb_prop in H as [H8 H9]. apply streq_eq in H8. subst n'. assert (v' = v) by lia. subst v'. auto.
  Qed.

  (** The printed forms are exactly the registry. *)
  Lemma table_registry : forall v s, switch_str t v = Some s <-> mnemonic reg v s.
  Proof.
    destruct table_parts as (P1 & P2 & P3). intros v s. split.
    - intros E. apply P3 in E. apply P1 in E. tauto.
    - intros (m & I & ->). auto.
  Qed.

  Lemma table_lookup : forall v s a, switch_str t v = Some s -> same_letters a s -> lookup t a = Some v.
  Proof.
    destruct table_parts as (P1 & P2 & P3). intros v s a E L. apply same_letters_lower in L. rewrite (lookup_case t a s) by auto.
    apply P3, P1 in E. tauto.
  Qed.

  Lemma table_lookup_inv : forall v a, c_string a -> lookup t a = Some v -> exists s, switch_str t v = Some s /\ same_letters a s.
  Proof.
    destruct table_parts as (P1 & P2 & P3). intros v a C E. apply lookup_in in E as (n & I & Z). destruct (P1 _ _ I) as (_ & S & Cn & _).
    exists n. split; auto. apply lower_same_letters. apply strcasecmp_zero; auto.
  Qed.

  Lemma prefix_lower : forall q a b, map tolower a = map tolower b -> prefix_caseeq q a = prefix_caseeq q b.
  Proof.
    induction q as [|x q IH]; intros [|u a] [|w b] E; try discriminate; try reflexivity. cbn [map] in E. injection E as E1 E2. cbn [prefix_caseeq].
    rewrite E1. f_equal. auto.
  Qed.

  Lemma generic_not_found : forall a, c_string a -> prefix_caseeq p a = true -> lookup t a = None.
  Proof.
    destruct table_parts as (P1 & P2 & P3). intros a C P. destruct (lookup t a) as [v|] eqn:E; [|reflexivity].
    apply lookup_in in E as (n & I & Z). destruct (P1 _ _ I) as (_ & _ & Cn & N & _).
    apply strcasecmp_zero in Z; auto. rewrite <- (prefix_lower p a n) in N by auto. congruence.
  Qed.
End Table.

Lemma prefix_caseeq_app : forall p q r, same_letters q p -> prefix_caseeq p (q ++ r) = true.
Proof.
  intros p q r H. apply same_letters_lower in H. revert q H. induction p as [|x p IH]; intros [|y q] E; try discriminate; [reflexivity|].
  cbn [map] in E. injection E as E1 E2. cbn [app prefix_caseeq]. rewrite E1, Z.eqb_refl. cbn [andb]. auto.
Qed.

Lemma same_letters_length : forall a b, same_letters a b -> length a = length b.
Proof. intros a b H. induction H; cbn [length]; lia. Qed.

Lemma decimal_c_string : forall n d, decimal n d -> c_string d.
Proof. intros n d (F & _). eapply Forall_impl; [|exact F]. unfold digit. intros; lia. Qed.

Lemma convert_generic_ok : forall p q n d, same_letters q p -> decimal n d -> n < 65536 -> convert_generic p (q ++ d) = Some n.
Proof.
  intros p q n d S D B. pose proof (same_letters_length _ _ S) as L. unfold convert_generic.
  pose proof (decimal_nonempty _ _ D). pose proof (decimal_nonneg _ _ D).
  rewrite zlen_app. assert (zlen q = zlen p) by (unfold zlen; lia). assert (1 <= zlen d) by (destruct d; [congruence|rewrite zlen_cons; pose proof (zlen_nonneg _ d); lia]).
  replace (zlen q + zlen d <=? zlen p) with false by lia. rewrite prefix_caseeq_app by auto. cbn [negb].
  replace (skipn (length p) (q ++ d)) with d by (rewrite <- L, skipn_app, skipn_all, Nat.sub_diag; reflexivity).
  rewrite <- (app_nil_r d). rewrite (strtol_decimal n d []); [|auto|lia|exact I]. replace ((n <? 0) || (n >? 65535)) with false by lia. reflexivity.
Qed.

(** ** SvcParamKeys *)
Lemma svc_fits : forall k, 0 <= k < 65536 -> zlen (svckey_to_str k) + 1 <= 16.
Proof.
  intros k H. unfold svckey_to_str.
  repeat match goal with |- context [if ?b then _ else _] => destruct b; [vm_compute; discriminate|] end.
  rewrite zlen_app. change (zlen (lit "key")) with 3. pose proof (decimal_zlen _ _ 5 ltac:(lia) (fmt_u_decimal k ltac:(lia)) ltac:(lia)). lia.
Qed.

Lemma svc_generic : forall n d, decimal n d -> 0 <= n < 65535 -> str_to_svckey (lit "key" ++ d) = n.
Proof.
  intros n d D H. unfold str_to_svckey. pose proof (decimal_nonempty _ _ D).
  change (lit "key" ++ d) with (107 :: 101 :: 121 :: d).
  change (streq (107 :: 101 :: 121 :: d) (lit "mandatory")) with false.
  change (streq (107 :: 101 :: 121 :: d) (lit "alpn")) with false.
  change (streq (107 :: 101 :: 121 :: d) (lit "no-default-alpn")) with false.
  change (streq (107 :: 101 :: 121 :: d) (lit "port")) with false.
  change (streq (107 :: 101 :: 121 :: d) (lit "ech")) with false.
  change (streq (107 :: 101 :: 121 :: d) (lit "ipv4hint")) with false.
  change (streq (107 :: 101 :: 121 :: d) (lit "ipv6hint")) with false.
  change (prefix_eq (lit "key") (107 :: 101 :: 121 :: d)) with true. cbn [andb].
  assert (1 <= zlen d) by (destruct d; [congruence|rewrite zlen_cons; pose proof (zlen_nonneg _ d); lia]).
  rewrite !zlen_cons. replace (zlen d + 1 + 1 + 1 >? 3) with true by lia. cbn [skipn].
  rewrite <- (app_nil_r d). rewrite (strtoul_decimal n d []); [|auto|lia|exact I]. unfold spr_invalid. replace (n >=? 65535) with false by lia. reflexivity.
Qed.

Lemma svc_roundtrip : forall k, 0 <= k < 65536 -> str_to_svckey (svckey_to_str k) = k.
Proof.
  intros k H. unfold svckey_to_str.
  repeat match goal with |- context [if ?b =? ?c then _ else _] => let E := fresh in destruct (b =? c) eqn:E; [apply Z.eqb_eq in E; rewrite E; reflexivity|] end.
  apply svc_generic; [apply fmt_u_decimal; lia|]. unfold spr_invalid in *. lia.
Qed.
