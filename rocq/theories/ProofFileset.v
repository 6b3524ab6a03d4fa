(** ProofFileset.v: lemmas for C120-C122. *)
From Verif Require Import Base Lib Libc ModelName ModelFromStr ModelFileset SpecFileset.

(** ** strcmp and the order *)
Lemma strcmp_refl : forall a, strcmp a a = 0.
Proof. induction a as [|x a IH]; [reflexivity|]. cbn [strcmp]. replace (x <? x) with false by lia. replace (x >? x) with false by lia. auto. Qed.
Lemma strcmp_eq : forall a b, strcmp a b = 0 <-> a = b.
Proof.
  induction a as [|x a IH]; intros [|y b]; cbn [strcmp]; try (split; [discriminate|discriminate]); [split; reflexivity|].
  destruct (x <? y) eqn:E; [split; [discriminate|intros [= -> ->]; lia]|]. destruct (x >? y) eqn:F; [split; [discriminate|intros [= -> ->]; lia]|].
  rewrite IH. split; [intros ->; f_equal; lia|intros [= -> ->]; reflexivity].
Qed.
Lemma strcmp_opp : forall a b, strcmp b a = - strcmp a b.
Proof.
  induction a as [|x a IH]; intros [|y b]; cbn [strcmp]; try reflexivity.
  destruct (x <? y) eqn:E; [replace (y <? x) with false by lia; replace (y >? x) with true by lia; reflexivity|].
  destruct (x >? y) eqn:F; [replace (y <? x) with true by lia; reflexivity|]. replace (y <? x) with false by lia. replace (y >? x) with false by lia. apply IH.
Qed.
Lemma strcmp_trans : forall a b c, strcmp a b < 0 -> strcmp b c < 0 -> strcmp a c < 0.
Proof.
  induction a as [|x a IH]; intros [|y b] [|z c] H1 H2; cbn [strcmp] in *; try lia.
  destruct (x <? y) eqn:E; destruct (y <? z) eqn:F; destruct (x >? y) eqn:G; destruct (y >? z) eqn:K; try lia;
  destruct (x <? z) eqn:M; try lia; destruct (x >? z) eqn:N; try lia. eapply IH; eauto.
Qed.
Lemma strcmp_before : forall a b, strcmp a b < 0 <-> before a b.
Proof.
  induction a as [|x a IH]; intros [|y b].
  - cbn. split; [lia|]. intros [(c & r & E)|(p & u & v & r & s & E & _)]; [discriminate|destruct p; discriminate].
  - cbn. split; [|lia]. intros _. left. exists y, b. reflexivity.
  - cbn. split; [lia|]. intros [(c & r & E)|(p & u & v & r & s & _ & E & _)]; [discriminate|destruct p; discriminate].
  - cbn [strcmp]. destruct (x <? y) eqn:E.
    + split; [|lia]. intros _. right. exists [], x, y, a, b. repeat split; auto. lia.
    + destruct (x >? y) eqn:F.
      * split; [lia|]. intros [(c & r & K)|(p & u & v & r & s & K & L & M)]; [injection K as -> _; lia|].
        destruct p as [|q p]; cbn in K, L; [injection K as -> _; injection L as -> _; lia|injection K as -> _; injection L as -> _; lia].
      * assert (x = y) as -> by lia. rewrite IH. split.
        { intros [(c & r & ->)|(p & u & v & r & s & -> & -> & M)]; [left; exists c, r; reflexivity|right; exists (y :: p), u, v, r, s; auto]. }
        { intros [(c & r & K)|(p & u & v & r & s & K & L & M)]; [injection K as ->; left; eauto|].
          destruct p as [|q p]; cbn in K, L; [injection K as -> _; injection L as -> _; lia|].
          injection K as -> ->. injection L as ->. right. exists p, u, v, r, s. auto. }
Qed.

(** ** bsearch *)
Section Search.
Context {A : Type} (cmp : A -> Z) (t : list A).
Hypothesis Mono : forall i j a b, (i < j)%nat -> nth_error t i = Some a -> nth_error t j = Some b -> (cmp a <= 0 -> cmp b < 0) /\ (0 <= cmp b -> 0 < cmp a).
Lemma bsearch_none : forall fuel l u, 0 <= l -> u <= zlen t -> u - l < Z.of_nat fuel -> bsearch_loop fuel cmp t l u = None ->
  forall i a, l <= Z.of_nat i < u -> nth_error t i = Some a -> cmp a <> 0.
Proof.
  induction fuel as [|k IH]; intros l u Hl Hu F E i a Hi Na; [lia|]. cbn [bsearch_loop] in E. destruct (l <? u) eqn:D; [|lia]. cbv zeta in E.
  assert (B : l <= (l + u) / 2 < u) by (split; [apply Z.div_le_lower_bound; lia|apply Z.div_lt_upper_bound; lia]).
  set (x := (l + u) / 2) in *. destruct (nth_error t (Z.to_nat x)) as [e|] eqn:Ne.
  2:{ apply nth_error_None in Ne. unfold zlen in *. lia. }
  destruct (cmp e <? 0) eqn:C1.
  - destruct (Z_lt_ge_dec (Z.of_nat i) x) as [L|L]; [eapply (IH l x); eauto; lia|].
    destruct (Nat.eq_dec i (Z.to_nat x)) as [->|N]; [assert (a = e) as -> by congruence; lia|].
    pose proof (Mono (Z.to_nat x) i e a ltac:(lia) Ne Na). lia.
  - destruct (cmp e >? 0) eqn:C2; [|discriminate].
    destruct (Z_lt_ge_dec x (Z.of_nat i)) as [L|L]; [eapply (IH (x + 1) u); eauto; lia|].
    destruct (Nat.eq_dec i (Z.to_nat x)) as [->|N]; [assert (a = e) as -> by congruence; lia|].
    pose proof (Mono i (Z.to_nat x) a e ltac:(lia) Na Ne). lia.
Qed.
Lemma bsearch_some : forall fuel l u a, 0 <= l -> bsearch_loop fuel cmp t l u = Some a -> exists i, nth_error t i = Some a /\ cmp a = 0.
Proof.
  induction fuel as [|k IH]; intros l u a Hl E; cbn [bsearch_loop] in E; [discriminate|]. destruct (l <? u) eqn:D; [|discriminate]. cbv zeta in E.
  destruct (nth_error t (Z.to_nat ((l + u) / 2))) as [e|] eqn:Ne; [|discriminate].
  destruct (cmp e <? 0) eqn:C1; [eapply (IH l); [exact Hl|exact E]|]. destruct (cmp e >? 0) eqn:C2; [assert (0 <= (l + u) / 2) by (apply Z.div_pos; lia); eapply (IH ((l + u) / 2 + 1) u); [lia|exact E]|].
  injection E as ->. exists (Z.to_nat ((l + u) / 2)). split; auto. lia.
Qed.
End Search.

Definition names (l : list fentry) : list bytes := map fe_name l.
Lemma sorted_nth : forall l i j a b, StronglySorted before l -> (i < j)%nat -> nth_error l i = Some a -> nth_error l j = Some b -> before a b.
Proof.
  intros l. induction l as [|x l IH]; intros i j a b S L A B; [destruct i; discriminate|]. inversion S as [|? ? S' F]; subst.
  destruct j as [|j]; [lia|]. cbn in B. destruct i as [|i].
  - injection A as ->. rewrite Forall_forall in F. apply F. eapply nth_error_In; eauto.
  - cbn in A. eapply (IH i j); eauto. lia.
Qed.
Lemma combine_nth_seq : forall (l : list fentry) i x, nth_error (combine (seq 0 (length l)) l) i = Some x <-> fst x = i /\ nth_error l i = Some (snd x).
Proof.
  intros l. assert (G : forall s i x, nth_error (combine (seq s (length l)) l) i = Some x <-> fst x = (s + i)%nat /\ nth_error l i = Some (snd x)).
  { induction l as [|e l IH]; intros s i x; [destruct i; cbn; (split; [discriminate|intros [_ H]; discriminate])|]. cbn [length seq combine]. destruct i as [|i]; cbn [nth_error].
    - destruct x as [a b]. cbn. rewrite Nat.add_0_r. split; [intros Q; split; congruence|intros [Q1 Q2]; congruence].
    - rewrite IH. rewrite Nat.add_succ_comm. tauto. }
  intros i x. rewrite G. tauto.
Qed.
Lemma fetch_mono : forall old n, StronglySorted before (names old) -> forall i j a b, (i < j)%nat ->
  nth_error (combine (seq 0 (length old)) old) i = Some a -> nth_error (combine (seq 0 (length old)) old) j = Some b ->
  (strcmp n (fe_name (snd a)) <= 0 -> strcmp n (fe_name (snd b)) < 0) /\ (0 <= strcmp n (fe_name (snd b)) -> 0 < strcmp n (fe_name (snd a))).
Proof.
  intros old n S i j a b L A B. apply combine_nth_seq in A as (_ & A). apply combine_nth_seq in B as (_ & B).
  assert (T : before (fe_name (snd a)) (fe_name (snd b))).
  { eapply (sorted_nth (names old) i j); eauto; unfold names; apply map_nth_error; auto. }
  apply strcmp_before in T. split; intros H.
  - destruct (Z.eq_dec (strcmp n (fe_name (snd a))) 0) as [E|E]; [apply strcmp_eq in E as ->; auto|eapply strcmp_trans; [|exact T]; lia].
  - destruct (Z_lt_ge_dec 0 (strcmp n (fe_name (snd a)))) as [E|E]; auto. exfalso.
    destruct (Z.eq_dec (strcmp n (fe_name (snd a))) 0) as [E'|E']; [apply strcmp_eq in E' as ->; lia|]. pose proof (strcmp_trans n (fe_name (snd a)) (fe_name (snd b)) ltac:(lia) T). lia.
Qed.
Lemma fetch_none : forall old n, StronglySorted before (names old) -> fetch_entry old n = None -> ~ In n (names old).
Proof.
  intros old n S E I. unfold fetch_entry, bsearch in E. apply In_nth_error in I as (i & I). unfold names in I. rewrite nth_error_map in I.
  destruct (nth_error old i) as [e|] eqn:Ne; [|discriminate]. injection I as I.
  assert (K : nth_error (combine (seq 0 (length old)) old) i = Some (i, e)) by (apply combine_nth_seq; auto).
  assert (Lc : length (combine (seq 0 (length old)) old) = length old) by (rewrite combine_length, seq_length; lia).
  assert (Li : (i < length old)%nat) by (apply nth_error_Some; congruence).
  eapply (bsearch_none (fun e => strcmp n (fe_name (snd e))) _ (fetch_mono old n S)); [| | |exact E| |exact K|]; unfold zlen; try rewrite Lc; try lia.
  cbn [snd]. rewrite I. apply strcmp_refl.
Qed.
Lemma fetch_some : forall old n i e, fetch_entry old n = Some (i, e) -> nth_error old i = Some e /\ fe_name e = n.
Proof.
  intros old n i e E. unfold fetch_entry, bsearch in E. apply bsearch_some in E as (k & K & C); [|lia]. apply combine_nth_seq in K as (K1 & K). cbn [fst snd] in *. subst k.
  split; auto. apply strcmp_eq in C. auto.
Qed.

(** ** The loop over the lines *)
Lemma set_keep_names : forall l i, names (set_keep i l) = names l.
Proof. induction l as [|e l IH]; intros [|i]; cbn; try reflexivity. f_equal. apply IH. Qed.
Lemma set_keep_held : forall l i, map (fun e => (fe_name e, fe_ptr e)) (set_keep i l) = map (fun e => (fe_name e, fe_ptr e)) l.
Proof. induction l as [|e l IH]; intros [|i]; cbn; try reflexivity. f_equal. apply IH. Qed.
Lemma is_in_true : forall n l, is_in n l = true <-> In n l.
Proof. intros n l. unfold is_in. destruct (in_dec _ _ _); intuition discriminate. Qed.
Lemma is_in_false : forall n l, is_in n l = false <-> ~ In n l.
Proof. intros n l. unfold is_in. destruct (in_dec _ _ _); intuition discriminate. Qed.

(** The old entries that are not kept. *)
Definition dropped (l : list fentry) : list fentry := filter (fun e => negb (fe_keep e)) l.
Definition pairs (l : list fentry) : list (bytes * Z) := map (fun e => (fe_name e, fe_ptr e)) l.
Definition not_in (ns : list bytes) (p : bytes * Z) : bool := negb (is_in (fst p) ns).
Lemma dropped_set : forall l i e, NoDup (names l) -> nth_error l i = Some e ->
  pairs (dropped (set_keep i l)) = filter (not_in [fe_name e]) (pairs (dropped l)).
Proof.
  induction l as [|x l IH]; intros i e N E; [destruct i; discriminate|]. inversion N as [|? ? Nx N']; subst. destruct i as [|i]; cbn [set_keep].
  - injection E as ->. unfold dropped. cbn [filter fe_keep negb]. assert (G : forall l', (forall y, In y l' -> fe_name y <> fe_name e) -> filter (not_in [fe_name e]) (pairs l') = pairs l').
    { induction l' as [|y l' IHl]; intros G; [reflexivity|]. cbn. unfold not_in at 1. cbn [fst]. replace (is_in (fe_name y) [fe_name e]) with false.
      - cbn [negb]. f_equal. apply IHl. intros z Z. apply G. right. auto.
      - symmetry. apply is_in_false. intros [H|[]]. apply (G y); [left; auto|congruence]. }
    assert (R : filter (not_in [fe_name e]) (pairs (filter (fun e0 => negb (fe_keep e0)) l)) = pairs (filter (fun e0 => negb (fe_keep e0)) l)).
    { apply G. intros y Y. apply filter_In in Y as (Y & _). intros Q. apply Nx. rewrite <- Q. apply in_map. auto. }
    destruct (negb (fe_keep e)); [|auto]. cbn. unfold not_in at 1. cbn [fst]. replace (is_in (fe_name e) [fe_name e]) with true by (symmetry; apply is_in_true; left; auto). cbn [negb]. auto.
  - cbn in E. unfold dropped. cbn [filter]. destruct (negb (fe_keep x)); [|apply IH; auto]. cbn. unfold not_in at 1. cbn [fst].
    replace (is_in (fe_name x) [fe_name e]) with false; [cbn [negb]; f_equal; apply IH; auto|]. symmetry. apply is_in_false. intros [H|[]]. apply Nx. rewrite <- H. apply in_map. eapply nth_error_In; eauto.
Qed.
Lemma filter_not_in_cons : forall n ns l, filter (not_in ns) (filter (not_in [n]) l) = filter (not_in (n :: ns)) l.
Proof.
  intros n ns l. induction l as [|p l IH]; [reflexivity|]. cbn [filter]. unfold not_in at 2 5. destruct (is_in (fst p) [n]) eqn:E.
  - cbn [negb]. apply is_in_true in E as [E|[]]. replace (is_in (fst p) (n :: ns)) with true by (symmetry; apply is_in_true; left; auto). cbn [negb]. auto.
  - cbn [negb filter]. unfold not_in at 1. apply is_in_false in E. destruct (is_in (fst p) ns) eqn:F.
    + apply is_in_true in F. replace (is_in (fst p) (n :: ns)) with true by (symmetry; apply is_in_true; right; auto). cbn [negb]. auto.
    + apply is_in_false in F. replace (is_in (fst p) (n :: ns)) with false; [cbn [negb]; f_equal; auto|]. symmetry. apply is_in_false. intros [H|H]; [apply E; left; auto|auto].
Qed.
Lemma sorted_nodup : forall l, StronglySorted before l -> NoDup l.
Proof.
  intros l S. induction S as [|a l S IH F]; constructor; auto. intros I. rewrite Forall_forall in F. apply F in I. apply strcmp_before in I. rewrite strcmp_refl in I. lia.
Qed.
(** [f]: the load callback. *)
Lemma read_lines_ok : forall f dir ex lines old new tr old' new' tr', StronglySorted before (names old) ->
  read_lines (Some f) dir ex lines old new tr = (old', new', tr') ->
  let ns := filter ex (map (path_of dir) lines) in
  exists nn, new' = new ++ nn /\ names nn = ns /\ Forall (fun e => fe_keep e = false) nn /\
    tr' = tr ++ map (fun p => Load (fst p) (snd p)) (filter (not_in (names old)) (pairs nn)) /\
    (forall e, In e nn -> In (fe_name e) (names old) -> In (fe_name e, fe_ptr e) (pairs old)) /\
    pairs (dropped old') = filter (not_in ns) (pairs (dropped old)).
Proof.
  intros f dir ex. induction lines as [|line lines IH]; intros old new tr old' new' tr' S E; cbn [read_lines map filter] in *; cbv zeta.
  - injection E as <- <- <-. exists []. rewrite !app_nil_r. repeat split; auto; [intros e []|]. symmetry. assert (G : forall l, filter (not_in []) l = l) by (induction l as [|p l IHl]; [reflexivity|cbn; f_equal; auto]). apply G.
  - cbv zeta in E. destruct (ex (path_of dir line)) eqn:X; [|apply IH; auto]. destruct (fetch_entry old (path_of dir line)) as [[i e]|] eqn:FE.
    + apply fetch_some in FE as (Ni & Nm). apply IH in E; [|rewrite set_keep_names; auto]. destruct E as (nn & -> & E1 & E2 & E3 & E4 & E5).
      rewrite set_keep_names in *. set (e' := {| fe_keep := false; fe_name := path_of dir line; fe_ptr := fe_ptr e |}) in *.
      assert (I : In (path_of dir line) (names old)) by (rewrite <- Nm; apply in_map; eapply nth_error_In; eauto).
      exists (e' :: nn). rewrite <- app_assoc. repeat split; auto.
      * cbn. f_equal. auto.
      * rewrite E3. f_equal. cbn [pairs map filter]. unfold not_in at 2. cbn [fst e' fe_name]. rewrite (proj2 (is_in_true _ _) I). reflexivity.
      * intros x [<-|Ix] In'.
        { cbn [e' fe_name fe_ptr]. rewrite <- Nm. apply (in_map (fun e => (fe_name e, fe_ptr e))). eapply nth_error_In; eauto. }
        { specialize (E4 x Ix In'). unfold pairs in E4. rewrite set_keep_held in E4. auto. }
      * rewrite E5. rewrite (dropped_set old i e) by (auto using sorted_nodup). rewrite Nm. apply filter_not_in_cons.
    + pose proof (fetch_none _ _ S FE) as NI. apply IH in E; auto. destruct E as (nn & -> & E1 & E2 & E3 & E4 & E5).
      set (e' := {| fe_keep := false; fe_name := path_of dir line; fe_ptr := f tr (path_of dir line) |}) in *.
      exists (e' :: nn). rewrite <- app_assoc. repeat split; auto.
      * cbn. f_equal. auto.
      * rewrite E3. rewrite <- app_assoc. f_equal. cbn [pairs map filter]. unfold not_in at 2. cbn [fst e' fe_name]. rewrite (proj2 (is_in_false _ _) NI). reflexivity.
      * intros x [<-|Ix] In'; [exfalso; apply NI; exact In'|auto].
      * rewrite E5. set (l := pairs (dropped old)). assert (G : forall p, In p l -> fst p <> path_of dir line).
        { intros p P Q. unfold l, pairs, dropped in P. apply in_map_iff in P as (z & <- & P). apply filter_In in P as (P & _). apply NI. rewrite <- Q. cbn. apply in_map. auto. }
        apply filter_ext_in. intros p P. unfold not_in. f_equal. specialize (G p P).
        destruct (is_in (fst p) (filter ex (map (path_of dir) lines))) eqn:F; symmetry; [apply is_in_true; right; apply is_in_true; auto|]. apply is_in_false in F. apply is_in_false. intros [H|H]; auto.
Qed.

(** ** The sort *)
Lemma insert_perm : forall e l, Permutation (insert_entry e l) (e :: l).
Proof. intros e l. induction l as [|x l IH]; cbn; auto. destruct (_ <=? 0); auto. rewrite IH. apply perm_swap. Qed.
Lemma sort_perm : forall l, Permutation (sort_entries l) l.
Proof. induction l as [|e l IH]; cbn; auto. rewrite insert_perm. auto. Qed.
Lemma insert_sorted : forall e l, ~ In (fe_name e) (names l) -> StronglySorted before (names l) -> StronglySorted before (names (insert_entry e l)).
Proof.
  intros e l. induction l as [|x l IH]; intros N S; cbn [insert_entry]; [repeat constructor|]. inversion S as [|? ? S' F]; subst.
  destruct (strcmp (fe_name e) (fe_name x) <=? 0) eqn:C.
  - assert (T : strcmp (fe_name e) (fe_name x) < 0). { assert (strcmp (fe_name e) (fe_name x) <> 0); [|lia]. intros Q. apply strcmp_eq in Q. apply N. left. auto. }
    cbn. constructor; auto. constructor; [apply strcmp_before; auto|]. rewrite Forall_forall in *. intros y Y. apply strcmp_before. eapply strcmp_trans; [exact T|]. apply strcmp_before. auto.
  - cbn. constructor; [apply IH; auto; intros I; apply N; right; auto|]. rewrite Forall_forall in *. intros y Y. unfold names in Y. rewrite in_map_iff in Y. destruct Y as (z & <- & Y).
    apply (Permutation_in _ (insert_perm e l)) in Y as [<-|Y]; [|apply F; apply in_map; auto]. apply strcmp_before. rewrite strcmp_opp. lia.
Qed.
Lemma sort_sorted : forall l, NoDup (names l) -> StronglySorted before (names (sort_entries l)).
Proof.
  induction l as [|e l IH]; intros N; [constructor|]. inversion N as [|? ? Ne N']; subst. cbn. apply insert_sorted; auto. intros I. apply Ne. eapply Permutation_in; [|exact I]. apply Permutation_map, sort_perm.
Qed.
