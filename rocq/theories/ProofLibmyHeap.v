(** ProofLibmyHeap.v: the heap order and the contents are kept. *)
From Verif Require Import Base Lib ModelLibmyHeap SpecLibmyHeap.
From Coq Require Import Permutation.

Definition put (v : list Z) (i : nat) (x : Z) : list Z := firstn i v ++ x :: skipn (S i) v.
Lemma put_length : forall v i x, (i < length v)%nat -> length (put v i x) = length v.
Proof. intros v i x L. unfold put. rewrite app_length, firstn_length. cbn [length]. rewrite skipn_length. lia. Qed.
Lemma put_same : forall v i x, (i < length v)%nat -> nth_error (put v i x) i = Some x.
Proof. intros v i x L. unfold put. rewrite nth_error_app2; rewrite firstn_length_le by lia; [|lia]. rewrite Nat.sub_diag. reflexivity. Qed.
Lemma put_other : forall v i x j, (i < length v)%nat -> j <> i -> nth_error (put v i x) j = nth_error v j.
Proof.
  intros v i x j L N. unfold put. destruct (Nat.lt_ge_cases j i) as [J|J].
  - rewrite nth_error_app1 by (rewrite firstn_length_le; lia). revert i j L N J. induction v as [|a v IH]; intros i j L N J; [cbn in L; lia|]. destruct i; [lia|]. destruct j; [reflexivity|]. cbn [firstn nth_error]. apply IH; cbn [length] in L; lia.
  - rewrite nth_error_app2 by (rewrite firstn_length_le; lia). rewrite firstn_length_le by lia. destruct (j - i)%nat as [|d] eqn:D; [lia|]. cbn [nth_error].
    replace j with (S i + d)%nat by lia. clear. generalize (S i). intros k. revert k. induction v as [|a v IH]; intros k; [rewrite skipn_nil; destruct d, k; reflexivity|]. destruct k; [reflexivity|]. cbn [skipn Nat.add nth_error]. apply IH.
Qed.
Lemma put_count : forall v i x y a, nth_error v i = Some y -> (count_occ Z.eq_dec (put v i x) a + (if Z.eq_dec y a then 1 else 0) = count_occ Z.eq_dec v a + (if Z.eq_dec x a then 1 else 0))%nat.
Proof.
  intros v i x y a E. apply nth_error_split in E as (l1 & l2 & -> & <-). unfold put.
  replace (firstn (length l1) (l1 ++ y :: l2)) with l1 by (rewrite firstn_app, firstn_all, Nat.sub_diag; cbn; rewrite app_nil_r; reflexivity).
  replace (skipn (S (length l1)) (l1 ++ y :: l2)) with l2 by (rewrite skipn_app, skipn_all2 by lia; replace (S (length l1) - length l1)%nat with 1%nat by lia; reflexivity).
  rewrite !count_occ_app. cbn [count_occ]. destruct (Z.eq_dec x a), (Z.eq_dec y a); lia.
Qed.
Lemma set_ok : forall v i x, (i < length v)%nat -> set v i x = Ok (put v i x).
Proof. intros v i x L. unfold set. destruct (Nat.ltb_spec i (length v)); [reflexivity|lia]. Qed.
Lemma value_ok : forall v i, (i < length v)%nat -> exists x, nth_error v i = Some x /\ value v i = Ok x.
Proof. intros v i L. unfold value. destruct (nth_error v i) eqn:E; [eauto|]. apply nth_error_None in E. lia. Qed.

Definition parent (i : nat) : nat := Nat.div2 (i - 1).
Lemma parent_lt : forall i, (0 < i)%nat -> (parent i < i)%nat.
Proof. intros i L. unfold parent. pose proof (Nat.div2_div (i - 1)). rewrite H. apply Nat.div_lt_upper_bound; lia. Qed.
Lemma parent_child : forall i p, (0 < i)%nat -> (parent i = p <-> i = 2 * p + 1 \/ i = 2 * p + 2)%nat.
Proof.
  intros i p L. unfold parent. rewrite Nat.div2_div. pose proof (Nat.div_mod (i - 1) 2 ltac:(lia)) as D. pose proof (Nat.mod_upper_bound (i - 1) 2 ltac:(lia)) as M.
  set (d := ((i - 1) / 2)%nat) in *. set (m := ((i - 1) mod 2)%nat) in *. lia.
Qed.

Section Order.
Variable cmp : Z -> Z -> Z.
Hypothesis ORD : orders cmp.
Definition le (a b : Z) : Prop := 0 <= cmp b a.
Lemma le_trans : forall a b c, le a b -> le b c -> le a c.
Proof. intros a b c A B. unfold le in *. destruct ORD as [_ T]. eapply T; eauto. Qed.
Lemma le_refl : forall a, le a a.
Proof. intros a. unfold le. destruct ORD as [A _]. destruct (Z_lt_ge_dec (cmp a a) 0) as [L|L]; [apply A in L; lia|lia]. Qed.
Lemma before_le : forall a b, before cmp a b = true -> le a b.
Proof. intros a b H. unfold before in H. unfold le. destruct ORD as [A _]. apply A. lia. Qed.
Lemma not_before_le : forall a b, before cmp a b = false -> le b a.
Proof. intros a b H. unfold before in H. unfold le. lia. Qed.

(** Order everywhere except around position [pos]. *)
Definition but (v : list Z) (pos : nat) : Prop :=
  (forall i x y, (0 < i)%nat -> i <> pos -> parent i <> pos -> nth_error v i = Some x -> nth_error v (parent i) = Some y -> le y x) /\
  (forall c x y, (0 < pos)%nat -> (0 < c)%nat -> parent c = pos -> nth_error v c = Some x -> nth_error v (parent pos) = Some y -> le y x).
Definition ordered (v : list Z) : Prop := forall i x y, (0 < i)%nat -> nth_error v i = Some x -> nth_error v (parent i) = Some y -> le y x.

Lemma siftdown_loop_ok : forall fuel v pos x, (pos <= fuel)%nat -> (pos < length v)%nat -> but v pos ->
  (forall c y, (0 < c)%nat -> parent c = pos -> nth_error v c = Some y -> le x y) ->
  exists w, siftdown_loop cmp fuel v 0 pos x = Ok w /\ ordered w /\ length w = length v /\ forall a, count_occ Z.eq_dec w a = count_occ Z.eq_dec (put v pos x) a.
Proof.
  assert (Fin : forall v pos x, (pos < length v)%nat -> but v pos -> (forall c y, (0 < c)%nat -> parent c = pos -> nth_error v c = Some y -> le x y) ->
     (forall p, (0 < pos)%nat -> nth_error v (parent pos) = Some p -> le p x) -> ordered (put v pos x)).
  { intros v pos x L [B1 B2] C P i a b I A B. destruct (Nat.eq_dec i pos) as [-> |N].
    - rewrite put_same in A by exact L. injection A as <-. pose proof (parent_lt pos I). rewrite put_other in B by lia. apply P; auto.
    - rewrite put_other in A by auto. destruct (Nat.eq_dec (parent i) pos) as [Q|Q].
      + rewrite Q, put_same in B by exact L. injection B as <-. apply (C i); auto.
      + rewrite put_other in B by auto. apply (B1 i); auto. }
  induction fuel as [|fuel IH]; intros v pos x F L B C.
  - assert (pos = 0)%nat by lia. subst pos. cbn [siftdown_loop Nat.ltb]. rewrite set_ok by exact L. exists (put v 0 x). split; [reflexivity|]. split; [|split; [apply put_length; exact L|reflexivity]]. apply Fin; auto. intros p X. lia.
  - cbn [siftdown_loop]. destruct (Nat.ltb_spec 0 pos) as [P|P].
    + fold (parent pos). pose proof (parent_lt pos P) as PL. destruct (value_ok v (parent pos)) as (p & E & V); [lia|]. rewrite V. cbn [bind]. destruct (before cmp x p) eqn:BF.
      * rewrite set_ok by exact L. cbn [bind]. apply before_le in BF.
        assert (EL : forall j, j <> pos -> nth_error (put v pos p) j = nth_error v j) by (intros j J; apply put_other; auto).
        assert (ES : nth_error (put v pos p) pos = Some p) by (apply put_same; exact L).
        destruct B as [B1 B2].
        destruct (IH (put v pos p) (parent pos) x) as (w & W1 & W2 & W3 & W4); [lia|rewrite put_length; lia| | |].
        { split.
          - intros i a b I N Q A Bb. destruct (Nat.eq_dec i pos) as [-> |Ni]; [congruence|]. rewrite EL in A by auto. destruct (Nat.eq_dec (parent i) pos) as [Qi|Qi].
            + rewrite Qi, ES in Bb. injection Bb as <-. apply (B2 i); auto.
            + rewrite EL in Bb by auto. apply (B1 i); auto.
          - intros c a b PP I Q A Bb. pose proof (parent_lt (parent pos) PP). rewrite EL in Bb by lia. assert (le b p) by (apply (B1 (parent pos)); auto; lia).
            destruct (Nat.eq_dec c pos) as [-> |Nc]; [rewrite ES in A; injection A as <-; auto|]. rewrite EL in A by auto. apply le_trans with p; auto. apply (B1 c); auto; [lia|congruence]. }
        { intros c y I Q A. destruct (Nat.eq_dec c pos) as [-> |Nc]; [rewrite ES in A; injection A as <-; auto|]. rewrite EL in A by auto. apply le_trans with p; auto. apply (B1 c); auto; [lia|congruence]. }
        exists w. split; [exact W1|]. split; [exact W2|]. rewrite put_length in W3 by exact L. split; [exact W3|]. intros a. rewrite W4.
        destruct (nth_error v pos) as [o|] eqn:O; [|apply nth_error_None in O; lia].
        assert (E' : nth_error (put v pos p) (parent pos) = Some p) by (rewrite EL by lia; exact E).
        pose proof (put_count (put v pos p) (parent pos) x p a E'). pose proof (put_count v pos p o a O). pose proof (put_count v pos x o a O). lia.
      * apply not_before_le in BF. rewrite set_ok by exact L. exists (put v pos x). split; [reflexivity|]. split; [|split; [apply put_length; exact L|reflexivity]]. apply Fin; auto. intros q _ Q. congruence.
    + assert (pos = 0)%nat by lia. subst pos. rewrite set_ok by exact L. exists (put v 0 x). split; [reflexivity|]. split; [|split; [apply put_length; exact L|reflexivity]]. apply Fin; auto. intros p X. lia.
Qed.
Lemma ordered_but : forall v x, ordered v -> but (v ++ [x]) (length v).
Proof.
  intros v x O. split.
  - intros i a b I N Q A B. pose proof (parent_lt i I). assert (i < length (v ++ [x]))%nat by (apply nth_error_Some; congruence). rewrite app_length in *. cbn [length] in *. rewrite nth_error_app1 in A by lia. rewrite nth_error_app1 in B by lia. apply (O i); auto.
  - intros c a b P I Q A B. assert (c < length (v ++ [x]))%nat by (apply nth_error_Some; congruence). rewrite app_length in *. cbn [length] in *. pose proof (parent_lt c I). lia.
Qed.
Lemma perm_count : forall a b : list Z, (forall x, count_occ Z.eq_dec a x = count_occ Z.eq_dec b x) -> Permutation a b.
Proof. intros a b H. apply (Permutation_count_occ Z.eq_dec). exact H. Qed.
Lemma put_self : forall v i x, nth_error v i = Some x -> put v i x = v.
Proof.
  intros v i x E. apply nth_error_split in E as (l1 & l2 & -> & <-). unfold put. rewrite firstn_app, firstn_all, Nat.sub_diag. cbn [firstn]. rewrite app_nil_r. rewrite skipn_app, skipn_all2 by lia. replace (S (length l1) - length l1)%nat with 1%nat by lia. reflexivity.
Qed.
Theorem push_ok : forall v x, ordered v -> exists w, heap_push cmp v x = Ok w /\ ordered w /\ Permutation w (x :: v).
Proof.
  intros v x O. unfold heap_push, siftdown. rewrite app_length. cbn [length]. replace (length v + 1 - 1)%nat with (length v) by lia.
  assert (E : nth_error (v ++ [x]) (length v) = Some x) by (rewrite nth_error_app2, Nat.sub_diag by lia; reflexivity).
  unfold value. rewrite E. cbn [bind].
  destruct (siftdown_loop_ok (length v) (v ++ [x]) (length v) x) as (w & A & B & C & D); auto.
  - rewrite app_length. cbn. lia.
  - apply ordered_but. exact O.
  - intros c y I Q Y. assert (c < length (v ++ [x]))%nat by (apply nth_error_Some; congruence). rewrite app_length in *. cbn [length] in *. pose proof (parent_lt c I). lia.
  - exists w. split; [exact A|]. split; [exact B|]. apply Permutation_trans with (v ++ [x]); [|apply Permutation_sym, Permutation_cons_append]. apply perm_count. intros a. rewrite D, put_self by exact E. reflexivity.
Qed.
Lemma siftup_loop_ok : forall fuel v pos, (length v - pos <= fuel)%nat -> (pos < length v)%nat -> but v pos ->
  exists w p, siftup_loop cmp fuel v pos = Ok (w, p) /\ (p < length w)%nat /\ length w = length v /\ but w p /\ (length w <= 2 * p + 1)%nat /\
    forall x a, count_occ Z.eq_dec (put w p x) a = count_occ Z.eq_dec (put v pos x) a.
Proof.
  induction fuel as [|fuel IH]; intros v pos F L B; [lia|]. cbn [siftup_loop]. destruct (Nat.ltb_spec (2 * pos + 1) (length v)) as [C|C].
  2: { exists v, pos. split; [reflexivity|]. split; [exact L|]. split; [reflexivity|]. split; [exact B|]. split; [exact C|reflexivity]. }
  assert (Step : forall ch x, (0 < ch)%nat -> parent ch = pos -> (pos < ch < length v)%nat -> nth_error v ch = Some x ->
     (forall d y, (0 < d)%nat -> parent d = pos -> nth_error v d = Some y -> le x y) ->
     exists w p, (v1 <- set v pos x ;; siftup_loop cmp fuel v1 ch) = Ok (w, p) /\ (p < length w)%nat /\ length w = length v /\ but w p /\ (length w <= 2 * p + 1)%nat /\
       forall z a, count_occ Z.eq_dec (put w p z) a = count_occ Z.eq_dec (put v pos z) a).
  { intros ch x Ch Pc R E M. rewrite set_ok by exact L. cbn [bind].
    assert (EL : forall j, j <> pos -> nth_error (put v pos x) j = nth_error v j) by (intros j J; apply put_other; auto).
    assert (ES : nth_error (put v pos x) pos = Some x) by (apply put_same; exact L).
    destruct B as [B1 B2].
    destruct (IH (put v pos x) ch) as (w & p & W1 & W2 & W3 & W4 & W5 & W6); [rewrite put_length; lia|rewrite put_length; lia| |].
    - split.
      + intros i a b I N Q A Bb. destruct (Nat.eq_dec i pos) as [-> |Ni].
        * rewrite ES in A. injection A as <-. pose proof (parent_lt pos I). rewrite EL in Bb by lia. apply (B2 ch); auto.
        * rewrite EL in A by auto. destruct (Nat.eq_dec (parent i) pos) as [Qi|Qi]; [rewrite Qi, ES in Bb; injection Bb as <-; apply (M i); auto|]. rewrite EL in Bb by auto. apply (B1 i); auto.
      + intros d a b _ I Q A Bb. rewrite Pc, ES in Bb. injection Bb as <-. pose proof (parent_lt d I). rewrite EL in A by lia. apply (B1 d); auto; [lia|lia|]. rewrite Q. exact E.
    - exists w, p. split; [exact W1|]. split; [exact W2|]. rewrite put_length in W3 by exact L. split; [exact W3|]. split; [exact W4|]. split; [exact W5|].
      intros z a. rewrite W6. destruct (nth_error v pos) as [o|] eqn:O; [|apply nth_error_None in O; lia].
      assert (E' : nth_error (put v pos x) ch = Some x) by (rewrite EL by lia; exact E).
      pose proof (put_count (put v pos x) ch z x a E'). pose proof (put_count v pos x o a O). pose proof (put_count v pos z o a O). lia. }
  destruct (value_ok v (2 * pos + 1)) as (c & Ec & Vc); [exact C|].
  assert (P1 : parent (2 * pos + 1) = pos) by (apply parent_child; lia). assert (P2 : parent (S (2 * pos + 1)) = pos) by (apply parent_child; lia).
  destruct (Nat.ltb_spec (S (2 * pos + 1)) (length v)) as [R|R].
  - destruct (value_ok v (S (2 * pos + 1))) as (r & Er & Vr); [exact R|]. rewrite Vc. cbn [bind]. rewrite Vr. cbn [bind].
    destruct (before cmp c r) eqn:BF.
    + rewrite Vc. cbn [bind]. apply before_le in BF. apply Step; auto; [lia|lia|]. intros d y D Pd Y. apply parent_child in Pd; [|exact D]. destruct Pd as [-> | ->]; [rewrite Ec in Y; injection Y as <-; apply le_refl|].
      replace (2 * pos + 2)%nat with (S (2 * pos + 1)) in Y by lia. congruence.
    + rewrite Vr. cbn [bind]. apply not_before_le in BF. apply Step; auto; [lia|lia|]. intros d y D Pd Y. apply parent_child in Pd; [|exact D]. destruct Pd as [-> | ->]; [congruence|].
      replace (2 * pos + 2)%nat with (S (2 * pos + 1)) in Y by lia. rewrite Er in Y. injection Y as <-. apply le_refl.
  - cbn [bind]. rewrite Vc. cbn [bind]. apply Step; auto; [lia|lia|]. intros d y D Pd Y. apply parent_child in Pd; [|exact D]. destruct Pd as [-> | ->]; [rewrite Ec in Y; injection Y as <-; apply le_refl|].
    assert (2 * pos + 2 < length v)%nat by (apply nth_error_Some; congruence). lia.
Qed.
Lemma siftup_ok : forall v, (0 < length v)%nat -> but v 0 -> exists w, siftup cmp v 0 = Ok w /\ ordered w /\ Permutation w v.
Proof.
  intros v L B. unfold siftup. destruct (value_ok v 0 L) as (x & E & V). rewrite V. cbn [bind].
  destruct (siftup_loop_ok (length v) v 0) as (w & p & W1 & W2 & W3 & W4 & W5 & W6); [lia|exact L|exact B|]. rewrite W1. cbn [bind]. rewrite set_ok by exact W2. cbn [bind].
  unfold siftdown, value. rewrite put_same by exact W2. cbn [bind].
  assert (NC : forall c, (0 < c)%nat -> parent c = p -> nth_error w c = None). { intros c I Q. apply nth_error_None. apply parent_child in Q; [|exact I]. lia. }
  destruct (siftdown_loop_ok p (put w p x) p x) as (u & A & O & Ln & Ct); [lia|rewrite put_length; lia| | |].
  - destruct W4 as [B1 B2]. split.
    + intros i a b I N Q Ha Hb. rewrite put_other in Ha by auto. rewrite put_other in Hb by auto. apply (B1 i); auto.
    + intros c a b P I Q Ha Hb. pose proof (parent_lt c I). rewrite put_other in Ha by lia. rewrite NC in Ha by auto. discriminate.
  - intros c y I Q Y. pose proof (parent_lt c I). rewrite put_other in Y by lia. rewrite NC in Y by auto. discriminate.
  - exists u. split; [exact A|]. split; [exact O|]. apply perm_count. intros a. rewrite Ct, put_self by (apply put_same; exact W2). rewrite W6, put_self by exact E. reflexivity.
Qed.
Lemma but_root : forall v x, ordered v -> (0 < length v)%nat -> but (put v 0 x) 0.
Proof.
  intros v x O L. split; [|intros; lia]. intros i a b I N Q A B. rewrite put_other in A by (auto; lia). rewrite put_other in B by auto. apply (O i); auto.
Qed.
Lemma root_min : forall v m, ordered v -> nth_error v 0 = Some m -> forall i x, nth_error v i = Some x -> le m x.
Proof.
  intros v m O M i. induction i as [i IH] using lt_wf_ind. intros x E. destruct i as [|i]; [assert (x = m) by congruence; subst; apply le_refl|].
  pose proof (parent_lt (S i) ltac:(lia)) as P. destruct (nth_error v (parent (S i))) as [y|] eqn:Y.
  - apply le_trans with y; [apply (IH (parent (S i))); auto|]. apply (O (S i)); auto. lia.
  - apply nth_error_None in Y. assert (S i < length v)%nat by (apply nth_error_Some; congruence). lia.
Qed.
Lemma root_first : forall v m, ordered v -> nth_error v 0 = Some m -> first_of cmp m v.
Proof. intros v m O M. split; [eapply nth_error_In; eauto|]. intros x X. apply In_nth_error in X as (i & X). exact (root_min v m O M i x X). Qed.
Lemma ordered_firstn : forall v n, ordered v -> ordered (firstn n v).
Proof.
  intros v n O i x y I A B. assert (F : forall (l : list Z) k j z, nth_error (firstn k l) j = Some z -> nth_error l j = Some z).
  { clear. induction l as [|a l IH]; intros k j z E; [rewrite firstn_nil in E; destruct j; discriminate|]. destruct k; [destruct j; discriminate|]. destruct j; [exact E|]. cbn [firstn nth_error] in *. eauto. }
  apply F in A. apply F in B. apply (O i); auto.
Qed.
Lemma put_perm_root : forall v m x, nth_error v 0 = Some m -> Permutation (m :: put v 0 x) (x :: v).
Proof. intros v m x E. destruct v as [|a v]; [discriminate|]. injection E as ->. unfold put. cbn. apply perm_swap. Qed.

Theorem pop_ok : forall v, ordered v -> exists r w, heap_pop cmp v = Ok (r, w) /\ ordered w /\ does cmp v Pop r w.
Proof.
  intros v O. unfold heap_pop. destruct (Nat.ltb_spec (length v) 1) as [L|L].
  - exists 0, v. destruct v; [|cbn in L; lia]. split; [reflexivity|]. split; [exact O|constructor].
  - destruct (value_ok v (length v - 1)) as (last & El & Vl); [lia|]. rewrite Vl. cbn [bind].
    assert (SP : v = firstn (length v - 1) v ++ [last]).
    { rewrite <- (firstn_skipn (length v - 1) v) at 1. f_equal. apply nth_error_split in El as (l1 & l2 & E1 & E2). rewrite E1 at 2. rewrite <- E2 at 1. rewrite skipn_app, skipn_all, Nat.sub_diag. cbn [skipn app].
      rewrite E1 in E2. rewrite app_length in E2. cbn [length] in E2. destruct l2; [reflexivity|cbn [length] in E2; lia]. }
    set (u := firstn (length v - 1) v) in *. assert (LU : length u = (length v - 1)%nat) by (unfold u; rewrite firstn_length; lia).
    assert (OU : ordered u) by (apply ordered_firstn; exact O).
    destruct (Nat.ltb_spec 0 (length u)) as [U|U].
    + destruct (value_ok u 0 U) as (m & Em & Vm). rewrite Vm. cbn [bind]. rewrite set_ok by exact U. cbn [bind].
      destruct (siftup_ok (put u 0 last)) as (w & W1 & W2 & W3); [rewrite put_length; lia|apply but_root; auto|]. rewrite W1. cbn [bind]. exists m, w. split; [reflexivity|]. split; [exact W2|].
      apply d_pop.
      * apply root_first; auto. rewrite SP. rewrite nth_error_app1 by exact U. exact Em.
      * rewrite SP. apply Permutation_trans with (last :: u); [apply Permutation_sym, Permutation_cons_append|]. apply Permutation_trans with (m :: put u 0 last); [apply Permutation_sym, put_perm_root; exact Em|]. apply perm_skip, Permutation_sym. exact W3.
    + exists last, u. assert (UN : u = []) by (destruct u; [reflexivity|cbn in U; lia]). split; [reflexivity|]. split; [exact OU|]. rewrite SP, UN. apply d_pop; [|apply Permutation_refl]. cbn [app]. split; [left; reflexivity|]. intros x [->|[]]. apply le_refl.
Qed.
Theorem replace_ok : forall v x, ordered v -> exists r w, heap_replace cmp v x = Ok (r, w) /\ ordered w /\ exists w', Permutation w w' /\ does cmp v (Replace x) r w'.
Proof.
  intros v x O. unfold heap_replace. destruct (Nat.ltb_spec (length v) 1) as [L|L].
  - exists 0, v. destruct v; [|cbn in L; lia]. split; [reflexivity|]. split; [exact O|]. exists []. split; [constructor|constructor].
  - destruct (value_ok v 0) as (m & Em & Vm); [lia|]. rewrite Vm. cbn [bind]. rewrite set_ok by lia. cbn [bind].
    destruct (siftup_ok (put v 0 x)) as (w & W1 & W2 & W3); [rewrite put_length; lia|apply but_root; auto; lia|]. rewrite W1. cbn [bind]. exists m, w. split; [reflexivity|]. split; [exact W2|].
    destruct v as [|a v]; [cbn in L; lia|]. injection Em as ->. exists (x :: v). split; [exact W3|]. apply d_replace; [apply root_first; auto|apply Permutation_refl].
Qed.
Lemma first_perm : forall m a b, Permutation a b -> first_of cmp m a -> first_of cmp m b.
Proof. intros m a b P [A B]. split; [eapply Permutation_in; eauto|]. intros x X. apply B. eapply Permutation_in; [apply Permutation_sym|]; eauto. Qed.

(** A call on the empty heap that heap_get does not survive. *)
Definition allowed (v : list Z) (c : call) : Prop := match c with Get i => 0 <= i < 2 ^ 64 /\ v <> [] /\ zlen v < 2 ^ 61 | _ => True end.
Theorem perform_ok : forall v c, ordered v -> allowed v c -> exists r w, perform cmp v c = Ok (r, w) /\ ordered w /\ exists w', Permutation w w' /\ does cmp v c r w'.
Proof.
  intros v c O A. destruct c as [x| |x| |i|]; cbn [perform].
  - destruct (push_ok v x O) as (w & W1 & W2 & W3). rewrite W1. cbn [bind]. exists 0, w. split; [reflexivity|]. split; [exact W2|]. exists (x :: v). split; [exact W3|constructor].
  - destruct (pop_ok v O) as (r & w & W1 & W2 & W3). exists r, w. split; [exact W1|]. split; [exact W2|]. exists w. split; [apply Permutation_refl|exact W3].
  - destruct (replace_ok v x O) as (r & w & W1 & W2 & W3). exists r, w. auto.
  - unfold heap_peek. destruct (Nat.ltb_spec (length v) 1) as [L|L].
    + exists 0, v. destruct v; [|cbn in L; lia]. split; [reflexivity|]. split; [exact O|]. exists []. split; [constructor|constructor].
    + destruct (value_ok v 0) as (m & Em & Vm); [lia|]. rewrite Vm. exists m, v. split; [reflexivity|]. split; [exact O|]. exists v. split; [apply Permutation_refl|]. apply d_peek. apply root_first; auto.
  - destruct A as (A & N & SZ). assert (Z1 : 0 < zlen v) by (destruct v; [congruence|rewrite zlen_cons; pose proof (zlen_nonneg _ v); lia]).
    unfold heap_get. change (2 ^ 61) with 2305843009213693952 in SZ. change (2 ^ 64) with 18446744073709551616 in *. rewrite Z.mod_small by lia.
    destruct (i >? zlen v - 1) eqn:G.
    + exists 0, v. split; [reflexivity|]. split; [exact O|]. exists v. split; [apply Permutation_refl|]. apply d_get_out. lia.
    + destruct (value_ok v (Z.to_nat i)) as (x & E & V); [unfold zlen in *; lia|]. rewrite V. exists x, v. split; [reflexivity|]. split; [exact O|]. exists v. split; [apply Permutation_refl|]. apply d_get; [lia|]. eapply nth_error_In; eauto.
  - exists (heap_size v), v. split; [reflexivity|]. split; [exact O|]. exists v. split; [apply Permutation_refl|constructor].
Qed.
End Order.
