(** ProofVector.v: the growable buffer refines lists. *)
From Verif Require Import Base Lib ModelVector SpecVector.

Lemma szt_small : forall x, 0 <= x < 2 ^ 64 -> szt x = x.
Proof. intros x H. unfold szt. apply Z.mod_small. auto. Qed.

(** What an operation may do: succeed with [P], or abort because the allocator refused one of the requests
    described by [R]. *)
Definition okor (ok : Z -> bool) (R : Z -> Prop) (o : outcome vec) (P : vec -> Prop) : Prop :=
  match o with
  | Ok v => P v
  | UB AssertFail => exists b, R b /\ ok b = false
  | _ => False
  end.

Lemma okor_bind : forall ok R o P k Q, okor ok R o P -> (forall v, P v -> okor ok R (k v) Q) ->
  okor ok R (v <- o ;; k v) Q.
Proof. intros ok R [v|r|[]|] P k Q H K; cbn in *; auto; contradiction. Qed.

Lemma okor_weak : forall ok (R R' : Z -> Prop) o (P Q : vec -> Prop), okor ok R o P ->
  (forall b, R b -> R' b) -> (forall v, P v -> Q v) -> okor ok R' o Q.
Proof.
  intros ok R R' [v|r|[]|] P Q H K L; cbn in *; auto. destruct H as (b & X & Y). exists b. auto.
Qed.

Section V.
Variable esz : Z.
Hypothesis Hesz : 1 <= esz <= 2 ^ 16.
Variable ok : Z -> bool.
Hypothesis Hok : sane ok.

Lemma fresh : forall hint, 1 <= hint < 2 ^ 32 -> ok (hint * esz) = true ->
  holds esz (mkVec (repeat None (Z.to_nat (hint * esz / esz))) 0 0 hint hint) [].
Proof.
  intros hint H O. rewrite Z.div_mul by lia.
  unfold holds. cbn [v_blk v_n v_p v_alloced v_hint]. pose proof (Hok _ O).
  split; [exists (repeat None (Z.to_nat hint)); reflexivity|].
  rewrite zlen_repeat. change (zlen (@nil Z)) with 0. lia.
Qed.

Lemma hint_mul : forall hint, 1 <= hint < 2 ^ 32 -> szt (hint * esz) = hint * esz /\ 0 <= hint * esz < 2 ^ 48.
Proof.
  intros hint H. assert (0 <= hint * esz < 2 ^ 48) by nia. split; auto. apply szt_small. lia.
Qed.

Lemma reinit_spec : forall hint, 0 <= hint < 2 ^ 32 ->
  okor ok (fun b => b < 2 ^ 48) (vec_reinit esz ok hint)
    (fun v => holds esz v [] /\ v_hint v = Z.max 1 hint /\ v_alloced v = Z.max 1 hint).
Proof.
  intros hint H. unfold vec_reinit, my_malloc.
  set (h := if hint =? 0 then 1 else hint). assert (Hh : h = Z.max 1 hint) by (unfold h; destruct (hint =? 0) eqn:?; lia).
  assert (1 <= h < 2 ^ 32) by lia. destruct (hint_mul h ltac:(lia)) as (-> & B).
  destruct (ok (h * esz)) eqn:O; cbn [bind okor].
  - split; [apply fresh; auto|]. cbn [v_alloced v_hint]. lia.
  - exists (h * esz). split; auto. lia.
Qed.

Lemma init_spec : forall hint, 0 <= hint < 2 ^ 32 ->
  okor ok (fun b => b < 2 ^ 48) (vec_init esz ok hint)
    (fun v => holds esz v [] /\ v_hint v = Z.max 1 hint /\ v_alloced v = Z.max 1 hint).
Proof.
  intros hint H. unfold vec_init. destruct (ok 40) eqn:O; cbn [negb].
  - apply reinit_spec. auto.
  - exists 40. split; auto. lia.
Qed.

Lemma detach_spec : forall v l, holds esz v l ->
  match vec_detach esz ok v with
  | Ok ((blk, n), v') => n = zlen l /\ firstn (Z.to_nat n) blk = map Some l /\ holds esz v' [] /\ v_hint v' = v_hint v
  | UB AssertFail => exists b, b < 2 ^ 48 /\ ok b = false
  | _ => False
  end.
Proof.
  intros v l ((junk & B) & HL & N & P & HH & HA & HB). unfold vec_detach, my_malloc.
  destruct (hint_mul (v_hint v) HH) as (-> & Q).
  destruct (ok (v_hint v * esz)) eqn:O; cbn [bind].
  - split; [auto|]. split; [|split; [apply fresh; auto|auto]].
    rewrite B, N. rewrite <- (zlen_map _ _ (@Some Z) l). apply firstn_zlen_app.
  - exists (v_hint v * esz). split; auto. lia.
Qed.

Lemma holds_len : forall v l, holds esz v l -> 0 <= zlen l <= v_alloced v /\ v_alloced v < 2 ^ 63.
Proof.
  intros v l ((junk & B) & HL & N & P & HH & HA & HB).
  rewrite B in HL. rewrite zlen_app, zlen_map in HL. pose proof (zlen_nonneg _ l). pose proof (zlen_nonneg _ junk).
  split; [lia|]. nia.
Qed.

Lemma grow_spec : forall v l, holds esz v l ->
  okor ok (fun b => b = 2 * v_alloced v * esz) (vec_grow esz ok v)
    (fun v' => holds esz v' l /\ v_alloced v' = 2 * v_alloced v /\ v_hint v' = v_hint v).
Proof.
  intros v l H. destruct (holds_len v l H) as (HA1 & HA2).
  destruct H as ((junk & B) & HL & N & P & HH & HA & HB).
  unfold vec_grow, my_realloc.
  assert (E1 : szt (v_alloced v * 2) = v_alloced v * 2) by (apply szt_small; lia).
  rewrite E1. assert (E2 : szt (v_alloced v * 2 * esz) = v_alloced v * 2 * esz) by (apply szt_small; nia).
  rewrite E2. rewrite Z.div_mul by lia.
  destruct (ok (v_alloced v * 2 * esz)) eqn:O; cbn [bind okor].
  - pose proof (Hok _ O). split; [|cbn [v_alloced v_hint]; lia]. unfold holds. cbn [v_blk v_n v_p v_alloced v_hint].
    assert (LL : Z.of_nat (length (v_blk v)) = v_alloced v) by exact HL.
    split.
    { rewrite firstn_all2 by lia. exists (junk ++ repeat None (Z.to_nat (v_alloced v * 2) - length (v_blk v))).
      rewrite B at 1. rewrite <- app_assoc. reflexivity. }
    split. { rewrite firstn_all2 by lia. rewrite zlen_app, zlen_repeat. unfold zlen. lia. }
    rewrite N. lia.
  - exists (v_alloced v * 2 * esz). split; auto. lia.
Qed.

Lemma reserve_loop_spec : forall f v l k, holds esz v l -> 0 <= k -> 2 ^ 64 <= v_alloced v * 2 ^ Z.of_nat f ->
  okor ok (fun b => b < 2 * (zlen l + k) * esz) (vec_reserve_loop esz ok f v k)
    (fun v' => holds esz v' l /\ zlen l + k <= v_alloced v' <= Z.max (v_alloced v) (2 * (zlen l + k)) /\ v_hint v' = v_hint v).
Proof.
  induction f as [|f IH]; intros v l k H K F.
  - destruct (holds_len v l H). change (2 ^ Z.of_nat 0) with 1 in F. lia.
  - cbn [vec_reserve_loop]. destruct (holds_len v l H) as (HL1 & HL2).
    assert (N : v_n v = zlen l) by apply H.
    rewrite N. rewrite szt_small by lia.
    destruct (v_alloced v - zlen l <? k) eqn:C.
    + eapply okor_bind.
      { eapply okor_weak; [apply grow_spec; exact H| |intros v' X; exact X]. intros b ->. cbv beta. nia. }
      intros v' (H' & A' & T'). cbv beta in *.
      assert (F2 : 2 ^ 64 <= v_alloced v' * 2 ^ Z.of_nat f).
      { rewrite A'. replace (Z.of_nat (S f)) with (Z.of_nat f + 1) in F by lia. rewrite Z.pow_add_r in F by lia.
        change (2 ^ 1) with 2 in F. lia. }
      eapply okor_weak; [exact (IH v' l k H' K F2)|auto|].
      intros v'' (H'' & A'' & T''). split; [auto|]. split; [lia|congruence].
    + cbn [okor]. split; [auto|]. split; [lia|auto].
Qed.

Lemma fuel65 : forall v l, holds esz v l -> 2 ^ 64 <= v_alloced v * 2 ^ Z.of_nat 65.
Proof.
  intros v l H. assert (1 <= v_alloced v) by apply H. change (2 ^ Z.of_nat 65) with (2 * 2 ^ 64). lia.
Qed.

Lemma reserve_spec : forall v l k, holds esz v l -> 0 <= k ->
  okor ok (fun b => b < 2 * (zlen l + k) * esz) (vec_reserve esz ok v k)
    (fun v' => holds esz v' l /\ zlen l + k <= v_alloced v' <= Z.max (v_alloced v) (2 * (zlen l + k)) /\ v_hint v' = v_hint v).
Proof. intros v l k H K. apply reserve_loop_spec; auto. eapply fuel65; eauto. Qed.

Lemma add_loop_spec : forall f v l, holds esz v l -> 2 ^ 64 <= v_alloced v * 2 ^ Z.of_nat f ->
  okor ok (fun b => b < 2 * (zlen l + 1) * esz) (vec_add_loop esz ok f v)
    (fun v' => holds esz v' l /\ zlen l + 1 <= v_alloced v' <= Z.max (v_alloced v) (2 * (zlen l + 1)) /\ v_hint v' = v_hint v).
Proof.
  induction f as [|f IH]; intros v l H F.
  - destruct (holds_len v l H). change (2 ^ Z.of_nat 0) with 1 in F. lia.
  - cbn [vec_add_loop]. destruct (holds_len v l H) as (HL1 & HL2).
    assert (N : v_n v = zlen l) by apply H.
    rewrite N. rewrite szt_small by lia.
    destruct (v_alloced v <? zlen l + 1) eqn:C.
    + eapply okor_bind.
      { eapply okor_weak; [apply grow_spec; exact H| |intros v' X; exact X]. intros b ->. cbv beta. nia. }
      intros v' (H' & A' & T'). cbv beta in *.
      assert (F2 : 2 ^ 64 <= v_alloced v' * 2 ^ Z.of_nat f).
      { rewrite A'. replace (Z.of_nat (S f)) with (Z.of_nat f + 1) in F by lia. rewrite Z.pow_add_r in F by lia.
        change (2 ^ 1) with 2 in F. lia. }
      eapply okor_weak; [exact (IH v' l H' F2)|auto|].
      intros v'' (H'' & A'' & T''). split; [auto|]. split; [lia|congruence].
    + cbn [okor]. split; [auto|]. split; [lia|auto].
Qed.

(** Storing [xs] right after the contents when there is room. *)
Lemma store_end : forall v l xs, holds esz v l -> zlen l + zlen xs <= v_alloced v ->
  exists blk, cells_store (v_blk v) (zlen l) xs = Ok blk /\
    (exists junk, blk = map Some (l ++ xs) ++ junk) /\ zlen blk = v_alloced v.
Proof.
  intros v l xs ((junk & B) & HL & N & P & HH & HA & HB) R. unfold cells_store.
  pose proof (zlen_nonneg _ l). pose proof (zlen_nonneg _ xs).
  replace ((zlen l <? 0) || (zlen (v_blk v) <? zlen l + zlen xs)) with false by lia.
  eexists. split; [reflexivity|]. split.
  - exists (skipn (Z.to_nat (zlen l + zlen xs)) (v_blk v)). rewrite B at 1.
    rewrite <- (zlen_map _ _ (@Some Z) l) at 1. rewrite firstn_zlen_app. rewrite map_app, app_assoc. reflexivity.
  - rewrite !zlen_app, zlen_map, zlen_firstn, zlen_skipn by lia. lia.
Qed.

Lemma append_spec : forall v l xs, holds esz v l ->
  okor ok (fun b => b < 2 * (zlen l + zlen xs) * esz) (vec_append esz ok v xs)
    (fun v' => holds esz v' (l ++ xs) /\ v_alloced v' <= Z.max (v_alloced v) (2 * (zlen l + zlen xs)) /\ v_hint v' = v_hint v).
Proof.
  intros v l xs H. unfold vec_append. eapply okor_bind; [apply reserve_spec; [exact H|apply zlen_nonneg]|].
  intros v' (H' & (A1 & A2) & T). cbv beta.
  destruct (store_end v' l xs H' A1) as (blk & E & J & L).
  assert (N : v_n v' = zlen l) by apply H'. rewrite N, E. cbn [bind okor].
  destruct (holds_len v' l H') as (HL1 & HL2). pose proof (zlen_nonneg _ xs).
  rewrite szt_small by lia. split; [|cbn [v_alloced v_hint]; lia].
  unfold holds. cbn [v_blk v_n v_p v_alloced v_hint]. split; [exact J|]. rewrite zlen_app.
  destruct H' as (_ & _ & _ & _ & HH & HA & HB). lia.
Qed.

Lemma add_spec : forall v l a, holds esz v l ->
  okor ok (fun b => b < 2 * (zlen l + 1) * esz) (vec_add esz ok v a)
    (fun v' => holds esz v' (l ++ [a]) /\ v_alloced v' <= Z.max (v_alloced v) (2 * (zlen l + 1)) /\ v_hint v' = v_hint v).
Proof.
  intros v l a H. unfold vec_add. eapply okor_bind; [apply add_loop_spec; [exact H|eapply fuel65; eauto]|].
  intros v' (H' & (A1 & A2) & T). cbv beta.
  destruct (store_end v' l [a] H' A1) as (blk & E & J & L).
  assert (N : v_n v' = zlen l) by apply H'. rewrite N, E. cbn [bind okor].
  destruct (holds_len v' l H') as (HL1 & HL2).
  rewrite szt_small by lia. split; [|cbn [v_alloced v_hint]; lia].
  unfold holds. cbn [v_blk v_n v_p v_alloced v_hint]. split; [exact J|]. rewrite zlen_app. change (zlen [a]) with 1.
  destruct H' as (_ & _ & _ & _ & HH & HA & HB). lia.
Qed.

Lemma cell_load_app : forall l junk i, 0 <= i < zlen l ->
  cell_load (map Some l ++ junk) i = Ok (nth (Z.to_nat i) l 0).
Proof.
  intros l junk i H. unfold cell_load. replace (i <? 0) with false by lia. unfold zlen in H.
  rewrite nth_error_app1 by (rewrite map_length; lia).
  rewrite nth_error_map. rewrite (nth_error_nth' l 0) by lia. reflexivity.
Qed.

Lemma cells_load_app : forall l pre junk,
  cells_load (map Some (pre ++ l) ++ junk) (zlen pre) (length l) = Ok l.
Proof.
  induction l as [|a l IH]; intros pre junk; cbn [length cells_load]; auto.
  pose proof (zlen_nonneg _ pre). pose proof (zlen_nonneg _ l).
  rewrite cell_load_app by (rewrite zlen_app, zlen_cons; lia). cbn [bind].
  specialize (IH (pre ++ [a]) junk). rewrite <- app_assoc in IH. cbn [app] in IH.
  rewrite zlen_app in IH. change (zlen [a]) with 1 in IH.
  rewrite IH. cbn [bind]. rewrite app_nth2 by (unfold zlen; lia). rewrite zlen_to_nat, Nat.sub_diag. reflexivity.
Qed.

Lemma value_spec : forall v l i, holds esz v l -> 0 <= i ->
  vec_value v i = if i <? zlen l then Ok (nth (Z.to_nat i) l 0) else UB AssertFail.
Proof.
  intros v l i ((junk & B) & HL & N & _) I. unfold vec_value. rewrite N, B.
  destruct (i <? zlen l) eqn:C; auto. apply cell_load_app. lia.
Qed.

Lemma extend_spec : forall v w l k, holds esz v l -> holds esz w k ->
  okor ok (fun b => b < 2 * (zlen l + zlen k) * esz) (vec_extend esz ok v w)
    (fun v' => holds esz v' (l ++ k) /\ v_alloced v' <= Z.max (v_alloced v) (2 * (zlen l + zlen k)) /\ v_hint v' = v_hint v).
Proof.
  intros v w l k H ((junk & B) & _ & N & _). unfold vec_extend. rewrite N, B, zlen_to_nat.
  pose proof (cells_load_app k [] junk) as E. cbn [app] in E. change (zlen (@nil Z)) with 0 in E. rewrite E. cbn [bind]. apply append_spec. exact H.
Qed.

Lemma holds_cut : forall v l l' junk, holds esz v l -> v_blk v = map Some l' ++ junk ->
  holds esz (mkVec (v_blk v) (zlen l') (zlen l') (v_alloced v) (v_hint v)) l'.
Proof.
  intros v l l' junk (J & HL & N & P & HH & HA & HB) E. unfold holds. cbn [v_blk v_n v_p v_alloced v_hint].
  split; [exists junk; exact E|]. lia.
Qed.

Lemma clip_spec : forall v l k, holds esz v l -> 0 <= k -> holds esz (vec_clip v k) (firstn (Z.to_nat k) l).
Proof.
  intros v l k H K. unfold vec_clip. assert (N : v_n v = zlen l) by apply H. rewrite N.
  destruct (k <? zlen l) eqn:C.
  - assert (X := H). destruct X as ((junk & B) & _).
    rewrite <- (firstn_skipn (Z.to_nat k) l) in B. rewrite map_app, <- app_assoc in B.
    pose proof (holds_cut v l _ _ H B) as Q. rewrite zlen_firstn in Q by lia. exact Q.
  - rewrite firstn_all2; [exact H|]. unfold zlen in C. lia.
Qed.

Lemma clip_meta : forall v k, v_alloced (vec_clip v k) = v_alloced v /\ v_hint (vec_clip v k) = v_hint v.
Proof. intros. unfold vec_clip. destruct (k <? v_n v); auto. Qed.

Lemma drop_last_snoc : forall p l b, drop_last p (l ++ [b]) = if p b then l else l ++ [b].
Proof. intros. unfold drop_last. rewrite rev_app_distr. cbn [rev app]. destruct (p b); auto. apply rev_involutive. Qed.

Lemma drop_last_nil : forall p, drop_last p [] = [].
Proof. reflexivity. Qed.

Lemma drop_last_len : forall p l, zlen (drop_last p l) <= zlen l.
Proof.
  intros p l. destruct (rev l) as [|b r] eqn:E.
  - unfold drop_last. rewrite E. lia.
  - assert (X : l = rev r ++ [b]) by (rewrite <- (rev_involutive l), E; reflexivity). rewrite X, drop_last_snoc.
    destruct (p b); [|lia]. rewrite zlen_app. change (zlen [b]) with 1. lia.
Qed.

Lemma last_value : forall v l b, holds esz v (l ++ [b]) -> vec_size v = zlen l + 1 /\ vec_value v (vec_size v - 1) = Ok b /\
  holds esz (vec_clip v (vec_size v - 1)) l.
Proof.
  intros v l b H. assert (N : v_n v = zlen (l ++ [b])) by apply H. rewrite zlen_app in N. change (zlen [b]) with 1 in N.
  unfold vec_size. pose proof (zlen_nonneg _ l). split; [auto|]. rewrite N. replace (zlen l + 1 - 1) with (zlen l) by lia. split.
  - rewrite (value_spec v _ _ H) by lia. rewrite zlen_app. change (zlen [b]) with 1.
    replace (zlen l <? zlen l + 1) with true by lia. rewrite zlen_to_nat, app_nth2, Nat.sub_diag by lia. reflexivity.
  - pose proof (clip_spec v _ (zlen l) H ltac:(lia)) as Q. rewrite firstn_zlen_app in Q. exact Q.
Qed.

Lemma unterm_spec : forall v l, holds esz v l ->
  exists v', ubuf_unterm v = Ok v' /\ holds esz v' (drop_last (fun b => b =? 0) l) /\
    v_alloced v' = v_alloced v /\ v_hint v' = v_hint v.
Proof.
  intros v l H. unfold ubuf_unterm. destruct (rev l) as [|b r] eqn:E.
  - assert (l = []) by (rewrite <- (rev_involutive l), E; reflexivity). subst l.
    assert (N : v_n v = 0) by apply H. unfold vec_size. rewrite N. exists v. cbn. auto.
  - assert (X : l = rev r ++ [b]) by (rewrite <- (rev_involutive l), E; reflexivity). rewrite X in H |- *.
    destruct (last_value v _ _ H) as (S1 & S2 & S3). pose proof (zlen_nonneg _ (rev r)).
    replace (0 <? vec_size v) with true by lia. rewrite S2. cbn [bind]. rewrite drop_last_snoc.
    destruct (clip_meta v (vec_size v - 1)).
    destruct (b =? 0); eexists; split; eauto.
Qed.

Lemma rstrip_spec : forall v l c, holds esz v l ->
  exists v', ubuf_rstrip v c = Ok v' /\ holds esz v' (drop_last (fun b => b =? c mod 256) l) /\
    v_alloced v' = v_alloced v /\ v_hint v' = v_hint v.
Proof.
  intros v l c H. unfold ubuf_rstrip. destruct (rev l) as [|b r] eqn:E.
  - assert (l = []) by (rewrite <- (rev_involutive l), E; reflexivity). subst l.
    assert (N : v_n v = 0) by apply H. unfold vec_size. rewrite N. exists v. cbn. auto.
  - assert (X : l = rev r ++ [b]) by (rewrite <- (rev_involutive l), E; reflexivity). rewrite X in H |- *.
    destruct (last_value v _ _ H) as (S1 & S2 & S3). pose proof (zlen_nonneg _ (rev r)).
    replace (0 <? vec_size v) with true by lia. rewrite S2. cbn [bind]. rewrite drop_last_snoc.
    destruct (clip_meta v (vec_size v - 1)).
    destruct (b =? c mod 256); eexists; split; eauto.
Qed.

Lemma add_cstr_spec : forall v l s, holds esz v l ->
  okor ok (fun b => b < 2 * (zlen l + zlen s) * esz) (ubuf_add_cstr esz ok v s)
    (fun v' => holds esz v' (drop_last (fun b => b =? 0) l ++ s) /\
       v_alloced v' <= Z.max (v_alloced v) (2 * (zlen l + zlen s)) /\ v_hint v' = v_hint v).
Proof.
  intros v l s H. unfold ubuf_add_cstr. destruct (unterm_spec v l H) as (v1 & -> & H1 & A1 & T1). cbn [bind].
  pose proof (drop_last_len (fun b => b =? 0) l).
  eapply okor_weak; [apply append_spec; exact H1| |].
  - intros b B. cbv beta in *. nia.
  - intros v' (X & Y & Z). split; [exact X|]. split; [lia|congruence].
Qed.

Lemma cterm_spec : forall v l, holds esz v l ->
  okor ok (fun b => b < 2 * (zlen l + 1) * esz) (ubuf_cterm esz ok v)
    (fun v' => holds esz v' (lstep l Vcterm) /\
       v_alloced v' <= Z.max (v_alloced v) (2 * (zlen l + 1)) /\ v_hint v' = v_hint v).
Proof.
  intros v l H. unfold ubuf_cterm. cbn [lstep]. destruct (rev l) as [|b r] eqn:E.
  - assert (l = []) by (rewrite <- (rev_involutive l), E; reflexivity). subst l.
    assert (N : v_n v = 0) by apply H. unfold vec_size. rewrite N. change (0 =? 0) with true. cbv iota.
    apply (append_spec v [] [0] H).
  - assert (X : l = rev r ++ [b]) by (rewrite <- (rev_involutive l), E; reflexivity). clear E. subst l.
    destruct (last_value v _ _ H) as (S1 & S2 & S3). pose proof (zlen_nonneg _ (rev r)).
    replace (vec_size v =? 0) with false by lia.
    replace (0 <? vec_size v) with true by lia. rewrite S2. cbn [bind].
    destruct (b =? 0) eqn:Z; cbn [negb].
    + assert (b = 0) by lia. subst b. cbn [okor]. split; [exact H|]. lia.
    + replace (match b with 0 => rev r ++ [b] | _ => (rev r ++ [b]) ++ [0] end) with ((rev r ++ [b]) ++ [0])
        by (destruct b; auto; lia).
      apply (append_spec v _ [0] H).
Qed.

Lemma advance_spec : forall v l xs junk, holds esz v l -> v_blk v = map Some (l ++ xs) ++ junk ->
  exists v', vec_advance v (zlen xs) = Ok v' /\ holds esz v' (l ++ xs) /\ v_alloced v' = v_alloced v /\ v_hint v' = v_hint v.
Proof.
  intros v l xs junk H B. destruct (holds_len v l H) as (HL1 & HL2). unfold vec_advance.
  assert (N : v_n v = zlen l) by apply H. assert (L : zlen (v_blk v) = v_alloced v) by apply H.
  pose proof (zlen_nonneg _ xs). pose proof (zlen_nonneg _ junk).
  rewrite B, zlen_app, zlen_map, zlen_app in L. rewrite N. rewrite !szt_small by lia.
  replace (v_alloced v - zlen l <? zlen xs) with false by lia.
  eexists. split; [reflexivity|]. split; [|split; reflexivity]. rewrite <- zlen_app. eapply holds_cut; eauto.
Qed.

Lemma store_ptr_spec : forall v l xs, holds esz v l -> zlen l + zlen xs <= v_alloced v ->
  exists v' junk, vec_store_ptr v xs = Ok v' /\ holds esz v' l /\ v_blk v' = map Some (l ++ xs) ++ junk /\
    v_alloced v' = v_alloced v /\ v_hint v' = v_hint v.
Proof.
  intros v l xs H R. destruct (store_end v l xs H R) as (blk & E & (junk & J) & L). unfold vec_store_ptr.
  destruct H as (_ & _ & N & P & HH & HA & HB). rewrite P, E. cbn [bind].
  eexists. exists junk. split; [reflexivity|]. split; [|split; [exact J|split; reflexivity]].
  unfold holds. cbn [v_blk v_n v_p v_alloced v_hint]. split; [|lia].
  exists (map Some xs ++ junk). rewrite J, map_app, <- app_assoc. reflexivity.
Qed.

Lemma emit_spec : forall v l xs, holds esz v l ->
  okor ok (fun b => b < 2 * (zlen l + zlen xs) * esz) (vec_emit esz ok v xs)
    (fun v' => holds esz v' (l ++ xs) /\ v_alloced v' <= Z.max (v_alloced v) (2 * (zlen l + zlen xs)) /\ v_hint v' = v_hint v).
Proof.
  intros v l xs H. unfold vec_emit. eapply okor_bind; [apply reserve_spec; [exact H|apply zlen_nonneg]|].
  intros v1 (H1 & (A1 & A1') & T1). cbv beta.
  destruct (store_ptr_spec v1 l xs H1 A1) as (v2 & junk & -> & H2 & B2 & A2 & T2). cbn [bind].
  destruct (advance_spec v2 l xs junk H2 B2) as (v3 & -> & H3 & A3 & T3). cbn [okor].
  split; [exact H3|]. split; [lia|congruence].
Qed.

Lemma add_fmt_spec : forall v l s, holds esz v l -> zlen s <= 2147483647 ->
  okor ok (fun b => b < 2 * (2 * zlen l + zlen s + 1) * esz) (ubuf_add_fmt esz ok v s)
    (fun v' => holds esz v' (drop_last (fun b => b =? 0) l ++ s) /\
       v_alloced v' <= Z.max (v_alloced v) (2 * (2 * zlen l + zlen s + 1)) /\ v_hint v' = v_hint v).
Proof.
  intros v l s H S. unfold ubuf_add_fmt. destruct (unterm_spec v l H) as (v1 & -> & H1 & A1 & T1). cbn [bind].
  pose proof (drop_last_len (fun b => b =? 0) l) as DL. set (l1 := drop_last (fun b => b =? 0) l) in *.
  replace (2147483647 <? zlen s) with false by lia.
  destruct (holds_len v1 l1 H1) as (HL1 & HL2). pose proof (zlen_nonneg _ s).
  assert (N : vec_size v1 = zlen l1) by apply H1. rewrite N. rewrite szt_small by lia.
  eapply okor_bind.
  { eapply okor_weak; [apply (reserve_spec v1 l1 (zlen l1 + zlen s + 1) H1); lia| |intros x X; exact X].
    intros b B. cbv beta in *. nia. }
  intros v2 (H2 & (A2 & A2') & T2). cbv beta.
  destruct (store_ptr_spec v2 l1 (s ++ [0]) H2) as (v3 & junk & -> & H3 & B3 & A3 & T3).
  { rewrite zlen_app. change (zlen [0]) with 1. lia. }
  cbn [bind].
  assert (B3' : v_blk v3 = map Some (l1 ++ s) ++ (Some 0 :: junk)).
  { rewrite B3, app_assoc, (map_app Some (l1 ++ s)), <- app_assoc. reflexivity. }
  destruct (advance_spec v3 l1 s _ H3 B3') as (v4 & -> & H4 & A4 & T4). cbn [okor].
  split; [exact H4|]. split; [lia|congruence].
Qed.

Lemma reset_spec : forall v l, holds esz v l ->
  okor ok (fun b => b < 2 ^ 48) (vec_reset esz ok v)
    (fun v' => holds esz v' [] /\ v_alloced v' <= v_alloced v /\ v_hint v' = v_hint v).
Proof.
  intros v l H. unfold vec_reset. destruct (v_hint v <? v_alloced v) eqn:C.
  - destruct H as (J & HL & N & P & HH & HA & HB). destruct (hint_mul (v_hint v) HH) as (-> & Q).
    unfold my_realloc. rewrite Z.div_mul by lia.
    destruct (ok (v_hint v * esz)) eqn:O; cbn [bind okor].
    + split; [|cbn [v_alloced v_hint]; lia]. unfold holds. cbn [v_blk v_n v_p v_alloced v_hint]. change (zlen (@nil Z)) with 0.
      split; [eexists; reflexivity|]. pose proof (Hok _ O).
      split; [|lia]. unfold zlen in *. rewrite app_length, firstn_length, repeat_length. lia.
    + exists (v_hint v * esz). split; auto. lia.
  - cbn [okor]. split; [|cbn [v_alloced v_hint]; lia].
    apply (holds_cut v l [] (v_blk v) H). reflexivity.
Qed.

Lemma set_spec : forall v l i xs, holds esz v l -> 0 <= i -> i + zlen xs <= zlen l ->
  exists v', vec_store_data v i xs = Ok v' /\
    holds esz v' (firstn (Z.to_nat i) l ++ xs ++ skipn (Z.to_nat (i + zlen xs)) l) /\
    v_alloced v' = v_alloced v /\ v_hint v' = v_hint v.
Proof.
  intros v l i xs H I R. destruct (holds_len v l H) as (HL1 & HL2).
  destruct H as ((junk & B) & HL & N & P & HH & HA & HB). unfold vec_store_data, cells_store.
  pose proof (zlen_nonneg _ xs). replace ((i <? 0) || (zlen (v_blk v) <? i + zlen xs)) with false by lia. cbn [bind].
  assert (ZL : zlen (firstn (Z.to_nat i) l ++ xs ++ skipn (Z.to_nat (i + zlen xs)) l) = zlen l).
  { rewrite !zlen_app, zlen_firstn, zlen_skipn by lia. lia. }
  eexists. split; [reflexivity|]. split; [|split; reflexivity].
  unfold holds. cbn [v_blk v_n v_p v_alloced v_hint]. rewrite ZL. split.
  - exists junk. rewrite B. rewrite firstn_app, skipn_app, !map_length, !map_app.
    assert (ML : Z.of_nat (length l) = zlen l) by reflexivity.
    replace (Z.to_nat i - length l)%nat with 0%nat by lia.
    replace (Z.to_nat (i + zlen xs) - length l)%nat with 0%nat by lia.
    cbn [firstn skipn]. rewrite app_nil_r, firstn_map, skipn_map, <- !app_assoc. reflexivity.
  - split; [|lia]. rewrite !zlen_app, zlen_map, zlen_firstn, zlen_skipn by lia. lia.
Qed.

(** One operation. *)
Lemma step_spec : forall v l o, holds esz v l -> vop_pre l o ->
  (forall s, o = Vadd_fmt s -> zlen s <= 2147483647) ->
  okor ok (fun b => b < Z.max (2 ^ 48) (2 * vop_need l o * esz)) (vstep esz ok v o)
    (fun v' => holds esz v' (lstep l o) /\
       ((forall h, o <> Vreinit h) -> v_hint v' = v_hint v /\ v_alloced v' <= Z.max (Z.max (v_alloced v) (v_hint v)) (2 * vop_need l o))).
Proof.
  intros v l o H P F. destruct o; cbn [vstep vop_pre vop_need lstep] in *.
  - eapply okor_weak; [apply reinit_spec; auto|cbv beta; lia|]. intros v' (X & _). split; [exact X|].
    intros K. exfalso. apply (K hint). reflexivity.
  - pose proof (detach_spec v l H) as D. unfold vec_detach, my_malloc in *.
    destruct (ok (szt (v_hint v * esz))) eqn:O; cbn [bind okor] in *.
    + destruct D as (_ & _ & X & T). split; [exact X|]. intros _. cbn [v_alloced v_hint]. lia.
    + exists (szt (v_hint v * esz)). split; auto.
      destruct (hint_mul (v_hint v)) as (-> & ?); [apply H|lia].
  - eapply okor_weak; [apply reserve_spec; [exact H|lia]|cbv beta; lia|]. intros v' (X & Y & Z). split; [exact X|]. intros _. lia.
  - eapply okor_weak; [apply add_spec; exact H|cbv beta; lia|]. intros v' (X & Y & Z). split; [exact X|]. intros _. lia.
  - eapply okor_weak; [apply append_spec; exact H|cbv beta; lia|]. intros v' (X & Y & Z). split; [exact X|]. intros _. lia.
  - eapply okor_weak; [exact (reset_spec v l H)|cbv beta; lia|]. intros v' (X & Y & Z). split; [exact X|]. intros _. lia.
  - cbn [okor]. split; [apply clip_spec; auto; lia|]. destruct (clip_meta v k). lia.
  - eapply okor_weak; [apply emit_spec; exact H|cbv beta; lia|]. intros v' (X & Y & Z). split; [exact X|]. intros _. lia.
  - destruct P as (P1 & P2). destruct (set_spec v l i l0 H P1 P2) as (v' & -> & X & Y & Z). cbn [okor]. split; [exact X|]. lia.
  - eapply okor_weak; [apply add_cstr_spec; exact H|cbv beta; lia|]. intros v' (X & Y & Z). split; [exact X|]. intros _. lia.
  - eapply okor_weak; [apply cterm_spec; exact H|cbv beta; lia|]. intros v' (X & Y & Z). split; [exact X|]. intros _. lia.
  - eapply okor_weak; [apply add_fmt_spec; [exact H|apply F; reflexivity]|cbv beta; lia|].
    intros v' (X & Y & Z). split; [exact X|]. intros _. lia.
  - destruct (rstrip_spec v l c H) as (v' & -> & X & Y & Z). cbn [okor]. split; [exact X|]. lia.
Qed.

Lemma step_any : forall v l o, holds esz v l -> vop_pre l o ->
  match vstep esz ok v o with
  | Ok v' => holds esz v' (lstep l o)
  | UB AssertFail => True
  | _ => False
  end.
Proof.
  intros v l o H P.
  assert (D : (forall s, o = Vadd_fmt s -> zlen s <= 2147483647) \/ exists s, o = Vadd_fmt s /\ 2147483647 < zlen s).
  { destruct o; try (left; intros; discriminate). destruct (Z_le_gt_dec (zlen s) 2147483647).
    - left. intros s0 E. injection E as <-. auto.
    - right. exists s. split; [auto|lia]. }
  destruct D as [F|(s & -> & L)].
  - pose proof (step_spec v l o H P F) as S. unfold okor in S.
    destruct (vstep esz ok v o) as [v'|r|[]|]; auto. exact (proj1 S).
  - cbn [vstep]. unfold ubuf_add_fmt. destruct (unterm_spec v l H) as (v1 & -> & _). cbn [bind].
    replace (2147483647 <? zlen s) with true by lia. exact I.
Qed.

End V.
