(** ProofQueue.v: the invariant of the ring. *)
From Verif Require Import Base Lib ModelQueue SpecQueue.

(** ** Arithmetic *)
Lemma wrap_mod : forall v k, 0 <= k <= 32 -> wrap32 v mod 2 ^ k = v mod 2 ^ k.
Proof.
  intros v k K. unfold wrap32. assert (Q : 0 < 2 ^ k) by (apply Z.pow_pos_nonneg; lia). assert (Q' : 0 < 2 ^ (32 - k)) by (apply Z.pow_pos_nonneg; lia).
  assert (E : 4294967296 = 2 ^ k * 2 ^ (32 - k)) by (rewrite <- Z.pow_add_r by lia; replace (k + (32 - k)) with 32 by lia; reflexivity).
  rewrite E, Z.rem_mul_r by lia. rewrite Z.mul_comm, Z.mod_add by lia. apply Z.mod_mod. lia.
Qed.
Lemma land_mask : forall v k, 0 <= k <= 31 -> Z.land (wrap32 v) (wrap32 (2 ^ k - 1)) = v mod 2 ^ k.
Proof.
  intros v k K. assert (P : 2 ^ k < 2 ^ 32) by (apply Z.pow_lt_mono_r; lia). assert (Q : 0 < 2 ^ k) by (apply Z.pow_pos_nonneg; lia).
  unfold wrap32 at 2. rewrite (Z.mod_small (2 ^ k - 1)) by (change (2 ^ 32) with 4294967296 in P; lia).
  replace (2 ^ k - 1) with (Z.ones k) by (rewrite Z.ones_equiv; lia).
  rewrite Z.land_ones by lia. apply wrap_mod. lia.
Qed.
Lemma mod_eq : forall n x y k, 0 <= y < n -> x = y + n * k -> x mod n = y.
Proof. intros n x y k Y ->. rewrite Z.mul_comm, Z.mod_add by lia. apply Z.mod_small. lia. Qed.

Section Arith.
Variables num size : Z.
Hypothesis QA : queue_args num size.
Lemma num_pos : 2 <= num < 2 ^ 32.
Proof. destruct QA as [(k & K & ->) _]. assert (2 ^ 1 <= 2 ^ k) by (apply Z.pow_le_mono_r; lia). assert (2 ^ k < 2 ^ 32) by (apply Z.pow_lt_mono_r; lia). change (2 ^ 1) with 2 in *. lia. Qed.
Lemma wrap_num : forall v, wrap32 v mod num = v mod num.
Proof. intros v. destruct QA as [(k & K & E) _]. rewrite E. apply wrap_mod. lia. Qed.
Lemma land_num : forall v, Z.land (wrap32 v) (wrap32 (num - 1)) = v mod num.
Proof. intros v. destruct QA as [(k & K & E) _]. rewrite E. apply land_mask. lia. Qed.
Lemma space_val : forall a g, 0 <= a - g <= num - 1 -> q_space (a mod num) (g mod num) num = num - 1 - (a - g).
Proof.
  intros a g H. pose proof num_pos as NP. unfold q_space. rewrite land_num, Zminus_mod, wrap_num, <- Zminus_mod.
  pose proof (Z.div_mod a num ltac:(lia)) as Da. pose proof (Z.div_mod g num ltac:(lia)) as Dg.
  apply (mod_eq num _ _ (a / num - g / num - 1)); lia.
Qed.
Lemma count_val : forall a g, 0 <= a - g <= num - 1 -> q_count (a mod num) (g mod num) num = a - g.
Proof.
  intros a g H. pose proof num_pos as NP. unfold q_count. rewrite land_num.
  pose proof (Z.div_mod a num ltac:(lia)) as Da. pose proof (Z.div_mod g num ltac:(lia)) as Dg.
  apply (mod_eq num _ _ (g / num - a / num)); lia.
Qed.
Lemma next_val : forall a, next (a mod num) num = (a + 1) mod num.
Proof.
  intros a. pose proof num_pos as NP. unfold next. rewrite land_num. rewrite Zplus_mod, Z.mod_mod, <- Zplus_mod by lia. reflexivity.
Qed.
Hypothesis OF : offsets_fit num size.
Lemma slot_val : forall a, slot (a mod num) size = a mod num * size.
Proof.
  intros a. pose proof num_pos as NP. destruct QA as [_ SZ]. unfold slot, wrap32. apply Z.mod_small. pose proof (Z.mod_pos_bound a num ltac:(lia)). unfold offsets_fit in OF. change (2 ^ 32) with 4294967296 in *. nia.
Qed.
Lemma slot_in : forall a k, 0 <= k < size -> in_data num size (slot (a mod num) size + k) = true.
Proof. intros a k K. rewrite slot_val. pose proof num_pos as NP. pose proof (Z.mod_pos_bound a num ltac:(lia)). unfold in_data. pose proof (Z.mul_le_mono_nonneg_r (a mod num + 1) num size ltac:(lia) ltac:(lia)). pose proof (Z.mul_nonneg_nonneg (a mod num) size ltac:(lia) ltac:(lia)). lia. Qed.
Lemma slot_apart : forall a b k l, 0 <= k < size -> 0 <= l < size -> 0 < a - b < num -> slot (a mod num) size + k <> slot (b mod num) size + l.
Proof.
  intros a b k l K L H E. rewrite !slot_val in E. pose proof num_pos as NP.
  assert (N : a mod num <> b mod num).
  { intros X. pose proof (Z.div_mod a num ltac:(lia)) as Da. pose proof (Z.div_mod b num ltac:(lia)) as Db. rewrite X in Da. assert (D : a - b = num * (a / num - b / num)) by (rewrite Z.mul_sub_distr_l; lia). clear - D H NP. assert (a / num - b / num <= 0 \/ 1 <= a / num - b / num) as [C|C] by lia; nia. }
  assert (a mod num < b mod num \/ b mod num < a mod num) as [X|X] by lia; nia.
Qed.
End Arith.

(** ** Store buffers *)
Definition heads (b : buffer) : Z := zlen (filter (fun w : loc * Z => match fst w with LHead => true | _ => false end) b).
Lemma heads_app : forall a b, heads (a ++ b) = heads a + heads b.
Proof. intros a b. unfold heads. rewrite filter_app, zlen_app. reflexivity. Qed.
Lemma heads_nonneg : forall b, 0 <= heads b. Proof. intros b. apply zlen_nonneg. Qed.
Lemma drain_app : forall a b m, drain (a ++ b) m = drain b (drain a m).
Proof. intros a b m. unfold drain. apply fold_left_app. Qed.
Lemma drain_head : forall b m, Forall (fun w : loc * Z => fst w = LTail) b -> m_head (drain b m) = m_head m /\ m_data (drain b m) = m_data m.
Proof.
  induction b as [|[l v] b IH]; intros m F; [auto|]. inversion F as [|? ? E F']; subst. cbn [fst] in E. subst l. cbn [drain fold_left]. destruct (IH (store m (LTail, v)) F') as [A B].
  unfold drain in A, B. rewrite A, B. auto.
Qed.
Lemma drain_tail : forall b m, Forall (fun w : loc * Z => fst w <> LTail) b -> m_tail (drain b m) = m_tail m.
Proof.
  induction b as [|[l v] b IH]; intros m F; [auto|]. inversion F as [|? ? E F']; subst. cbn [fst] in E. cbn [drain fold_left]. pose proof (IH (store m (l, v)) F') as A.
  unfold drain in A. rewrite A. destruct l; auto. congruence.
Qed.
Lemma drain_tail_ext : forall b m m', m_tail m = m_tail m' -> m_tail (drain b m) = m_tail (drain b m').
Proof.
  induction b as [|[l v] b IH]; intros m m' E; [auto|]. cbn [drain fold_left]. apply (IH (store m (l, v)) (store m' (l, v))). destruct l; auto.
Qed.
Lemma drain_data_ext : forall b m m', m_head m = m_head m' -> (forall i, m_data m i = m_data m' i) ->
  m_head (drain b m) = m_head (drain b m') /\ (forall i, m_data (drain b m) i = m_data (drain b m') i).
Proof.
  induction b as [|[l v] b IH]; intros m m' E D; [auto|]. cbn [drain fold_left]. apply (IH (store m (l, v)) (store m' (l, v))); destruct l as [| |j]; cbn; auto.
  intros i. destruct (i =? j); auto.
Qed.
Lemma snoc_split : forall A (b : list A) w p q, b ++ [w] = p ++ q -> (p = b ++ [w] /\ q = []) \/ (exists q', q = q' ++ [w] /\ b = p ++ q').
Proof.
  intros A b w p q E. destruct q as [|y q]; [left; rewrite app_nil_r in E; auto|]. right. destruct (exists_last (l := y :: q)) as (q' & x & X); [discriminate|]. rewrite X in *.
  rewrite app_assoc in E. apply app_inj_tail in E as [E1 E2]. subst. eauto.
Qed.

(** ** Histories *)
Lemma fold_snoc : forall A B (f : A -> B -> A) l x a, fold_left f (l ++ [x]) a = f (fold_left f l a) x.
Proof. intros. rewrite fold_left_app. reflexivity. Qed.
Lemma removed_snoc : forall tr e, removed (tr ++ [e]) = removed tr ++ match e with RemRet (Some it) _ => [it] | _ => [] end.
Proof. intros tr e. unfold removed. rewrite map_app, concat_app. cbn [map concat]. rewrite app_nil_r. reflexivity. Qed.

(** ** The invariant *)
Section Inv.
Variables num size : Z.
Hypothesis QA : queue_args num size.
Hypothesis OF : offsets_fit num size.

Definition item_at (m : mem) (j : Z) (it : bytes) : Prop := forall k v, rd it k = Ok v -> m_data m (slot (j mod num) size + k) = v.
(** Memory as it is once [j] insertions have become visible: all items not yet removed are in place. *)
Definition good (I : list bytes) (nR j : Z) (m : mem) : Prop :=
  m_head m = j mod num /\ forall i it, nR <= i < j -> nth_error I (Z.to_nat i) = Some it -> item_at m i it.
Definition range (todo : list Z) : Prop := Forall (fun k => 0 <= k < size) todo.

Definition pinv (tr : list event) (I : list bytes) (fR : Z) (m : mem) (p : pstate) : Prop :=
  let room := num - 1 - (zlen I - fR) in
  match p with
  | PIdle => inserted tr = I /\ pending tr = [] /\ last_space num tr <= room
  | PEnter it => inserted tr = I /\ pending tr = [it] /\ last_space num tr <= room /\ zlen it = size
  | PHead it h => inserted tr = I /\ pending tr = [it] /\ last_space num tr <= room /\ zlen it = size /\ h = zlen I mod num
  | PCopy it h sp todo => inserted tr = I /\ pending tr = [it] /\ last_space num tr <= sp /\ zlen it = size /\ h = zlen I mod num /\
      1 <= sp <= room /\ range todo /\ forall k v, rd it k = Ok v -> ~ In k todo -> m_data m (slot h size + k) = v
  | PRet it true sp => I = inserted tr ++ [it] /\ pending tr = [it] /\ last_space num tr - 1 <= sp /\ 0 <= sp <= room
  | PRet it false sp => inserted tr = I /\ pending tr = [it] /\ last_space num tr <= 0 /\ sp = 0
  end.
Definition cinv (tr : list event) (I : list bytes) (nR fI : Z) (c : cstate) : Prop :=
  match c with
  | CIdle => removed tr = firstn (Z.to_nat nR) I /\ removing tr = false /\ last_count tr <= fI - nR
  | CEnter got => removed tr = firstn (Z.to_nat nR) I /\ removing tr = true /\ last_count tr <= fI - nR /\ zlen got = size
  | CHead got h => removed tr = firstn (Z.to_nat nR) I /\ removing tr = true /\ zlen got = size /\
      exists g, nR <= g <= fI /\ h = g mod num /\ last_count tr <= g - nR
  | CCopy got t cnt todo => removed tr = firstn (Z.to_nat nR) I /\ removing tr = true /\ zlen got = size /\ t = nR mod num /\
      1 <= cnt <= fI - nR /\ last_count tr <= cnt /\ range todo /\
      forall it k v, nth_error I (Z.to_nat nR) = Some it -> rd it k = Ok v -> ~ In k todo -> rd got k = Ok v
  | CFence got t cnt => removed tr = firstn (Z.to_nat nR) I /\ removing tr = true /\ t = nR mod num /\
      1 <= cnt <= fI - nR /\ last_count tr <= cnt /\ nth_error I (Z.to_nat nR) = Some got
  | CRet (Some it) cnt => removed tr ++ [it] = firstn (Z.to_nat nR) I /\ removing tr = true /\ last_count tr - 1 <= cnt /\ 0 <= cnt <= fI - nR
  | CRet None cnt => removed tr = firstn (Z.to_nat nR) I /\ removing tr = true /\ last_count tr <= 0 /\ cnt = 0 /\ 0 <= fI - nR
  end.

Record inv (tr : list event) (c : config) (I : list bytes) (fR nR fI : Z) : Prop := {
  i_ord : 0 <= fR <= nR /\ nR <= fI <= zlen I /\ zlen I <= fR + num - 1;
  i_sz : Forall (fun it => zlen it = size) I;
  i_good : forall p q, q_pbuf c = p ++ q -> good I nR (fI + heads p) (drain p (q_mem c));
  i_heads : fI + heads (q_pbuf c) = zlen I;
  i_pl : Forall (fun w => fst w <> LTail) (q_pbuf c);
  i_tail : forall p q, q_cbuf c = p ++ q -> m_tail (drain p (q_mem c)) = (fR + zlen p) mod num;
  i_cl : Forall (fun w => fst w = LTail) (q_cbuf c);
  i_cn : fR + zlen (q_cbuf c) = nR;
  i_prod : pinv tr I fR (drain (q_pbuf c) (q_mem c)) (q_prod c);
  i_cons : cinv tr I nR fI (q_cons c);
  i_fault : q_fault c = false
}.

Lemma pinv_mono : forall tr I fR fR' m m' p, pinv tr I fR m p -> fR <= fR' -> (forall i, m_data m i = m_data m' i) -> pinv tr I fR' m' p.
Proof.
  intros tr I fR fR' m m' p P L D. destruct p as [|it|it h|it h sp todo|it [] sp]; cbn [pinv] in *; intuition (try lia).
  rewrite <- D. auto.
Qed.
Lemma cinv_mono : forall tr I nR fI fI' c, cinv tr I nR fI c -> fI <= fI' -> cinv tr I nR fI' c.
Proof.
  intros tr I nR fI fI' c P L. destruct c as [|got|got h|got t cnt todo|got t cnt|[it|] cnt]; cbn [cinv] in *; intuition (try lia).
  destruct H3 as (g & A & B & C). exists g. intuition lia.
Qed.
Lemma cinv_more : forall tr I it nR fI c, cinv tr I nR fI c -> 0 <= nR -> fI <= zlen I -> nR <= fI -> cinv tr (I ++ [it]) nR fI c.
Proof.
  intros tr I it nR fI c P N L O. assert (E : firstn (Z.to_nat nR) (I ++ [it]) = firstn (Z.to_nat nR) I).
  { unfold zlen in L. rewrite firstn_app. replace (Z.to_nat nR - length I)%nat with 0%nat by lia. cbn [firstn]. apply app_nil_r. }
  assert (X : forall k, (k < zlen I) -> 0 <= k -> nth_error (I ++ [it]) (Z.to_nat k) = nth_error I (Z.to_nat k)). { intros k K P0. unfold zlen in K. apply nth_error_app1. lia. }
  destruct c as [|got|got h|got t cnt todo|got t cnt|[it'|] cnt]; cbn [cinv] in *; rewrite E; auto; rewrite X by lia; auto.
Qed.
Lemma pinv_event : forall tr e I fR m p, match e with RemCall | RemRet _ _ => True | _ => False end -> pinv tr I fR m p -> pinv (tr ++ [e]) I fR m p.
Proof.
  intros tr e I fR m p E P. assert (A : inserted (tr ++ [e]) = inserted tr /\ pending (tr ++ [e]) = pending tr /\ last_space num (tr ++ [e]) = last_space num tr).
  { unfold inserted, pending, last_space. rewrite !fold_snoc. destruct e; try contradiction; auto. }
  destruct A as (A & B & C). destruct p as [|it|it h|it h sp todo|it [] sp]; cbn [pinv] in *; rewrite A, B, C; auto.
Qed.
Lemma cinv_event : forall tr e I nR fI c, match e with InsCall _ | InsRet _ _ => True | _ => False end -> cinv tr I nR fI c -> cinv (tr ++ [e]) I nR fI c.
Proof.
  intros tr e I nR fI c E P. assert (A : removed (tr ++ [e]) = removed tr /\ removing (tr ++ [e]) = removing tr /\ last_count (tr ++ [e]) = last_count tr).
  { rewrite removed_snoc. unfold removing, last_count. rewrite !fold_snoc. destruct e; try contradiction; rewrite app_nil_r; auto. }
  destruct A as (A & B & C). destruct c as [|got|got h|got t cnt todo|got t cnt|[it'|] cnt]; cbn [cinv] in *; rewrite ?A, ?B, ?C; auto.
Qed.
Lemma rd_range : forall it k v, rd it k = Ok v -> 0 <= k < zlen it.
Proof. intros it k v E. unfold rd in E. destruct (k <? 0) eqn:K; [discriminate|]. destruct (nth_error it (Z.to_nat k)) eqn:X; [|discriminate]. assert (Z.to_nat k < length it)%nat by (apply nth_error_Some; congruence). unfold zlen. lia. Qed.
Lemma offsets_in : forall k, 0 <= k < size -> In k (offsets size).
Proof. intros k K. unfold offsets. apply in_map_iff. exists (Z.to_nat k). split; [lia|]. apply in_seq. lia. Qed.
Lemma offsets_range : range (offsets size).
Proof. apply Forall_forall. intros k K. unfold offsets in K. apply in_map_iff in K as (n & <- & K). apply in_seq in K. lia. Qed.

Lemma inv_init : inv [] init [] 0 0 0.
Proof.
  pose proof (num_pos num size QA) as NP. constructor; cbn [init q_mem q_pbuf q_cbuf q_prod q_cons q_fault]; auto.
  - change (zlen (@nil bytes)) with 0. lia.
  - intros p q E. symmetry in E. apply app_eq_nil in E as [-> _]. change (heads []) with 0. split; [symmetry; apply Z.mod_0_l; lia|]. intros i it X. lia.
  - intros p q E. symmetry in E. apply app_eq_nil in E as [-> _]. change (zlen (@nil (loc * Z))) with 0. symmetry. apply Z.mod_0_l. lia.
  - cbn [pinv]. change (zlen (@nil bytes)) with 0. cbn. repeat split; auto. lia.
  - cbn [cinv]. cbn. repeat split; auto. lia.
Qed.
End Inv.
