(** ProofHeap.v: the heap model refines the value model of ModelParse.v and keeps track of every block. *)
From Verif Require Import Base Lib ModelName ModelDescr ModelParse ModelHeap SpecHeap.
From Coq Require Import Permutation.

(** ** Permutations of footprints, by counting *)
Lemma hrr_dec : forall a b : hrr, {a = b} + {a <> b}.
Proof. decide equality; apply Z.eq_dec. Defined.
Lemma hset_dec : forall a b : hset, {a = b} + {a <> b}.
Proof. decide equality; apply Z.eq_dec. Defined.
Lemma cell_dec : forall a b : cell, {a = b} + {a <> b}.
Proof.
  decide equality; try (apply list_eq_dec; first [apply Z.eq_dec | apply hrr_dec | apply hset_dec]); apply Z.eq_dec.
Defined.
Lemma pc_dec : forall a b : ptr * cell, {a = b} + {a <> b}.
Proof. decide equality; [apply cell_dec|apply Z.eq_dec]. Defined.

Definition cnt (x : ptr * cell) (l : list (ptr * cell)) : nat := count_occ pc_dec l x.
Definition one (x a : ptr * cell) : nat := if pc_dec a x then 1%nat else 0%nat.
Lemma cnt_nil : forall x, cnt x [] = 0%nat. Proof. reflexivity. Qed.
Lemma cnt_cons : forall x a l, cnt x (a :: l) = (one x a + cnt x l)%nat.
Proof. intros. unfold cnt, one. cbn. destruct (pc_dec a x); reflexivity. Qed.
Lemma cnt_app : forall x l m, cnt x (l ++ m) = (cnt x l + cnt x m)%nat.
Proof. intros. unfold cnt. apply count_occ_app. Qed.
Lemma perm_cnt : forall l m, (forall x, cnt x l = cnt x m) -> Permutation l m.
Proof. intros l m H. apply (Permutation_count_occ pc_dec). exact H. Qed.
Lemma cnt_perm : forall l m x, Permutation l m -> cnt x l = cnt x m.
Proof. intros l m x H. apply (Permutation_count_occ pc_dec); auto. Qed.
Ltac perm := cbn [app]; apply perm_cnt; let x := fresh in intros x; repeat (rewrite ?cnt_app, ?cnt_cons, ?cnt_nil); lia.

(** ** Heap primitives *)
Lemma find_in : forall p c l, NoDup (map fst l) -> In (p, c) l -> find_cell p l = Some c.
Proof.
  intros p c l. induction l as [|(q, d) l IH]; intros N I; [destruct I|]. cbn [find_cell map fst] in *. inversion N; subst.
  destruct I as [I|I].
  - injection I as -> ->. rewrite Z.eqb_refl. reflexivity.
  - destruct (q =? p) eqn:Q; auto. assert (q = p) by lia. subst q. exfalso. apply H1. apply (in_map fst) in I. exact I.
Qed.

Lemma drop_perm : forall p l m, Permutation l m -> Permutation (drop_cell p l) (drop_cell p m).
Proof.
  intros p l m P. unfold drop_cell. induction P; cbn [filter]; auto.
  - destruct (negb (fst x =? p)); [apply perm_skip|]; exact IHP.
  - destruct (negb (fst y =? p)), (negb (fst x =? p)); try apply Permutation_refl. apply perm_swap.
  - etransitivity; eauto.
Qed.

Lemma drop_absent : forall p l, ~ In p (map fst l) -> drop_cell p l = l.
Proof.
  intros p l. unfold drop_cell. induction l as [|(q, c) l IH]; intros N; auto. cbn [filter fst map] in *.
  destruct (q =? p) eqn:Q; cbn [negb].
  - exfalso. apply N. left. lia.
  - f_equal. apply IH. intros X. apply N. right. auto.
Qed.

Lemma owns_perm : forall h L M, owns h L -> Permutation L M -> owns h M.
Proof. intros h L M (A & B) P. split; auto. etransitivity; eauto. Qed.

Lemma owns_self : forall h, heap_ok h -> owns h (h_live h).
Proof. intros h H. split; auto. Qed.

Lemma owns_nodup : forall h L, owns h L -> NoDup (map fst L) /\ Forall (fun x => 0 < fst x < h_next h) L.
Proof.
  intros h L ((A & B & _) & P). split.
  - eapply Permutation_NoDup; [apply Permutation_map; exact P|exact A].
  - eapply Permutation_Forall; eauto.
Qed.

Lemma owns_ptr : forall h L p c, owns h L -> In (p, c) L -> 0 < p.
Proof.
  intros h L p c O I. apply owns_nodup in O as (_ & F). rewrite Forall_forall in F. apply F in I. cbn in I. lia.
Qed.

Lemma alloc_spec : forall h L c, owns h L -> exists p h', alloc c h = HOk p h' /\ p <> 0 /\ owns h' ((p, c) :: L).
Proof.
  intros h L c ((A & B & N) & P). eexists. eexists. split; [reflexivity|]. split; [lia|]. split.
  - split; [|split]; cbn [h_live h_next map fst].
    + constructor; auto. intros X. apply in_map_iff in X as (y & E & I). rewrite Forall_forall in B. apply B in I. lia.
    + constructor; [cbn [fst]; lia|]. eapply Forall_impl; [|exact B]. intros a X. cbv beta in *. lia.
    + lia.
  - cbn [h_live]. constructor. exact P.
Qed.

Lemma load_spec : forall h L p c, owns h L -> In (p, c) L -> load p h = HOk c h.
Proof.
  intros h L p c O I. pose proof (owns_ptr h L p c O I). unfold load. replace (p =? 0) with false by lia.
  destruct O as ((A & _) & P). rewrite (find_in p c); auto. eapply Permutation_in; [symmetry; exact P|exact I].
Qed.

Lemma drop_owns : forall h L p c, owns h ((p, c) :: L) ->
  p <> 0 /\ find_cell p (h_live h) = Some c /\ owns (mkHeap (h_next h) (drop_cell p (h_live h))) L.
Proof.
  intros h L p c O. pose proof (owns_ptr h _ p c O (or_introl eq_refl)).
  assert (F : find_cell p (h_live h) = Some c).
  { destruct O as ((A & _) & P). apply find_in; auto. eapply Permutation_in; [symmetry; exact P|left; reflexivity]. }
  split; [lia|]. split; auto.
  pose proof (owns_nodup h _ O) as (N & B). cbn [map fst] in N. inversion N; subst. inversion B; subst.
  destruct O as ((A & BB & NX) & P).
  assert (Q : Permutation (drop_cell p (h_live h)) L).
  { apply (drop_perm p) in P. unfold drop_cell in P at 2. cbn [filter fst] in P. rewrite Z.eqb_refl in P. cbn [negb] in P.
    fold (drop_cell p L) in P. rewrite (drop_absent p L) in P by auto. exact P. }
  split; [split; [|split]|]; cbn [h_live h_next]; auto.
  - eapply Permutation_NoDup; [apply Permutation_map; symmetry; exact Q|]. auto.
  - eapply Permutation_Forall; [symmetry; exact Q|]. auto.
Qed.

Lemma free_spec : forall h L p c, owns h ((p, c) :: L) -> exists h', free p h = HOk tt h' /\ owns h' L.
Proof.
  intros h L p c O. destruct (drop_owns h L p c O) as (Z & F & O'). unfold free. replace (p =? 0) with false by lia. rewrite F.
  eexists. split; [reflexivity|exact O'].
Qed.

Lemma store_spec : forall h L p c d, owns h ((p, c) :: L) -> exists h', store p d h = HOk tt h' /\ owns h' ((p, d) :: L).
Proof.
  intros h L p c d O. destruct (drop_owns h L p c O) as (Z & F & O'). pose proof (owns_nodup h _ O) as (N & B).
  unfold store. replace (p =? 0) with false by lia. rewrite F. eexists. split; [reflexivity|].
  inversion N; subst. inversion B; subst. destruct O' as ((A & BB & NX) & P). cbn [h_live h_next] in *. split; [split; [|split]|]; cbn [h_live h_next map fst].
  - constructor; auto. intros X. apply H1. eapply Permutation_in; [apply Permutation_map; exact P|exact X].
  - constructor; auto.
  - auto.
  - constructor. exact P.
Qed.

(** ** Simulation of a value computation by a heap computation *)
Definition sim {A B} (o : outcome A) (e : hm B) (h : heap) (Q : A -> B -> heap -> Prop) (E : heap -> Prop) : Prop :=
  match o with
  | Ok a => exists b h', e h = HOk b h' /\ Q a b h'
  | Err r => exists h', e h = HErr r h' /\ E h'
  | UB f => e h = HUB (PureFault f)
  | NoFuel => e h = HNoFuel
  end.

Lemma sim_bind : forall A B A' B' (o : outcome A) (e : hm B) h Q E (k : A -> outcome A') (k' : B -> hm B') Q' E',
  sim o e h Q E -> (forall a b h', o = Ok a -> Q a b h' -> sim (k a) (k' b) h' Q' E') -> (forall h', E h' -> E' h') ->
  sim (bind o k) (hbind e k') h Q' E'.
Proof.
  intros A B A' B' o e h Q E k k' Q' E' S K X. destruct o as [a|r|f|]; cbn [sim bind] in *; unfold hbind.
  - destruct S as (b & h' & E1 & q). specialize (K a b h' eq_refl q). unfold sim in *.
    destruct (k a); rewrite E1; exact K.
  - destruct S as (h' & -> & q). eauto.
  - rewrite S. reflexivity.
  - rewrite S. reflexivity.
Qed.

Lemma sim_lift : forall A (o : outcome A) h (E : heap -> Prop), E h -> sim o (lift o) h (fun a b h' => b = a /\ h' = h) E.
Proof. intros A [a|r|f|] h E H; cbn [sim lift]; eauto. Qed.

(** [wp e h Q]: e succeeds on h and Q holds of the result. *)
Definition wp {A} (e : hm A) (h : heap) (Q : A -> heap -> Prop) : Prop := exists a h', e h = HOk a h' /\ Q a h'.

Lemma wp_bind : forall A B (e : hm A) (k : A -> hm B) h Q, wp e h (fun a h' => wp (k a) h' Q) -> wp (hbind e k) h Q.
Proof. intros A B e k h Q (a & h1 & E & b & h2 & E2 & q). exists b, h2. unfold hbind. rewrite E. auto. Qed.
Lemma wp_ret : forall A (a : A) h (Q : A -> heap -> Prop), Q a h -> wp (ret a) h Q.
Proof. intros. exists a, h. auto. Qed.
Lemma wp_alloc : forall c h L (Q : ptr -> heap -> Prop), owns h L -> (forall p h', p <> 0 -> owns h' ((p, c) :: L) -> Q p h') -> wp (alloc c) h Q.
Proof. intros c h L Q O K. destruct (alloc_spec h L c O) as (p & h' & E & N & O'). exists p, h'. auto. Qed.
Lemma wp_free : forall p c h L M (Q : unit -> heap -> Prop), owns h M -> Permutation M ((p, c) :: L) -> (forall h', owns h' L -> Q tt h') -> wp (free p) h Q.
Proof.
  intros p c h L M Q O P K. pose proof (owns_perm h _ _ O P) as O2. destruct (free_spec h L p c O2) as (h' & E & O'). exists tt, h'. auto.
Qed.
Lemma wp_free_null : forall h (Q : unit -> heap -> Prop), Q tt h -> wp (free 0) h Q.
Proof. intros h Q H. exists tt, h. auto. Qed.
Lemma wp_store : forall p c d h L M (Q : unit -> heap -> Prop), owns h M -> Permutation M ((p, c) :: L) -> (forall h', owns h' ((p, d) :: L) -> Q tt h') -> wp (store p d) h Q.
Proof.
  intros p c d h L M Q O P K. pose proof (owns_perm h _ _ O P) as O2. destruct (store_spec h L p c d O2) as (h' & E & O'). exists tt, h'. auto.
Qed.
Lemma wp_load : forall p c h M (Q : cell -> heap -> Prop), owns h M -> In (p, c) M -> Q c h -> wp (load p) h Q.
Proof. intros p c h M Q O I K. exists c, h. split; auto. eapply load_spec; eauto. Qed.
Lemma wp_mono : forall A (e : hm A) h (Q R : A -> heap -> Prop), wp e h Q -> (forall a h', Q a h' -> R a h') -> wp e h R.
Proof. intros A e h Q R (a & h' & E & q) K. exists a, h'. auto. Qed.

Ltac wpl := apply wp_bind; eapply wp_load; [eassumption|eassumption|apply wp_ret; auto].
Lemma wp_load_bytes : forall p l h M (Q : bytes -> heap -> Prop), owns h M -> In (p, CBytes l) M -> Q l h -> wp (load_bytes p) h Q.
Proof. intros. unfold load_bytes. wpl. Qed.
Lemma wp_load_rdata : forall p l h M (Q : bytes -> heap -> Prop), owns h M -> In (p, CRdata l) M -> Q l h -> wp (load_rdata_h p) h Q.
Proof. intros. unfold load_rdata_h. wpl. Qed.
Lemma wp_load_rrs : forall p l h M (Q : list hrr -> heap -> Prop), owns h M -> In (p, CRRs l) M -> Q l h -> wp (load_rrs p) h Q.
Proof. intros. unfold load_rrs. wpl. Qed.
Lemma wp_load_sets : forall p l h M (Q : list hset -> heap -> Prop), owns h M -> In (p, CSets l) M -> Q l h -> wp (load_sets p) h Q.
Proof. intros. unfold load_sets. wpl. Qed.
Lemma wp_load_ptrs : forall p l h M (Q : list ptr -> heap -> Prop), owns h M -> In (p, CPtrs l) M -> Q l h -> wp (load_ptrs p) h Q.
Proof. intros. unfold load_ptrs. wpl. Qed.
Lemma wp_load_ubuf : forall p d h M (Q : ptr -> heap -> Prop), owns h M -> In (p, CUbuf d) M -> Q d h -> wp (load_ubuf p) h Q.
Proof. intros. unfold load_ubuf. wpl. Qed.

Lemma wp_elem : forall A (l1 : list A) a l2 i h (Q : A -> heap -> Prop), zlen l1 = i -> Q a h -> wp (elem (l1 ++ a :: l2) i) h Q.
Proof.
  intros A l1 a l2 i h Q <- K. unfold elem. pose proof (zlen_nonneg _ l1). replace (zlen l1 <? 0) with false by lia.
  rewrite zlen_to_nat, nth_error_app2, Nat.sub_diag by lia. cbn [nth_error]. apply wp_ret. exact K.
Qed.
Lemma wp_upd : forall A (l1 : list A) a b l2 i h (Q : list A -> heap -> Prop), zlen l1 = i -> Q (l1 ++ b :: l2) h -> wp (upd (l1 ++ a :: l2) i b) h Q.
Proof.
  intros A l1 a b l2 i h Q <- K. unfold upd. pose proof (zlen_nonneg _ l1). pose proof (zlen_nonneg _ l2).
  rewrite zlen_app, zlen_cons. replace ((zlen l1 <? 0) || (zlen l1 + (zlen l2 + 1) <=? zlen l1)) with false by lia.
  rewrite zlen_to_nat. replace (firstn (length l1) (l1 ++ a :: l2)) with l1.
  - replace (skipn (length l1 + 1) (l1 ++ a :: l2)) with l2; [apply wp_ret; exact K|].
    rewrite skipn_app. rewrite skipn_all2 by lia. replace (length l1 + 1 - length l1)%nat with 1%nat by lia. reflexivity.
  - rewrite firstn_app, Nat.sub_diag, firstn_all. cbn [firstn]. rewrite app_nil_r. reflexivity.
Qed.

Lemma block_some : forall p c, p <> 0 -> block p c = [(p, c)].
Proof. intros p c H. unfold block. replace (p =? 0) with false by lia. reflexivity. Qed.
Lemma block_null : forall c, block 0 c = []. Proof. reflexivity. Qed.

(** ** Clearing *)
Lemma wp_free_block : forall p c h L M (Q : unit -> heap -> Prop), owns h M -> Permutation M (block p c ++ L) ->
  (forall h', owns h' L -> Q tt h') -> wp (free p) h Q.
Proof.
  intros p c h L M Q O P K. unfold block in P. destruct (p =? 0) eqn:Z.
  - assert (p = 0) by lia. subst p. apply wp_free_null. apply K. eapply owns_perm; eauto.
  - eapply wp_free; eauto.
Qed.

Lemma clear_rr_wp : forall r x fp h L (Q : hrr -> heap -> Prop), own_rr r x fp -> owns h (fp ++ L) ->
  (forall h', owns h' L -> Q (mkHrr (hr_len x) 0 (hr_type x) (hr_class x) (hr_ttl x) 0) h') -> wp (clear_rr_h x) h Q.
Proof.
  intros r x fp h L Q (E1 & _ & _ & _ & _ & E2) O K. unfold clear_rr_h. apply wp_bind.
  destruct (rr_rdata r) as [d|].
  - subst fp. eapply wp_free; [exact O|cbn [app]; reflexivity|]. intros h1 O1. apply wp_bind.
    eapply wp_free; [exact O1|reflexivity|]. intros h2 O2. apply wp_ret. auto.
  - destruct E2 as (E2 & ->). rewrite E2. eapply wp_free; [exact O|cbn [app]; reflexivity|]. intros h1 O1. apply wp_bind.
    apply wp_free_null. apply wp_ret. auto.
Qed.

Lemma wp_hfor_S : forall n i body h Q, wp (body i) h (fun _ h' => wp (hfor n (i + 1) body) h' Q) -> wp (hfor (S n) i body) h Q.
Proof. intros. cbn [hfor]. apply wp_bind. eapply wp_mono; [eassumption|]. auto. Qed.

Lemma clear_rdatas_wp : forall ds ps dn p h L (Q : unit -> heap -> Prop), length ps = length ds ->
  owns h ((p, CPtrs (dn ++ ps)) :: combine ps (map CRdata ds) ++ L) ->
  (forall h', owns h' ((p, CPtrs (dn ++ repeat 0 (length ps))) :: L) -> Q tt h') ->
  wp (hfor (length ds) (zlen dn) (clear_rrset_rdata p)) h Q.
Proof.
  induction ds as [|d ds IH]; intros [|q ps] dn p h L Q LE O K; try discriminate.
  - cbn [hfor length]. apply wp_ret. apply K. cbn [repeat length]. eapply owns_perm; [exact O|]. cbn [map combine app]. reflexivity.
  - cbn [length]. apply wp_hfor_S. unfold clear_rrset_rdata at 1. cbn [map combine app] in O.
    apply wp_bind. eapply wp_load_ptrs; [exact O|left; reflexivity|].
    apply wp_bind. eapply wp_elem; [reflexivity|].
    apply wp_bind. eapply wp_free; [exact O|apply perm_swap|]. intros h1 O1.
    apply wp_bind. eapply wp_upd; [reflexivity|].
    eapply wp_store; [exact O1|reflexivity|]. intros h2 O2.
    assert (EQ : dn ++ 0 :: ps = (dn ++ [0]) ++ ps) by (rewrite <- app_assoc; reflexivity).
    rewrite EQ in O2. replace (zlen dn + 1) with (zlen (dn ++ [0])) by (rewrite zlen_app; reflexivity).
    eapply (IH ps); [cbn [length] in LE; lia|exact O2|]. intros h3 O3. apply K. rewrite <- app_assoc in O3. exact O3.
Qed.

Lemma zlen_nat : forall A (l : list A) x, x = zlen l -> Z.to_nat x = length l.
Proof. intros; subst; apply zlen_to_nat. Qed.

Lemma clear_rrset_wp : forall s x fp h L (Q : hset -> heap -> Prop), own_set s x fp -> owns h (fp ++ L) ->
  (forall h', owns h' L -> Q (mkHset (hs_len x) 0 (hs_type x) (hs_class x) (hs_ttl x) 0 0) h') -> wp (clear_rrset_h x) h Q.
Proof.
  intros s x fp h L Q (E1 & _ & _ & _ & _ & N & ps & LE & NZ & ->) O K. unfold clear_rrset_h.
  rewrite (zlen_nat _ (rs_rdatas s)) by auto. apply wp_bind.
  assert (ALL : exists junk, wp (hfor (length (rs_rdatas s)) 0 (clear_rrset_rdata (hs_rdatas x))) h (fun _ h' =>
    owns h' ((hs_name x, CBytes (rs_name s)) :: block (hs_rdatas x) junk ++ L))).
  { destruct (Z.eq_dec (hs_rdatas x) 0) as [Z|Z].
    - specialize (NZ Z). subst ps. destruct (rs_rdatas s) as [|d ds]; [|discriminate]. exists (CPtrs []). cbn [length hfor]. apply wp_ret.
      rewrite Z in *. cbn [block app combine map Z.eqb] in *. rewrite ?app_nil_r in *. exact O.
    - rewrite (block_some _ _ Z) in O. exists (CPtrs (repeat 0 (length ps))). rewrite (block_some _ _ Z).
      eapply (clear_rdatas_wp (rs_rdatas s) ps [] (hs_rdatas x) h ((hs_name x, CBytes (rs_name s)) :: L)); [auto| |].
      + eapply owns_perm; [exact O|]. perm.
      + intros h' O'. eapply owns_perm; [exact O'|]. cbn [app]. perm. }
  destruct ALL as (junk & W). eapply wp_mono; [exact W|]. clear W. intros [] h1 O1. cbv beta in O1. apply wp_bind.
  eapply wp_free; [exact O1|reflexivity|]. intros h2 O2. apply wp_bind.
  eapply wp_free_block; [exact O2|reflexivity|]. intros h3 O3. apply wp_ret. auto.
Qed.

Definition cleared_rr (x : hrr) : hrr := mkHrr (hr_len x) 0 (hr_type x) (hr_class x) (hr_ttl x) 0.
Definition cleared_set (x : hset) : hset := mkHset (hs_len x) 0 (hs_type x) (hs_class x) (hs_ttl x) 0 0.

Lemma clear_rrs_wp : forall rs xs f, own_list own_rr rs xs f -> forall dn p h L (Q : unit -> heap -> Prop),
  owns h ((p, CRRs (dn ++ xs)) :: f ++ L) ->
  (forall h', owns h' ((p, CRRs (dn ++ map cleared_rr xs)) :: L) -> Q tt h') ->
  wp (hfor (length xs) (zlen dn) (clear_array_rr p)) h Q.
Proof.
  intros rs xs f OL. induction OL as [|r rs x xs f g OR OL IH]; intros dn p h L Q O K.
  - cbn [hfor length]. apply wp_ret. apply K. exact O.
  - cbn [length]. apply wp_hfor_S. unfold clear_array_rr at 1.
    apply wp_bind. eapply wp_load_rrs; [exact O|left; reflexivity|].
    apply wp_bind. eapply wp_elem; [reflexivity|].
    apply wp_bind. eapply (clear_rr_wp r x f h ((p, CRRs (dn ++ x :: xs)) :: g ++ L)); [exact OR|eapply owns_perm; [exact O|perm]|]. intros h1 O1.
    apply wp_bind. eapply wp_load_rrs; [exact O1|left; reflexivity|].
    apply wp_bind. eapply wp_upd; [reflexivity|].
    eapply wp_store; [exact O1|reflexivity|]. intros h2 O2. fold (cleared_rr x) in O2.
    assert (EQ : dn ++ cleared_rr x :: xs = (dn ++ [cleared_rr x]) ++ xs) by (rewrite <- app_assoc; reflexivity).
    rewrite EQ in O2. replace (zlen dn + 1) with (zlen (dn ++ [cleared_rr x])) by (rewrite zlen_app; reflexivity).
    eapply IH; [exact O2|]. intros h3 O3. apply K. rewrite <- app_assoc in O3. exact O3.
Qed.

Lemma clear_sets_wp : forall rs xs f, own_list own_set rs xs f -> forall dn p h L (Q : unit -> heap -> Prop),
  owns h ((p, CSets (dn ++ xs)) :: f ++ L) ->
  (forall h', owns h' ((p, CSets (dn ++ map cleared_set xs)) :: L) -> Q tt h') ->
  wp (hfor (length xs) (zlen dn) (clear_array_set p)) h Q.
Proof.
  intros rs xs f OL. induction OL as [|r rs x xs f g OR OL IH]; intros dn p h L Q O K.
  - cbn [hfor length]. apply wp_ret. apply K. exact O.
  - cbn [length]. apply wp_hfor_S. unfold clear_array_set at 1.
    apply wp_bind. eapply wp_load_sets; [exact O|left; reflexivity|].
    apply wp_bind. eapply wp_elem; [reflexivity|].
    apply wp_bind. eapply (clear_rrset_wp r x f h ((p, CSets (dn ++ x :: xs)) :: g ++ L)); [exact OR|eapply owns_perm; [exact O|perm]|]. intros h1 O1.
    apply wp_bind. eapply wp_load_sets; [exact O1|left; reflexivity|].
    apply wp_bind. eapply wp_upd; [reflexivity|].
    eapply wp_store; [exact O1|reflexivity|]. intros h2 O2. fold (cleared_set x) in O2.
    assert (EQ : dn ++ cleared_set x :: xs = (dn ++ [cleared_set x]) ++ xs) by (rewrite <- app_assoc; reflexivity).
    rewrite EQ in O2. replace (zlen dn + 1) with (zlen (dn ++ [cleared_set x])) by (rewrite zlen_app; reflexivity).
    eapply IH; [exact O2|]. intros h3 O3. apply K. rewrite <- app_assoc in O3. exact O3.
Qed.

Lemma own_list_nil : forall A B (own : A -> B -> list (ptr * cell) -> Prop) l f, own_list own l [] f -> l = [] /\ f = [].
Proof. intros A B own l f H. inversion H. auto. Qed.

Lemma clear_array_wp : forall a x fp h L (Q : harr -> heap -> Prop), own_arr a x fp -> owns h (fp ++ L) ->
  (forall h', owns h' L -> Q harr0 h') -> wp (clear_array_h x) h Q.
Proof.
  intros a x fp h L Q (xs & f1 & ys & f2 & O1 & O2 & N1 & N2 & Z1 & Z2 & ->) O K. unfold clear_array_h.
  rewrite (zlen_nat _ xs) by auto. rewrite (zlen_nat _ ys) by auto. apply wp_bind.
  assert (W1 : exists junk, wp (hfor (length xs) 0 (clear_array_rr (ha_rrs x))) h (fun _ h' =>
    owns h' (block (ha_rrs x) junk ++ block (ha_sets x) (CSets ys) ++ f2 ++ L))).
  { destruct (Z.eq_dec (ha_rrs x) 0) as [Z|Z].
    - specialize (Z1 Z). subst xs. apply own_list_nil in O1 as (_ & ->). exists (CRRs []). cbn [length hfor]. apply wp_ret.
      rewrite Z in *. eapply owns_perm; [exact O|]. cbn [block Z.eqb app]. perm.
    - rewrite (block_some _ _ Z) in *. exists (CRRs (map cleared_rr xs)). rewrite (block_some _ _ Z).
      eapply (clear_rrs_wp _ _ _ O1 [] (ha_rrs x) h (block (ha_sets x) (CSets ys) ++ f2 ++ L)).
      + eapply owns_perm; [exact O|]. perm.
      + intros h' O'. exact O'. }
  destruct W1 as (junk & W1). eapply wp_mono; [exact W1|]. clear W1 O. intros [] h1 O. cbv beta in O. apply wp_bind.
  eapply wp_free_block; [exact O|reflexivity|]. clear O. intros h2 O. apply wp_bind.
  assert (W2 : exists junk, wp (hfor (length ys) 0 (clear_array_set (ha_sets x))) h2 (fun _ h' => owns h' (block (ha_sets x) junk ++ L))).
  { destruct (Z.eq_dec (ha_sets x) 0) as [Z|Z].
    - specialize (Z2 Z). subst ys. apply own_list_nil in O2 as (_ & ->). exists (CSets []). cbn [length hfor]. apply wp_ret.
      rewrite Z in *. exact O.
    - rewrite (block_some _ _ Z) in *. exists (CSets (map cleared_set ys)). rewrite (block_some _ _ Z).
      eapply (clear_sets_wp _ _ _ O2 [] (ha_sets x) h2 L).
      + eapply owns_perm; [exact O|]. perm.
      + intros h' O'. exact O'. }
  destruct W2 as (junk2 & W2). eapply wp_mono; [exact W2|]. clear W2 O. intros [] h3 O. cbv beta in O. apply wp_bind.
  eapply wp_free_block; [exact O|reflexivity|]. intros h4 O4. apply wp_ret. auto.
Qed.

Lemma own_arr_empty : own_arr empty_array harr0 [].
Proof. exists [], [], [], []. repeat split; try constructor. Qed.

Lemma clear_message_wp : forall m x fp h L (Q : hmsg -> heap -> Prop), own_msg m x fp -> owns h (fp ++ L) ->
  (forall x' h', own_msg (clear_message m) x' [] -> owns h' L -> Q x' h') -> wp (clear_message_h x) h Q.
Proof.
  intros m x fp h L Q (f0 & f1 & f2 & f3 & O0 & O1 & O2 & O3 & P & V & F & S & I & FL & RC & OP) O K.
  unfold clear_message_h. apply wp_bind.
  assert (W : wp (free (hm_options x)) h (fun _ h' => owns h' (f0 ++ f1 ++ f2 ++ f3 ++ L))).
  { destruct (e_options (m_edns m)) as [d|].
    - subst fp. eapply wp_free; [exact O|cbn [app]; reflexivity|]. intros h' O'. eapply owns_perm; [exact O'|]. perm.
    - destruct OP as (-> & ->). apply wp_free_null. eapply owns_perm; [exact O|]. perm. }
  eapply wp_mono; [exact W|]. clear W O. intros [] h1 O. cbv beta in O.
  apply wp_bind. eapply clear_array_wp; [exact O0|exact O|]. clear O. intros h2 O.
  apply wp_bind. eapply clear_array_wp; [exact O1|exact O|]. clear O. intros h3 O.
  apply wp_bind. eapply clear_array_wp; [exact O2|exact O|]. clear O. intros h4 O.
  apply wp_bind. eapply clear_array_wp; [exact O3|exact O|]. clear O. intros h5 O.
  apply wp_ret. apply K; auto.
  exists [], [], [], []. cbn. pose proof own_arr_empty. repeat (split; [auto|]). auto.
Qed.
