(** ProofHeap7.v: wdns_serialize_rrset, wdns_downcase_rrset and wdns_sort_rrset on the heap. *)
From Verif Require Import Base Lib ModelName ModelDescr ModelParse Libc ModelFormat ModelTables ModelRRset ModelToStr ModelFromStr
  ModelHeap SpecHeap SpecRRset ProofRRset ProofHeap ProofHeap2 ModelHeap2 ProofHeap4 ProofHeap5.
From Coq Require Import Permutation.

(** ** Serialisation reads the RRset and changes nothing. *)
Lemma ser_rdatas_wp : forall big cap x ds ps dn out o h M, In (hs_rdatas x, CPtrs (dn ++ ps)) M -> length ps = length ds -> incl (combine ps (map CRdata ds)) M ->
  owns h M -> serialize_rdatas big cap out ds = Ok o -> ser_rdatas_h (length ds) (zlen dn) big cap x out h = HOk o h.
Proof.
  intros big cap x ds. induction ds as [|d ds IH]; intros [|p ps] dn out o h M IP LE IR O E; try discriminate; cbn [length ser_rdatas_h serialize_rdatas] in *.
  - injection E as <-. reflexivity.
  - cbv zeta in E. apply bind_ok in E as (o1 & E1 & E). apply bind_ok in E as (o2 & E2 & E).
    assert (W : wp (ps0 <-- load_ptrs (hs_rdatas x) ;;; q <-- elem ps0 (zlen dn) ;;; load_rdata_h q) h (fun d' h' => d' = d /\ h' = h)).
    { apply wp_bind. eapply wp_load_ptrs; [exact O|exact IP|]. apply wp_bind. eapply wp_elem; [reflexivity|].
      eapply wp_load_rdata; [exact O|apply IR; left; reflexivity|auto]. }
    destruct W as (d' & h' & W & -> & ->). unfold hbind in *.
    destruct (load_ptrs (hs_rdatas x) h) as [ps1 h1|?|?|]; try discriminate. destruct (elem ps1 (zlen dn) h1) as [q h2|?|?|]; try discriminate. rewrite W.
    rewrite E1. cbn [lift]. rewrite E2. cbn [lift]. replace (zlen dn + 1) with (zlen (dn ++ [p])) by (rewrite zlen_app; reflexivity).
    eapply (IH ps (dn ++ [p])); [rewrite <- app_assoc; exact IP|lia|intros z Z; apply IR; right; exact Z|exact O|exact E].
Qed.

Lemma serialize_h_ok : forall big cap s x fp h L out, own_set s x fp -> owns h (fp ++ L) -> serialize_rrset big cap s = Ok out ->
  serialize_h big cap x h = HOk out h.
Proof.
  intros big cap s x fp h L out (A & _ & B & C & D & N & ps & LP & NZ & ->) O E. unfold serialize_rrset, serialize_h in *.
  assert (W : wp (load_bytes (hs_name x)) h (fun l h' => l = rs_name s /\ h' = h)).
  { eapply wp_load_bytes; [exact O|left; reflexivity|auto]. }
  destruct W as (l & h' & W & -> & ->). unfold hbind at 1. rewrite W. rewrite A, B, C, D, N.
  apply bind_ok in E as (o1 & E1 & E). unfold hbind at 1. rewrite E1. cbn [lift].
  apply bind_ok in E as (o2 & E2 & E). unfold hbind at 1. rewrite E2. cbn [lift].
  apply bind_ok in E as (o3 & E3 & E). unfold hbind at 1. rewrite E3. cbn [lift].
  apply bind_ok in E as (o4 & E4 & E). unfold hbind at 1. rewrite E4. cbn [lift].
  apply bind_ok in E as (o5 & E5 & E). unfold hbind at 1. rewrite E5. cbn [lift].
  apply bind_ok in E as (o6 & E6 & E). unfold hbind at 1. rewrite E6. cbn [lift].
  rewrite zlen_to_nat. destruct (rs_rdatas s) as [|d ds] eqn:R.
  - cbn [length ser_rdatas_h serialize_rdatas] in *. injection E as <-. reflexivity.
  - change 0 with (zlen (@nil Z)). destruct ps as [|p ps]; [discriminate LP|].
    assert (NR : hs_rdatas x <> 0) by (intros X; apply NZ in X; discriminate). rewrite (block_some _ _ NR) in O.
    eapply (ser_rdatas_wp big cap x (d :: ds) (p :: ps) []); [|exact LP| |exact O|exact E].
    + right. left. reflexivity.
    + intros z Z. right. right. apply in_app_iff. left. exact Z.
Qed.

(** ** Case folding in place *)
Lemma down_rdatas_wp : forall x t k ds ps dn r ds' h M, hs_type x = t -> hs_class x = k -> length ps = length ds -> hs_rdatas x <> 0 ->
  owns h ((hs_rdatas x, CPtrs (dn ++ ps)) :: combine ps (map CRdata ds) ++ M) -> downcase_rdatas ds t k = Ok (r, ds') ->
  wp (down_rdatas_h (length ds) (zlen dn) x) h (fun r' h' => r' = r /\ length ds' = length ds /\ owns h' ((hs_rdatas x, CPtrs (dn ++ ps)) :: combine ps (map CRdata ds') ++ M)).
Proof.
  intros x t k ds. induction ds as [|d ds IH]; intros [|p ps] dn r ds' h M ET EK LE NR O E; try discriminate; cbn [length down_rdatas_h downcase_rdatas] in *.
  - injection E as <- <-. apply wp_ret. auto.
  - apply bind_ok in E as ((r1, d1) & E1 & E).
    apply wp_bind. eapply wp_load_ptrs; [exact O|left; reflexivity|].
    apply wp_bind. eapply wp_elem; [reflexivity|]. cbn [map combine app] in O.
    replace (p =? 0) with false by (symmetry; apply Z.eqb_neq; apply (owns_ptr h _ p (CRdata d)) in O; [lia|right; left; reflexivity]).
    apply wp_bind. eapply wp_load_rdata; [exact O|right; left; reflexivity|].
    apply wp_bind. rewrite ET, EK. eapply wp_lift; [exact E1|]. cbn [fst snd].
    apply wp_bind. eapply wp_store; [exact O|apply perm_swap|]. intros h1 O1.
    assert (STOP : r1 <> res_success -> Ok (r1, d1 :: ds) = Ok (r, ds') -> wp (ret r1) h1 (fun r' h' => r' = r /\ length ds' = S (length ds) /\
      owns h' ((hs_rdatas x, CPtrs (dn ++ p :: ps)) :: combine (p :: ps) (map CRdata ds') ++ M))).
    { intros _ X. injection X as <- <-. apply wp_ret. split; [reflexivity|]. split; [reflexivity|]. cbn [map combine app]. eapply owns_perm; [exact O1|apply perm_swap]. }
    destruct r1; try (apply STOP; [discriminate|exact E]). clear STOP.
    apply bind_ok in E as ((r2, ds2) & E2 & E). injection E as <- <-.
    replace (zlen dn + 1) with (zlen (dn ++ [p])) by (rewrite zlen_app; reflexivity).
    assert (SN : dn ++ p :: ps = (dn ++ [p]) ++ ps) by (rewrite <- app_assoc; reflexivity).
    assert (O2 : owns h1 ((hs_rdatas x, CPtrs ((dn ++ [p]) ++ ps)) :: combine ps (map CRdata ds) ++ (p, CRdata d1) :: M)).
    { rewrite <- SN. eapply owns_perm; [exact O1|]. perm. }
    eapply wp_mono; [eapply (IH ps (dn ++ [p])); [exact ET|exact EK|lia|exact NR|exact O2|exact E2]|].
    intros r' h2 (-> & LD & O3). split; [reflexivity|]. split; [cbn [length]; lia|]. cbn [map combine app]. rewrite SN. eapply owns_perm; [exact O3|]. perm.
Qed.

Lemma downcase_loop_all : forall l, downcase_loop (length l) l = Ok (map dc l).
Proof. induction l as [|c l IH]; cbn; auto. rewrite IH. reflexivity. Qed.

Lemma downcase_h_wp : forall s x fp h L r s', own_set s x fp -> owns h (fp ++ L) -> downcase_rrset s = Ok (r, s') ->
  wp (downcase_h x) h (fun r' h' => r' = r /\ exists fp', own_set s' x fp' /\ owns h' (fp' ++ L)).
Proof.
  intros s x fp h L r s' (A & A' & B & C & D & N & ps & LP & NZ & ->) O E. unfold downcase_rrset, downcase_h, downcase_name in *.
  rewrite zlen_to_nat, downcase_loop_all in E. cbn [bind] in E. apply bind_ok in E as ((r', ds) & E & X). injection X as <- <-.
  apply wp_bind. eapply wp_load_bytes; [exact O|left; reflexivity|].
  apply wp_bind. eapply wp_lift; [rewrite A, zlen_to_nat, downcase_loop_all; reflexivity|].
  cbn [app] in O. apply wp_bind. eapply wp_store; [exact O|reflexivity|]. intros h1 O1.
  rewrite N, zlen_to_nat. destruct (rs_rdatas s) as [|d0 ds0] eqn:R.
  - cbn [length down_rdatas_h downcase_rdatas] in *. injection E as <- <-. apply wp_ret. split; [reflexivity|].
    exists ((hs_name x, CBytes (map dc (rs_name s))) :: block (hs_rdatas x) (CPtrs ps) ++ combine ps (map CRdata [])). split; [|cbn [app]; exact O1]. unfold own_set. cbn [rs_name rs_type rs_class rs_ttl rs_rdatas]. rewrite zlen_map.
    repeat (split; [first [assumption|lia]|]). exists ps. split; [exact LP|]. split; [exact NZ|]. reflexivity.
  - destruct ps as [|p ps]; [discriminate LP|]. assert (NR : hs_rdatas x <> 0) by (intros X; apply NZ in X; discriminate). rewrite (block_some _ _ NR) in O1.
    change 0 with (zlen (@nil Z)). 
    eapply wp_mono; [eapply (down_rdatas_wp x _ _ (d0 :: ds0) (p :: ps) [] r' ds h1 ((hs_name x, CBytes (map dc (rs_name s))) :: L)); [exact B|exact C|exact LP|exact NR| |exact E]|].
    + cbn [app] in *. eapply owns_perm; [exact O1|]. perm.
    + intros r2 h2 (-> & LD & O2). split; [reflexivity|]. cbn [app] in O2.
      exists ((hs_name x, CBytes (map dc (rs_name s))) :: block (hs_rdatas x) (CPtrs (p :: ps)) ++ combine (p :: ps) (map CRdata ds)). split.
      * unfold own_set. cbn [rs_name rs_type rs_class rs_ttl rs_rdatas]. rewrite zlen_map.
        repeat (split; [first [assumption|lia]|]). split; [unfold zlen in *; lia|]. exists (p :: ps). split; [lia|]. split; [exact NZ|]. reflexivity.
      * rewrite (block_some _ _ NR). cbn [app]. eapply owns_perm; [exact O2|]. perm.
Qed.

(** ** Sorting the pointers *)
Definition pb (z : Z * bytes) : Z * cell := (fst z, CRdata (snd z)).
Lemma insert_ptr_ok : forall p d zs h M, owns h M -> incl (map pb ((p, d) :: zs)) M ->
  exists zs', insert_ptr_h p (map fst zs) h = HOk (map fst zs') h /\ map snd zs' = insert_by rdata_cmp d (map snd zs) /\ Permutation ((p, d) :: zs) zs'.
Proof.
  intros p d zs h M O. induction zs as [|(q, e) zs IH]; intros IN; cbn [map insert_ptr_h insert_by fst snd] in *.
  - exists [(p, d)]. auto.
  - assert (W1 : wp (load_rdata_h p) h (fun l h' => l = d /\ h' = h)) by (eapply wp_load_rdata; [exact O|apply IN; left; reflexivity|auto]).
    assert (W2 : wp (load_rdata_h q) h (fun l h' => l = e /\ h' = h)) by (eapply wp_load_rdata; [exact O|apply IN; right; left; reflexivity|auto]).
    destruct W1 as (a1 & h1 & W1 & -> & ->). destruct W2 as (a2 & h2 & W2 & -> & ->).
    unfold hbind at 1. rewrite W1. unfold hbind at 1. rewrite W2. destruct (rdata_cmp d e <=? 0).
    + exists ((p, d) :: (q, e) :: zs). auto.
    + destruct IH as (zs' & E & S & P). { intros z Z. apply IN. destruct Z as [<-|Z]; [left; reflexivity|right; right; exact Z]. }
      exists ((q, e) :: zs'). unfold hbind. rewrite E. cbn [map fst snd]. split; [reflexivity|]. split; [congruence|].
      eapply perm_trans; [apply perm_swap|]. apply perm_skip. exact P.
Qed.
Lemma qsort_h_ok : forall zs h M, owns h M -> incl (map pb zs) M ->
  exists zs', qsort_h (map fst zs) h = HOk (map fst zs') h /\ map snd zs' = qsort rdata_cmp (map snd zs) /\ Permutation zs zs'.
Proof.
  intros zs h M O. induction zs as [|(p, d) zs IH]; intros IN; cbn [map qsort_h qsort fst snd] in *.
  - exists []. auto.
  - destruct IH as (zs1 & E1 & S1 & P1). { intros z Z. apply IN. right. exact Z. }
    destruct (insert_ptr_ok p d zs1 h M O) as (zs2 & E2 & S2 & P2).
    { intros z Z. apply IN. destruct Z as [<-|Z]; [left; reflexivity|]. right. apply in_map_iff in Z as (y & <- & Y). apply in_map. eapply Permutation_in; [symmetry; exact P1|exact Y]. }
    exists zs2. unfold hbind. rewrite E1, E2. split; [reflexivity|]. split; [congruence|]. eapply perm_trans; [apply perm_skip; exact P1|exact P2].
Qed.

Lemma combine_pb : forall ps ds, combine ps (map CRdata ds) = map pb (combine ps ds).
Proof. induction ps as [|p ps IH]; intros [|d ds]; cbn [combine map]; auto. unfold pb at 1. cbn [fst snd]. f_equal. apply IH. Qed.
Lemma combine_fst : forall A B (a : list A) (b : list B), length a = length b -> map fst (combine a b) = a.
Proof. induction a as [|x a IH]; intros [|y b] E; try discriminate; cbn [combine map fst]; auto. f_equal. apply IH. cbn [length] in E. lia. Qed.
Lemma combine_snd : forall A B (a : list A) (b : list B), length a = length b -> map snd (combine a b) = b.
Proof. induction a as [|x a IH]; intros [|y b] E; try discriminate; cbn [combine map snd]; auto. f_equal. apply IH. cbn [length] in E. lia. Qed.
Lemma combine_split : forall A B (z : list (A * B)), combine (map fst z) (map snd z) = z.
Proof. induction z as [|(a, b) z IH]; cbn [map combine fst snd]; auto. f_equal. exact IH. Qed.

Lemma sort_h_wp : forall s x fp h L, own_set s x fp -> owns h (fp ++ L) ->
  wp (sort_h x) h (fun _ h' => exists fp', own_set (sort_rrset s) x fp' /\ Permutation (map fst fp') (map fst fp) /\ owns h' (fp' ++ L)).
Proof.
  intros s x fp h L (A & A' & B & C & D & N & ps & LP & NZ & ->) O. unfold sort_rrset, sort_h. rewrite N. destruct (zlen (rs_rdatas s) >? 1) eqn:G.
  - assert (PS : ps <> []). { intros ->. cbn [length] in LP. unfold zlen in G. rewrite <- LP in G. cbn in G. discriminate. }
    assert (NR : hs_rdatas x <> 0) by (intros X; apply PS, NZ, X). rewrite (block_some _ _ NR) in O |- *.
    apply wp_bind. eapply wp_load_ptrs; [exact O|right; left; reflexivity|].
    destruct (qsort_h_ok (combine ps (rs_rdatas s)) h _ O) as (zs & E & S & P).
    { intros z Z. apply in_app_iff. left. right. apply in_app_iff. right. rewrite combine_pb. exact Z. }
    rewrite combine_fst in E by exact LP. rewrite combine_snd in S by exact LP.
    apply wp_bind. exists (map fst zs), h. split; [exact E|].
    eapply (wp_store (hs_rdatas x) (CPtrs ps) _ h ((hs_name x, CBytes (rs_name s)) :: combine ps (map CRdata (rs_rdatas s)) ++ L)); [exact O|perm|].
    intros h1 O1.
    assert (PC : Permutation (combine ps (map CRdata (rs_rdatas s))) (combine (map fst zs) (map CRdata (qsort rdata_cmp (rs_rdatas s))))).
    { rewrite <- S, !combine_pb, combine_split. apply Permutation_map. exact P. }
    exists ((hs_name x, CBytes (rs_name s)) :: [(hs_rdatas x, CPtrs (map fst zs))] ++ combine (map fst zs) (map CRdata (qsort rdata_cmp (rs_rdatas s)))). split; [|split].
    + unfold own_set. cbn [rs_name rs_type rs_class rs_ttl rs_rdatas]. repeat (split; [assumption|]).
      split; [rewrite N; unfold zlen; rewrite (Permutation_length (qsort_perm rdata_cmp (rs_rdatas s))); reflexivity|].
      exists (map fst zs). split; [rewrite <- S, !map_length; reflexivity|]. split; [contradiction|]. rewrite (block_some _ _ NR). reflexivity.
    + cbn [map app fst]. apply perm_skip, perm_skip. apply Permutation_map. symmetry. exact PC.
    + cbn [app]. eapply owns_perm; [exact O1|]. eapply perm_trans; [apply perm_swap|]. apply perm_skip, perm_skip. apply Permutation_app_tail. exact PC.
  - apply wp_ret. eexists. split; [|split; [reflexivity|exact O]]. unfold own_set. cbn [rs_name rs_type rs_class rs_ttl rs_rdatas].
    repeat (split; [assumption|]). exists ps. split; [exact LP|]. split; [exact NZ|]. reflexivity.
Qed.
