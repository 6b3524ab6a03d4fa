(** ProofHeap6.v: wdns_deserialize_rrset, wdns_serialize_rrset, wdns_downcase_rrset and wdns_sort_rrset on the heap. *)
From Verif Require Import Base Lib ModelName ModelDescr ModelParse Libc ModelFormat ModelTables ModelRRset ModelToStr ModelFromStr
  ModelHeap SpecHeap SpecRRset ProofRRset ProofHeap ProofHeap2 ModelHeap2 ProofHeap4 ProofHeap5.
From Coq Require Import Permutation.

(** ** Clearing a partly filled RRset: pointers that are still NULL *)
Lemma clear_nulls_wp : forall k dn p h L (Q : unit -> heap -> Prop), owns h ((p, CPtrs (dn ++ repeat 0 k)) :: L) ->
  (forall h', owns h' ((p, CPtrs (dn ++ repeat 0 k)) :: L) -> Q tt h') -> wp (hfor k (zlen dn) (clear_rrset_rdata p)) h Q.
Proof.
  induction k as [|k IH]; intros dn p h L Q O K; cbn [hfor repeat] in *; [apply wp_ret; auto|].
  apply wp_bind. unfold clear_rrset_rdata at 1.
  apply wp_bind. eapply wp_load_ptrs; [exact O|left; reflexivity|].
  apply wp_bind. eapply wp_elem; [reflexivity|].
  apply wp_bind. apply wp_free_null.
  apply wp_bind. eapply wp_upd; [reflexivity|].
  eapply wp_store; [exact O|reflexivity|]. intros h1 O1.
  assert (EQ : dn ++ 0 :: repeat 0 k = (dn ++ [0]) ++ repeat 0 k) by (rewrite <- app_assoc; reflexivity).
  replace (zlen dn + 1) with (zlen (dn ++ [0])) by (rewrite zlen_app; reflexivity). rewrite EQ in O1.
  eapply IH; [exact O1|]. intros h2 O2. apply K. rewrite EQ. exact O2.
Qed.

Lemma hfor_add_wp : forall a b i body h (Q : unit -> heap -> Prop), wp (hfor a i body) h (fun _ h' => wp (hfor b (i + Z.of_nat a) body) h' Q) -> wp (hfor (a + b) i body) h Q.
Proof.
  induction a as [|a IH]; intros b i body h Q W.
  - cbn [hfor Nat.add] in *. destruct W as (x & h' & E & W). injection E as <- <-. rewrite Z.add_0_r in W. exact W.
  - cbn [hfor Nat.add] in *. destruct W as (x & h' & E & W). unfold hbind in E. destruct (body i h) as [y h1|r h1|f|] eqn:B; try discriminate.
    assert (W2 : wp (hfor (a + b) (i + 1) body) h1 Q).
    { apply IH. exists x, h'. split; [exact E|]. replace (i + 1 + Z.of_nat a) with (i + Z.of_nat (S a)) by lia. exact W. }
    destruct W2 as (z & h2 & E2 & W2). exists z, h2. split; [|exact W2]. unfold hbind. rewrite B. exact E2.
Qed.

Lemma clear_partial_wp : forall ds qs k x nm h L (Q : hset -> heap -> Prop), length qs = length ds -> hs_n x = zlen ds + Z.of_nat k ->
  owns h ((hs_name x, CBytes nm) :: (hs_rdatas x, CPtrs (qs ++ repeat 0 k)) :: combine qs (map CRdata ds) ++ L) ->
  (forall h', owns h' L -> Q (mkHset (hs_len x) 0 (hs_type x) (hs_class x) (hs_ttl x) 0 0) h') -> wp (clear_rrset_h x) h Q.
Proof.
  intros ds qs k x nm h L Q LE N O K. unfold clear_rrset_h.
  replace (Z.to_nat (hs_n x)) with (length ds + k)%nat by (unfold zlen in N; lia).
  apply wp_bind. apply hfor_add_wp.
  assert (CL : forall q m d j, length q = length d -> forall g (R : unit -> heap -> Prop) M,
    owns g ((hs_rdatas x, CPtrs (m ++ q ++ repeat 0 j)) :: combine q (map CRdata d) ++ M) ->
    (forall g', owns g' ((hs_rdatas x, CPtrs (m ++ repeat 0 (length d) ++ repeat 0 j)) :: M) -> R tt g') ->
    wp (hfor (length d) (zlen m) (clear_rrset_rdata (hs_rdatas x))) g R).
  { intros q m d. revert q m. induction d as [|y d IH]; intros [|p q] m j LQ g R M OG KG; try discriminate; cbn [length hfor map combine repeat app] in *.
    - apply wp_ret. apply KG. exact OG.
    - apply wp_bind. unfold clear_rrset_rdata at 1.
      apply wp_bind. eapply wp_load_ptrs; [exact OG|left; reflexivity|].
      apply wp_bind. eapply wp_elem; [reflexivity|].
      apply wp_bind. eapply wp_free; [exact OG|apply perm_swap|]. intros g1 O1.
      apply wp_bind. eapply wp_upd; [reflexivity|].
      eapply wp_store; [exact O1|reflexivity|]. intros g2 O2.
      assert (EQ : forall z, m ++ 0 :: z = (m ++ [0]) ++ z) by (intros z; rewrite <- app_assoc; reflexivity).
      rewrite EQ in O2. replace (zlen m + 1) with (zlen (m ++ [0])) by (rewrite zlen_app; reflexivity).
      eapply (IH q (m ++ [0]) j); [lia|exact O2|]. intros g3 O3. apply KG. rewrite EQ. exact O3. }
  change 0 with (zlen (@nil Z)) at 1.
  eapply (CL qs [] ds k LE h _ ((hs_name x, CBytes nm) :: L)).
  - eapply owns_perm; [exact O|]. cbn [app]. perm.
  - intros h1 O1. cbn [app] in O1.
    replace (0 + Z.of_nat (length ds)) with (zlen (repeat 0 (length ds))) by (unfold zlen; rewrite repeat_length; lia).
    eapply clear_nulls_wp; [exact O1|]. intros h2 O2.
    apply wp_bind. eapply (wp_free (hs_name x) (CBytes nm) h2 ((hs_rdatas x, CPtrs (repeat 0 (length ds) ++ repeat 0 k)) :: L)); [exact O2|perm|]. intros h3 O3.
    apply wp_bind. eapply wp_free; [exact O3|reflexivity|]. intros h4 O4. apply wp_ret. auto.
Qed.

(** ** Deserialisation *)
Definition dsim {B} (L : list (Z * cell)) (o : outcome (res * rrset_obj)) (e : hm B) (h : heap) (Q : rrset_obj -> B -> heap -> Prop) : Prop :=
  match o with
  | Ok (res_success, ob) => wp e h (Q ob)
  | Ok (r, _) => exists h', e h = HErr r h' /\ owns h' L
  | UB f => e h = HUB (PureFault f)
  | _ => True
  end.

Lemma dsim_bind : forall B C L o (e : hm B) h Q (k : B -> hm C) Q', dsim L o e h Q -> (forall ob b h', Q ob b h' -> wp (k b) h' (Q' ob)) -> dsim L o (hbind e k) h Q'.
Proof.
  intros B C L o e h Q k Q' S K. destruct o as [(r, ob)|r|f|]; cbn [dsim] in *; auto.
  - destruct r; try (destruct S as (h' & E & O); exists h'; unfold hbind; rewrite E; auto; fail).
    apply wp_bind. eapply wp_mono; [exact S|]. auto.
  - unfold hbind. rewrite S. reflexivity.
Qed.

Lemma dsim_wp : forall B C L o (e : hm B) h Q (k : B -> hm C) Q', wp e h Q -> (forall b h', Q b h' -> dsim L o (k b) h' Q') -> dsim L o (hbind e k) h Q'.
Proof.
  intros B C L o e h Q k Q' (b & h' & E & q) K. specialize (K b h' q). unfold dsim in *. unfold wp, hbind in *. rewrite E. exact K.
Qed.

(** One copy_bytes. *)
Lemma dsim_copy : forall B L x buf br sz len ob (K : bytes * bytes * Z -> outcome (res * rrset_obj)) (k : bytes * bytes * Z -> hm B) h Q,
  (o_n_rdatas ob = 0 \/ exists l, o_rdatas ob = Some l /\ zlen l = o_n_rdatas ob) ->
  wp (clear_rrset_h x) h (fun _ h' => owns h' L) -> 0 <= len -> bytes_ok buf ->
  (forall l b' br', zlen l = len -> bytes_ok l -> bytes_ok b' -> dsim L (K (l, b', br')) (k (l, b', br')) h Q) ->
  dsim L (r <- dcopy buf br sz len ;; match r with None => dfail ob | Some y => K y end) (hbind (dcopy_h x buf br sz len) k) h Q.
Proof.
  intros B L x buf br sz len ob K k h Q OB C LN HB S. unfold dcopy_h.
  destruct (dcopy buf br sz len) as [[((l, b'), br')|]|e|f|] eqn:E; cbn [bind].
  - assert (X : zlen l = len /\ bytes_ok l /\ bytes_ok b').
    { unfold dcopy in E. destruct (br + len >? sz); [discriminate|]. apply bind_ok in E as (l' & T & E). injection E as <- <- <-.
      unfold take_rd in T. destruct ((len <? 0) || (zlen buf <? len)) eqn:G; [discriminate|]. injection T as <-.
      apply orb_false_iff in G as (G1 & G2).
      assert (SP : firstn (Z.to_nat len) buf ++ adv buf len = buf) by apply firstn_skipn.
      rewrite <- SP in HB. apply bytes_ok_app in HB as (B1 & B2). split; [apply zlen_firstn; lia|auto]. }
    destruct X as (X1 & X2 & X3). specialize (S l b' br' X1 X2 X3). unfold dsim in *. unfold wp, hbind in *. cbn [lift].
    destruct (K (l, b', br')) as [(r, o)|r|f|]; exact S.
  - destruct (dfail_ok ob OB) as (c & EF & _). rewrite EF. cbn [dsim].
    destruct C as (y & h' & EC & O). exists h'. unfold hbind. cbn [lift]. rewrite EC. auto.
  - exact I.
  - unfold dsim, hbind. cbn [lift]. reflexivity.
  - exact I.
Qed.

Lemma deser_rdatas_sim : forall big sz x name L left buf br ds qs h ob,
  bytes_ok buf -> length qs = length ds -> hs_n x = zlen ds + Z.of_nat left -> o_n_rdatas ob = hs_n x ->
  hs_rdatas x <> 0 ->
  owns h ((hs_name x, CBytes name) :: (hs_rdatas x, CPtrs (qs ++ repeat 0 left)) :: combine qs (map CRdata ds) ++ L) ->
  dsim L (deserialize_rdatas left big buf br sz ob ds) (deser_rdatas_h left (zlen ds) big x buf br sz) h (fun o _ h' => exists ds' qs', o = with_rdatas ob ds' 0 /\
    length qs' = length ds' /\ zlen ds' = hs_n x /\
    owns h' ((hs_name x, CBytes name) :: (hs_rdatas x, CPtrs qs') :: combine qs' (map CRdata ds') ++ L)).
Proof.
  intros big sz x name L left. induction left as [|left IH]; intros buf br ds qs h ob HB LE N NO NR O; cbn [deserialize_rdatas deser_rdatas_h].
  - apply wp_ret. exists ds, qs. rewrite app_nil_r in O. repeat (split; [first [reflexivity|assumption|lia]|]). exact O.
  - eapply (dsim_copy unit L x buf br sz 2 (with_rdatas ob ds (S left)) (fun '(l, b, br) => let rdlen := load16 big l in
      r <- dcopy b br sz rdlen ;; match r with None => dfail (with_rdatas ob (ds ++ [[]]) left) | Some (d, b, br) => deserialize_rdatas left big b br sz ob (ds ++ [d]) end)).
    + right. eexists. split; [reflexivity|]. cbn [o_n_rdatas with_rdatas]. rewrite NO, N. unfold zlen. rewrite app_length, map_length, repeat_length. lia.
    + eapply clear_partial_wp; [exact LE|exact N|exact O|auto].
    + lia.
    + exact HB.
    + intros l b' br' LL BL HB'. cbv zeta. destruct (load16_range big l LL BL) as (RG & _). set (rdlen := load16 big l) in *.
      eapply (dsim_wp _ _ _ _ _ _ (fun q h1 => q <> 0 /\ owns h1 ((q, CRdata (repeat (-1) (Z.to_nat rdlen))) :: (hs_name x, CBytes name) :: (hs_rdatas x, CPtrs (qs ++ repeat 0 (S left))) :: combine qs (map CRdata ds) ++ L))).
      { eapply wp_alloc; [exact O|auto]. }
      intros q h1 (NQ & O1). cbn [repeat] in O1.
      eapply (dsim_wp _ _ _ _ _ _ (fun y h2 => y = qs ++ 0 :: repeat 0 left /\ h2 = h1)).
      { eapply wp_load_ptrs; [exact O1|right; right; left; reflexivity|auto]. }
      intros y h2 (-> & ->).
      eapply (dsim_wp _ _ _ _ _ _ (fun y h2 => y = qs ++ q :: repeat 0 left /\ h2 = h1)).
      { eapply wp_upd; [unfold zlen; rewrite LE; reflexivity|auto]. }
      intros y h2 (-> & ->).
      eapply (dsim_wp _ _ _ _ _ _ (fun _ h2 => owns h2 ((hs_rdatas x, CPtrs (qs ++ q :: repeat 0 left)) :: (q, CRdata (repeat (-1) (Z.to_nat rdlen))) :: (hs_name x, CBytes name) :: combine qs (map CRdata ds) ++ L))).
      { eapply (wp_store (hs_rdatas x) (CPtrs (qs ++ 0 :: repeat 0 left)) _ h1 ((q, CRdata (repeat (-1) (Z.to_nat rdlen))) :: (hs_name x, CBytes name) :: combine qs (map CRdata ds) ++ L)); [exact O1|perm|auto]. }
      intros [] h2 O2.
      assert (SN : qs ++ q :: repeat 0 left = (qs ++ [q]) ++ repeat 0 left) by (rewrite <- app_assoc; reflexivity).
      assert (FILL : forall d g, owns g ((q, CRdata d) :: (hs_rdatas x, CPtrs (qs ++ q :: repeat 0 left)) :: (hs_name x, CBytes name) :: combine qs (map CRdata ds) ++ L) ->
        owns g ((hs_name x, CBytes name) :: (hs_rdatas x, CPtrs ((qs ++ [q]) ++ repeat 0 left)) :: combine (qs ++ [q]) (map CRdata (ds ++ [d])) ++ L)).
      { intros d g OG. rewrite map_app. cbn [map]. rewrite combine_snoc by (rewrite map_length; exact LE). rewrite <- SN.
        eapply owns_perm; [exact OG|]. perm. }
      assert (ZL : forall d : bytes, zlen (ds ++ [d]) = zlen ds + 1) by (intros d; rewrite zlen_app; reflexivity).
      assert (LE2 : forall d : bytes, length (qs ++ [q]) = length (ds ++ [d])) by (intros d; rewrite !app_length; cbn [length]; lia).
      eapply (dsim_copy unit L x b' br' sz rdlen (with_rdatas ob (ds ++ [[]]) left) (fun '(d, b, br) => deserialize_rdatas left big b br sz ob (ds ++ [d]))).
      * right. eexists. split; [reflexivity|]. cbn [o_n_rdatas with_rdatas]. rewrite NO, N. unfold zlen. rewrite app_length, map_length, repeat_length, app_length. cbn [length]. lia.
      * eapply (clear_partial_wp (ds ++ [repeat (-1) (Z.to_nat rdlen)]) (qs ++ [q]) left x name h2 L); [apply LE2|rewrite N, ZL; lia| |auto].
        apply FILL. eapply owns_perm; [exact O2|]. perm.
      * lia.
      * exact HB'.
      * intros d b2 br2 LD BD HB2.
        eapply (dsim_wp _ _ _ _ _ _ (fun _ h3 => owns h3 ((q, CRdata d) :: (hs_rdatas x, CPtrs (qs ++ q :: repeat 0 left)) :: (hs_name x, CBytes name) :: combine qs (map CRdata ds) ++ L))).
        { eapply (wp_store q (CRdata (repeat (-1) (Z.to_nat rdlen))) _ h2 ((hs_rdatas x, CPtrs (qs ++ q :: repeat 0 left)) :: (hs_name x, CBytes name) :: combine qs (map CRdata ds) ++ L)); [exact O2|perm|auto]. }
        intros [] h3 O3. rewrite <- (ZL d). eapply IH; [exact HB2|apply LE2|rewrite N, ZL; lia|exact NO|exact NR|]. apply FILL. exact O3.
Qed.

Lemma clear_name_wp : forall nlen np t c ttl nm h L, owns h ((np, CBytes nm) :: L) ->
  wp (clear_rrset_h (mkHset nlen np t c ttl 0 0)) h (fun _ h' => owns h' L).
Proof.
  intros nlen np t c ttl nm h L O. unfold clear_rrset_h. cbn [hs_n hs_name hs_rdatas Z.to_nat hfor].
  apply wp_bind, wp_ret. apply wp_bind. eapply wp_free; [exact O|reflexivity|]. intros h1 O1. apply wp_bind, wp_free_null, wp_ret. exact O1.
Qed.

Theorem deserialize_hsim : forall big buf sz h L, bytes_ok buf -> owns h L ->
  dsim L (deserialize_rrset big buf sz) (deserialize_h big buf sz) h (fun ob x h' => exists s fp, holds ob s /\ own_set s x fp /\ owns h' (fp ++ L)).
Proof.
  intros big buf sz h L HB O. unfold deserialize_rrset, deserialize_h.
  eapply dsim_copy; [left; reflexivity| |lia|exact HB|cbv beta].
  { unfold clear_rrset_h. cbn [hs_n hs_name hs_rdatas Z.to_nat hfor]. apply wp_bind, wp_ret. apply wp_bind, wp_free_null. apply wp_bind, wp_free_null, wp_ret. exact O. }
  intros l b1 br1 L1 BL1 HB1. cbv zeta. destruct l as [|nlen [|? ?]]; try (rewrite ?zlen_cons, ?zlen_nil in L1; try (pose proof (zlen_nonneg _ l)); lia). cbn [hd].
  apply Forall_inv in BL1. unfold is_byte in BL1.
  eapply (dsim_wp _ _ _ _ _ _ (fun p h1 => p <> 0 /\ owns h1 ((p, CBytes (repeat (-1) (Z.to_nat nlen))) :: L))); [eapply wp_alloc; [exact O|auto]|].
  intros np h1 (NP & O1).
  eapply dsim_copy; [left; reflexivity|eapply clear_name_wp; exact O1|lia|exact HB1|cbv beta].
  intros name b2 br2 L2 BL2 HB2.
  eapply (dsim_wp _ _ _ _ _ _ (fun _ h2 => owns h2 ((np, CBytes name) :: L))); [eapply wp_store; [exact O1|reflexivity|auto]|].
  intros [] h2 O2.
  eapply dsim_copy; [left; reflexivity|eapply clear_name_wp; exact O2|lia|exact HB2|cbv beta].
  intros l3 b3 br3 L3 BL3 HB3. cbv zeta.
  eapply dsim_copy; [left; reflexivity|eapply clear_name_wp; exact O2|lia|exact HB3|cbv beta].
  intros l4 b4 br4 L4 BL4 HB4. cbv zeta.
  eapply dsim_copy; [left; reflexivity|eapply clear_name_wp; exact O2|lia|exact HB4|cbv beta].
  intros l5 b5 br5 L5 BL5 HB5. cbv zeta.
  eapply dsim_copy; [left; reflexivity|eapply clear_name_wp; exact O2|lia|exact HB5|cbv beta].
  intros l6 b6 br6 L6 BL6 HB6. cbv zeta.
  destruct (load16_range big l6 L6 BL6) as (RN & _). set (n := load16 big l6) in *.
  eapply (dsim_wp _ _ _ _ _ _ (fun p h3 => p <> 0 /\ owns h3 ((p, CPtrs (repeat 0 (Z.to_nat n))) :: (np, CBytes name) :: L))); [eapply wp_alloc; [exact O2|auto]|].
  intros q h3 (NQ & O3).
  set (x := mkHset nlen np (load16 big l3) (load16 big l4) (load32 big l5) n q).
  eapply dsim_bind.
  - eapply (deser_rdatas_sim big sz x name L (Z.to_nat n) b6 br6 [] [] h3); [exact HB6|reflexivity| |reflexivity|exact NQ|].
    + unfold x. cbn [hs_n]. rewrite zlen_nil. lia.
    + unfold x. cbn [hs_name hs_rdatas app combine]. eapply owns_perm; [exact O3|apply perm_swap].
  - intros ob [] h4 (ds & qs & -> & LQ & ZD & O4). apply wp_ret.
    unfold x in *. cbn [hs_n hs_name hs_rdatas] in *.
    exists {| rs_name := name; rs_type := load16 big l3; rs_class := load16 big l4; rs_ttl := load32 big l5; rs_rdatas := ds |}.
    exists ((np, CBytes name) :: (q, CPtrs qs) :: combine qs (map CRdata ds)). split; [|split; [|exact O4]].
    + unfold holds, with_rdatas. cbn [o_name_len o_name o_type o_class o_ttl o_n_rdatas o_rdatas rs_name rs_type rs_class rs_ttl rs_rdatas].
      cbn [repeat]. rewrite app_nil_r. repeat (split; [first [reflexivity|lia]|]). reflexivity.
    + unfold own_set. cbn [hs_len hs_name hs_type hs_class hs_ttl hs_n hs_rdatas rs_name rs_type rs_class rs_ttl rs_rdatas].
      repeat (split; [first [reflexivity|lia]|]). exists qs. split; [exact LQ|]. split; [contradiction|]. rewrite block_some by exact NQ. reflexivity.
Qed.
