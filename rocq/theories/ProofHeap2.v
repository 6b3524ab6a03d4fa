(** ProofHeap2.v: the parser on the heap simulates the value parser and owns exactly the message it returns. *)
From Verif Require Import Base Lib ModelName ModelDescr ModelParse SpecName ProofUnpack ModelHeap SpecHeap ProofHeap.
From Coq Require Import Permutation.

Lemma sim_wp : forall A B C (e : hm B) (k : B -> hm C) (o : outcome A) h Q Q' E, wp e h Q -> (forall b h', Q b h' -> sim o (k b) h' Q' E) ->
  sim o (hbind e k) h Q' E.
Proof.
  intros A B C e k o h Q Q' E (b & h1 & W & q) K. specialize (K b h1 q). unfold sim, hbind in *.
  destruct o; rewrite W; exact K.
Qed.
Lemma sim_ok : forall A B (a : A) (e : hm B) h Q E, wp e h (Q a) -> sim (Ok a) e h Q E.
Proof. intros A B a e h Q E W. exact W. Qed.
Lemma sim_herr : forall A B r h (Q : A -> B -> heap -> Prop) (E : heap -> Prop), E h -> sim (Err r) (herr r) h Q E.
Proof. intros. exists h. auto. Qed.
Lemma sim_mono : forall A B (o : outcome A) (e : hm B) h (Q Q' : A -> B -> heap -> Prop) (E E' : heap -> Prop), sim o e h Q E ->
  (forall a b h', o = Ok a -> Q a b h' -> Q' a b h') -> (forall h', E h' -> E' h') -> sim o e h Q' E'.
Proof.
  intros A B o e h Q Q' E E' S K1 K2. destruct o as [a|r|f|]; cbn [sim] in *; auto.
  - destruct S as (b & h' & X & q). exists b, h'. auto.
  - destruct S as (h' & X & q). exists h'. auto.
Qed.

Lemma unpack_len : forall m eop i w n, bytes_ok m -> unpack_name m eop i = Ok (w, n) -> zlen w <= 255.
Proof.
  intros m eop i w n B E. destruct (Z_le_gt_dec 0 i) as [I|I]; [destruct (Z_lt_ge_dec i eop) as [J|J]|].
  - destruct (unpack_name_case m eop i B ltac:(lia)) as (r & C & F). rewrite F in E. destruct C; cbn [finish] in E; try discriminate.
    injection E as <- <-. cbn [app]. rewrite zlen_wire. lia.
  - unfold unpack_name in E. replace ((0 >=? eop) || (i >=? eop) || (i <? 0)) with true in E by lia. discriminate.
  - unfold unpack_name in E. replace ((0 >=? eop) || (i >=? eop) || (i <? 0)) with true in E by lia. discriminate.
Qed.

(** ** rdata *)
Lemma ubuf_new_wp : forall h L (Q : Z -> heap -> Prop), owns h L ->
  (forall u d h', u <> 0 -> d <> 0 -> owns h' ((u, CUbuf d) :: (d, CBytes []) :: L) -> Q u h') -> wp ubuf_new_h h Q.
Proof.
  intros h L Q O K. unfold ubuf_new_h. apply wp_bind. eapply wp_alloc; [exact O|]. intros u h1 N1 O1.
  apply wp_bind. eapply wp_alloc; [exact O1|]. intros d h2 N2 O2.
  apply wp_bind. eapply wp_store; [exact O2|apply perm_swap|]. intros h3 O3. apply wp_ret. eapply K; eauto.
Qed.

Lemma ubuf_destroy_wp : forall u d c h L (Q : unit -> heap -> Prop), u <> 0 -> owns h ((u, CUbuf d) :: (d, c) :: L) ->
  (forall h', owns h' L -> Q tt h') -> wp (ubuf_destroy_h u) h Q.
Proof.
  intros u d c h L Q N O K. unfold ubuf_destroy_h. replace (u =? 0) with false by lia.
  apply wp_bind. eapply wp_load_ubuf; [exact O|left; reflexivity|].
  apply wp_bind. eapply wp_free; [exact O|apply perm_swap|]. intros h1 O1.
  eapply wp_free; [exact O1|reflexivity|]. auto.
Qed.

Lemma ubuf_fill_wp : forall u d b l h L (Q : unit -> heap -> Prop), owns h ((u, CUbuf d) :: (d, CBytes b) :: L) ->
  (forall d' h', owns h' ((u, CUbuf d') :: (d', CBytes l) :: L) -> Q tt h') -> wp (ubuf_fill u l) h Q.
Proof.
  intros u d b l h L Q O K. unfold ubuf_fill.
  apply wp_bind. eapply wp_load_ubuf; [exact O|left; reflexivity|].
  apply wp_bind. eapply wp_load_bytes; [exact O|right; left; reflexivity|].
  apply wp_bind. eapply wp_free; [exact O|apply perm_swap|]. intros h1 O1.
  apply wp_bind. eapply wp_alloc; [exact O1|]. intros d' h2 N2 O2.
  eapply wp_store; [exact O2|apply perm_swap|]. intros h3 O3. eapply K. exact O3.
Qed.

Lemma parse_rdata_sim : forall fuel m eop t c src n h L, owns h L ->
  sim (parse_rdata fuel m eop t c src n) (parse_rdata_h fuel m eop t c src n) h
    (fun d q h' => q <> 0 /\ owns h' ((q, CRdata d) :: L)) (fun h' => owns h' L).
Proof.
  intros fuel m eop t c src n h L O. unfold parse_rdata_h.
  eapply sim_wp; [eapply (ubuf_new_wp h L (fun u h' => exists d, u <> 0 /\ owns h' ((u, CUbuf d) :: (d, CBytes []) :: L))); [exact O|]; eauto|].
  cbv beta. intros u h1 (d0 & N & O1).
  destruct (parse_rdata fuel m eop t c src n) as [d|r|f|].
  - apply sim_ok. apply wp_bind. eapply ubuf_fill_wp; [exact O1|]. intros d' h2 O2.
    apply wp_bind. eapply wp_alloc; [exact O2|]. intros q h3 NQ O3.
    apply wp_bind. eapply wp_load_ubuf; [exact O3|right; left; reflexivity|].
    apply wp_bind. eapply wp_load_bytes; [exact O3|right; right; left; reflexivity|].
    apply wp_bind. eapply wp_store; [exact O3|reflexivity|]. intros h4 O4.
    apply wp_bind. eapply (ubuf_destroy_wp u d' (CBytes d) h4 ((q, CRdata d) :: L)); [auto| |].
    { eapply owns_perm; [exact O4|]. perm. }
    intros h5 O5. apply wp_ret. auto.
  - eapply sim_wp; [eapply (ubuf_destroy_wp u d0 (CBytes []) h1 L (fun _ h' => owns h' L)); auto|].
    cbv beta. intros _ h2 O2. apply sim_herr. exact O2.
  - reflexivity.
  - reflexivity.
Qed.

(** ** one RR *)
Lemma rr_body_sim : forall fuel sec m eop data name np h L, zlen name <= 255 -> owns h ((np, CBytes name) :: L) ->
  sim (src <- skip_name m eop data ;;
       if (src + 4 >? eop) || (negb (sec =? 0) && (src + 10 >? eop)) then Err res_parse_error
       else
       rrtype <- get16 m src ;;
       let src := src + 2 in
       rrclass <- get16 m src ;;
       let src := src + 2 in
       if sec =? 0 then
         Ok ({| rr_name := name; rr_type := rrtype; rr_class := rrclass; rr_ttl := 0; rr_rdata := None |}, src - data)
       else
       rrttl <- get32 m src ;;
       let src := src + 4 in
       rdlen <- get16 m src ;;
       let src := src + 2 in
       if src + rdlen >? eop then Err res_overflow
       else
       rdata <- parse_rdata fuel m eop rrtype rrclass src rdlen ;;
       Ok ({| rr_name := name; rr_type := rrtype; rr_class := rrclass; rr_ttl := rrttl; rr_rdata := Some rdata |},
           src - data + rdlen))
    (parse_rr_body fuel sec m eop data (zlen name mod 256) np) h
    (fun a b h' => snd b = snd a /\ (sec = 0 -> rr_rdata (fst a) = None) /\ (sec <> 0 -> rr_rdata (fst a) <> None) /\
       exists fp, own_rr (fst a) (fst b) fp /\ owns h' (fp ++ L))
    (fun h' => owns h' ((np, CBytes name) :: L)).
Proof.
  intros fuel sec m eop data name np h L LN O. unfold parse_rr_body.
  pose proof (zlen_nonneg _ name) as NN. assert (MOD : zlen name mod 256 = zlen name) by (apply Z.mod_small; lia).
  eapply sim_bind; [apply (sim_lift _ _ _ (fun h' => owns h' ((np, CBytes name) :: L))); exact O| |auto]. intros src ? h1 _ (-> & ->).
  destruct ((src + 4 >? eop) || (negb (sec =? 0) && (src + 10 >? eop))); [apply sim_herr; exact O|].
  eapply sim_bind; [apply (sim_lift _ _ _ (fun h' => owns h' ((np, CBytes name) :: L))); exact O| |auto]. intros ty ? h1 _ (-> & ->). cbv zeta.
  eapply sim_bind; [apply (sim_lift _ _ _ (fun h' => owns h' ((np, CBytes name) :: L))); exact O| |auto]. intros cl ? h1 _ (-> & ->).
  destruct (sec =? 0) eqn:SEC.
  - apply sim_ok. apply wp_ret. cbn [fst snd rr_rdata]. split; [auto|]. split; [auto|]. split; [lia|].
    exists [(np, CBytes name)]. split; [|exact O]. unfold own_rr. cbn [hr_len hr_name hr_type hr_class hr_ttl hr_rdata rr_name rr_type rr_class rr_ttl rr_rdata].
    rewrite MOD. repeat (split; [auto|]). auto.
  - eapply sim_bind; [apply (sim_lift _ _ _ (fun h' => owns h' ((np, CBytes name) :: L))); exact O| |auto]. intros ttl ? h1 _ (-> & ->).
    eapply sim_bind; [apply (sim_lift _ _ _ (fun h' => owns h' ((np, CBytes name) :: L))); exact O| |auto]. intros rdlen ? h1 _ (-> & ->).
    destruct (src + 2 + 2 + 4 + 2 + rdlen >? eop); [apply sim_herr; exact O|].
    eapply sim_bind; [apply parse_rdata_sim; exact O| |auto]. cbv beta. intros d q h1 _ (NQ & O1).
    apply sim_ok. apply wp_ret. cbn [fst snd rr_rdata]. split; [auto|]. split; [lia|]. split; [discriminate|].
    exists [(np, CBytes name); (q, CRdata d)]. split; [|eapply owns_perm; [exact O1|perm]].
    unfold own_rr. cbn [hr_len hr_name hr_type hr_class hr_ttl hr_rdata rr_name rr_type rr_class rr_ttl rr_rdata].
    rewrite MOD. repeat (split; [auto|]). auto.
Qed.

Lemma parse_rr_sim : forall fuel sec m eop data h L, bytes_ok m -> owns h L ->
  sim (parse_message_rr fuel sec m eop data) (parse_message_rr_h fuel sec m eop data) h
    (fun a b h' => snd b = snd a /\ (sec = 0 -> rr_rdata (fst a) = None) /\ (sec <> 0 -> rr_rdata (fst a) <> None) /\
       exists fp, own_rr (fst a) (fst b) fp /\ owns h' (fp ++ L))
    (fun h' => owns h' L).
Proof.
  intros fuel sec m eop data h L HB O. unfold parse_message_rr, parse_message_rr_h.
  eapply sim_bind; [apply (sim_lift _ _ _ (fun h' => owns h' L)); exact O| |auto]. intros (name, nl) ? h1 EN (-> & ->). cbn [fst].
  pose proof (unpack_len m eop data name nl HB EN) as LN.
  eapply sim_wp; [eapply (wp_alloc (CBytes name) h L (fun p h' => owns h' ((p, CBytes name) :: L))); [exact O|auto]|].
  cbv beta. intros np h1 O1.
  pose proof (rr_body_sim fuel sec m eop data name np h1 L LN O1) as S.
  match type of S with sim ?o _ _ _ _ => set (oo := o) in *; clearbody oo end.
  unfold sim in S |- *. destruct oo as [a|r|f|].
  - destruct S as (b & h2 & E & q). exists b, h2. rewrite E. auto.
  - destruct S as (h2 & E & q). destruct (free_spec h2 L np _ q) as (h3 & F & O3). exists h3. rewrite E.
    unfold hbind. rewrite F. split; [reflexivity|exact O3].
  - rewrite S. reflexivity.
  - rewrite S. reflexivity.
Qed.

(** ** Lists of owned objects *)
Lemma own_list_len : forall A B (own : A -> B -> list (Z * cell) -> Prop) l m f, own_list own l m f -> length l = length m.
Proof. intros A B own l m f H. induction H; cbn [length]; auto. Qed.
Lemma own_list_snoc : forall A B (own : A -> B -> list (Z * cell) -> Prop) l m f a b g, own_list own l m f -> own a b g ->
  exists f', own_list own (l ++ [a]) (m ++ [b]) f' /\ Permutation f' (g ++ f).
Proof.
  intros A B own l m f a b g H X. induction H as [|c l d m f1 f2 Y H IH].
  - exists (g ++ []). split; [constructor; auto; constructor|reflexivity].
  - destruct IH as (f' & H' & P). exists (f1 ++ f'). split; [constructor; auto|].
    rewrite P. perm.
Qed.
Lemma own_list_split : forall A B (own : A -> B -> list (Z * cell) -> Prop) l1 a l2 m f, own_list own (l1 ++ a :: l2) m f ->
  exists m1 b m2 f1 g f2, m = m1 ++ b :: m2 /\ f = f1 ++ g ++ f2 /\ own_list own l1 m1 f1 /\ own a b g /\ own_list own l2 m2 f2.
Proof.
  intros A B own l1. induction l1 as [|c l1 IH]; intros a l2 m f H; cbn [app] in H; inversion H as [|? ? b m0 f0 g W V]; subst.
  - exists [], b, m0, [], f0, g. repeat (split; [auto; constructor|]). auto.
  - destruct (IH _ _ _ _ V) as (m1 & b' & m2 & f1 & g' & f2 & -> & -> & X1 & X2 & X3).
    exists (b :: m1), b', m2, (f0 ++ f1), g', f2. split; [reflexivity|]. split; [rewrite <- app_assoc; reflexivity|].
    split; [constructor; auto|]. auto.
Qed.
Lemma own_list_join : forall A B (own : A -> B -> list (Z * cell) -> Prop) l1 m1 f1 a b g l2 m2 f2,
  own_list own l1 m1 f1 -> own a b g -> own_list own l2 m2 f2 -> own_list own (l1 ++ a :: l2) (m1 ++ b :: m2) (f1 ++ g ++ f2).
Proof.
  intros A B own l1 m1 f1 a b g l2 m2 f2 H X H2. induction H as [|c l d m f1 f1' Y H IH]; cbn [app].
  - constructor; auto.
  - rewrite <- app_assoc. constructor; auto.
Qed.

(** ** Comparing and searching *)
Lemma compare_wp : forall r x fr s y fs h L (Q : bool -> heap -> Prop), own_rr r x fr -> own_set s y fs ->
  owns h L -> (forall c, In c fr -> In c L) -> (forall c, In c fs -> In c L) ->
  Q (compare_rr_rrset r s) h -> wp (compare_h x y) h Q.
Proof.
  intros r x fr s y fs h L Q (R1 & R2 & R3 & R4 & R5 & R6) (S1 & S2 & S3 & S4 & S5 & S6 & ps & _ & _ & S7) O I1 I2 K.
  unfold compare_h, compare_rr_rrset in *. rewrite R1, R3, R4, S1, S3, S4.
  destruct ((zlen (rr_name r) =? zlen (rs_name s)) && (rr_type r =? rs_type s) && (rr_class r =? rs_class s)) eqn:C; [|apply wp_ret; exact K].
  apply wp_bind. eapply (wp_load_bytes (hr_name x) (rr_name r)); [exact O| |].
  { apply I1. destruct (rr_rdata r); [subst fr; left; reflexivity|destruct R6 as (_ & ->); left; reflexivity]. }
  apply wp_bind. eapply (wp_load_bytes (hs_name y) (rs_name s)); [exact O| |].
  { apply I2. subst fs. left. reflexivity. }
  rewrite !Z.ltb_irrefl. cbn [orb]. rewrite !zlen_to_nat, !firstn_all. apply wp_ret. exact K.
Qed.

Lemma in_split_list : forall A B (own : A -> B -> list (Z * cell) -> Prop) l1 a l2 m f, own_list own (l1 ++ a :: l2) m f ->
  exists m1 b m2 g, m = m1 ++ b :: m2 /\ own a b g /\ length m1 = length l1 /\ forall c, In c g -> In c f.
Proof.
  intros A B own l1 a l2 m f H. apply own_list_split in H as (m1 & b & m2 & f1 & g & f2 & -> & -> & H1 & H2 & H3).
  exists m1, b, m2, g. split; [auto|]. split; [auto|]. split; [symmetry; eapply own_list_len; eauto|].
  intros c I. apply in_or_app. right. apply in_or_app. left. auto.
Qed.

Definition found_at (r : rr) (sets : list rrset) (o : option Z) : Prop :=
  match o with
  | None => forall s, In s sets -> compare_rr_rrset r s = false
  | Some j => exists a s b, sets = a ++ s :: b /\ zlen a = j /\ compare_rr_rrset r s = true /\ (forall t, In t b -> compare_rr_rrset r t = false)
  end.

Lemma search_wp : forall sec r x fr sets ys f p h L (Q : option Z -> heap -> Prop), sec <> 0 -> own_rr r x fr -> own_list own_set sets ys f ->
  owns h L -> (forall c, In c fr -> In c L) -> (forall c, In c f -> In c L) -> In (p, CSets ys) L ->
  (forall o, found_at r sets o -> Q o h) ->
  forall s1 s2, sets = s1 ++ s2 -> (forall t, In t s2 -> compare_rr_rrset r t = false) -> wp (search_h (length s1) sec x p) h Q.
Proof.
  intros sec r x fr sets ys f p h L Q NS OR OL O I1 I2 IP K s1. induction s1 as [|s s1 IH] using rev_ind; intros s2 E N.
  - cbn [length search_h]. apply wp_ret. apply K. cbn [found_at]. intros t I. apply N. rewrite E in I. exact I.
  - rewrite app_length. cbn [length]. rewrite Nat.add_1_r. cbn [search_h]. replace (sec =? 0) with false by lia.
    apply wp_bind. eapply wp_load_sets; [exact O|exact IP|].
    rewrite <- app_assoc in E. cbn [app] in E. assert (OL2 := OL). rewrite E in OL2.
    apply in_split_list in OL2 as (m1 & y & m2 & g & -> & OS & LE & IG).
    apply wp_bind. eapply wp_elem; [unfold zlen; rewrite LE; reflexivity|].
    apply wp_bind. eapply (compare_wp r x fr s y g); [auto|auto|exact O|auto|auto|].
    destruct (compare_rr_rrset r s) eqn:C.
    + apply wp_ret. apply K. cbn [found_at]. exists s1, s, s2. auto.
    + apply (IH (s :: s2)); auto. intros t [I|I]; [subst t; auto|auto].
Qed.

Lemma join_last_found : forall r d sets,
  (join_last r d sets = None -> forall s, In s sets -> compare_rr_rrset r s = false) /\
  (forall a s b, sets = a ++ s :: b -> compare_rr_rrset r s = true -> (forall t, In t b -> compare_rr_rrset r t = false) ->
    join_last r d sets = Some (a ++ join_rrset r d s :: b)) /\
  ((forall s, In s sets -> compare_rr_rrset r s = false) -> join_last r d sets = None).
Proof.
  intros r d. induction sets as [|s sets (IH1 & IH2 & IH3)]; cbn [join_last].
  - split; [intros _ s []|]. split; [intros [|? ?] ? ? X; discriminate|auto].
  - split; [|split].
    + destruct (join_last r d sets) as [z|] eqn:J; [discriminate|]. destruct (compare_rr_rrset r s) eqn:C; [discriminate|].
      intros _ t [I|I]; [subst; auto|apply IH1; auto].
    + intros a t b E C N. destruct a as [|a0 a]; cbn [app] in E; injection E as -> E.
      * subst sets. rewrite (IH3 N), C. reflexivity.
      * rewrite (IH2 a t b E C N). reflexivity.
    + intros N. rewrite IH3 by (intros; apply N; right; auto). rewrite (N s) by (left; auto). reflexivity.
Qed.

(** ** Inserting *)
Lemma resize_snoc : forall A (d : A) l n, n = zlen l + 1 -> resize d n l = l ++ [d].
Proof.
  intros A d l n ->. unfold resize. unfold zlen.
  replace (Z.to_nat (Z.of_nat (length l) + 1)) with (S (length l)) by lia.
  rewrite firstn_all2 by lia. replace (S (length l) - length l)%nat with 1%nat by lia. reflexivity.
Qed.

Lemma realloc_rrs_wp : forall p xs n h L (Q : Z -> heap -> Prop), (p = 0 -> xs = []) -> n = zlen xs + 1 -> owns h (block p (CRRs xs) ++ L) ->
  (forall p' h', p' <> 0 -> owns h' ((p', CRRs (xs ++ [hrr0])) :: L) -> Q p' h') -> wp (realloc_rrs p n) h Q.
Proof.
  intros p xs n h L Q Z N O K. unfold realloc_rrs. unfold block in O. destruct (p =? 0) eqn:P.
  - rewrite Z in * by lia. rewrite (resize_snoc _ hrr0 [] n N). eapply wp_alloc; [exact O|]. auto.
  - apply wp_bind. eapply wp_load_rrs; [exact O|left; reflexivity|]. apply wp_bind.
    eapply wp_free; [exact O|cbn [app]; reflexivity|]. intros h1 O1. rewrite (resize_snoc _ hrr0 xs n N). eapply wp_alloc; [exact O1|]. auto.
Qed.
Lemma realloc_sets_wp : forall p xs n h L (Q : Z -> heap -> Prop), (p = 0 -> xs = []) -> n = zlen xs + 1 -> owns h (block p (CSets xs) ++ L) ->
  (forall p' h', p' <> 0 -> owns h' ((p', CSets (xs ++ [hset0])) :: L) -> Q p' h') -> wp (realloc_sets p n) h Q.
Proof.
  intros p xs n h L Q Z N O K. unfold realloc_sets. unfold block in O. destruct (p =? 0) eqn:P.
  - rewrite Z in * by lia. rewrite (resize_snoc _ hset0 [] n N). eapply wp_alloc; [exact O|]. auto.
  - apply wp_bind. eapply wp_load_sets; [exact O|left; reflexivity|]. apply wp_bind.
    eapply wp_free; [exact O|cbn [app]; reflexivity|]. intros h1 O1. rewrite (resize_snoc _ hset0 xs n N). eapply wp_alloc; [exact O1|]. auto.
Qed.
Lemma realloc_ptrs_wp : forall p xs n h L (Q : Z -> heap -> Prop), (p = 0 -> xs = []) -> n = zlen xs + 1 -> owns h (block p (CPtrs xs) ++ L) ->
  (forall p' h', p' <> 0 -> owns h' ((p', CPtrs (xs ++ [-1])) :: L) -> Q p' h') -> wp (realloc_ptrs p n) h Q.
Proof.
  intros p xs n h L Q Z N O K. unfold realloc_ptrs. unfold block in O. destruct (p =? 0) eqn:P.
  - rewrite Z in * by lia. rewrite (resize_snoc _ (-1) [] n N). eapply wp_alloc; [exact O|]. auto.
  - apply wp_bind. eapply wp_load_ptrs; [exact O|left; reflexivity|]. apply wp_bind.
    eapply wp_free; [exact O|cbn [app]; reflexivity|]. intros h1 O1. rewrite (resize_snoc _ (-1) xs n N). eapply wp_alloc; [exact O1|]. auto.
Qed.

(** The copy of [r] kept in the RR array. *)
Definition kept (r : rr) (sec : Z) : rr :=
  {| rr_name := rr_name r; rr_type := rr_type r; rr_class := rr_class r; rr_ttl := rr_ttl r;
     rr_rdata := if sec =? 0 then None else rr_rdata r |}.

Lemma add_rr_wp : forall a x r fr rs xs f1 sec h L (Q : harr -> heap -> Prop),
  own_rr r x fr -> own_list own_rr rs xs f1 -> ha_nrrs a = zlen xs -> zlen xs + 1 < 65536 -> (ha_rrs a = 0 -> xs = []) ->
  (sec <> 0 -> rr_rdata r <> None) ->
  owns h (block (ha_rrs a) (CRRs xs) ++ f1 ++ fr ++ L) ->
  (forall p x' f1' h', p <> 0 -> own_list own_rr (rs ++ [kept r sec]) (xs ++ [x']) f1' ->
     owns h' ((p, CRRs (xs ++ [x'])) :: f1' ++ fr ++ L) -> Q (mkHarr (zlen xs + 1) p (ha_nsets a) (ha_sets a)) h') ->
  wp (add_rr_h a x sec) h Q.
Proof.
  intros a x r fr rs xs f1 sec h L Q OR OL N B Z ND O K. unfold add_rr_h. rewrite N.
  pose proof (zlen_nonneg _ xs) as NX. assert (MOD : (zlen xs + 1) mod 2 ^ 16 = zlen xs + 1) by (apply Z.mod_small; lia).
  rewrite MOD. assert (OR2 := OR). destruct OR2 as (R1 & R2 & R3 & R4 & R5 & R6).
  assert (INF : In (hr_name x, CBytes (rr_name r)) fr).
  { destruct (rr_rdata r); [subst fr; left; reflexivity|destruct R6 as (_ & ->); left; reflexivity]. }
  apply wp_bind. eapply (realloc_rrs_wp (ha_rrs a) xs (zlen xs + 1) h (f1 ++ fr ++ L)); [exact Z|reflexivity|exact O|]. intros p h1 NP O1.
  apply wp_bind. eapply (wp_load_bytes _ (rr_name r)); [exact O1|right; apply in_or_app; right; apply in_or_app; left; exact INF|].
  rewrite R1. replace (zlen (rr_name r) <? zlen (rr_name r)) with false by lia. rewrite zlen_to_nat, firstn_all.
  apply wp_bind. eapply wp_alloc; [exact O1|]. intros np h2 NN O2.
  set (nx := fun q => mkHrr (zlen (rr_name r)) np (hr_type x) (hr_class x) (hr_ttl x) q).
  assert (FIN : forall q fq h3, own_rr (kept r sec) (nx q) fq -> owns h3 ((p, CRRs (xs ++ [hrr0])) :: fq ++ f1 ++ fr ++ L) ->
    wp (l <-- load_rrs p ;;; l0 <-- upd l (zlen xs + 1 - 1) (nx q) ;;; store p (CRRs l0) ;;;;
        ret (mkHarr (zlen xs + 1) p (ha_nsets a) (ha_sets a))) h3 Q).
  { intros q fq h3 OQ O3. apply wp_bind. eapply wp_load_rrs; [exact O3|left; reflexivity|].
    apply wp_bind. eapply wp_upd; [lia|].
    apply wp_bind. eapply wp_store; [exact O3|reflexivity|]. intros h4 O4. apply wp_ret.
    destruct (own_list_snoc _ _ _ _ _ _ _ _ _ OL OQ) as (f' & OL' & P').
    eapply K; [exact NP|exact OL'|]. eapply owns_perm; [exact O4|]. constructor. rewrite P'. perm. }
  apply wp_bind. destruct (sec =? 0) eqn:SEC; cbn [negb].
  - apply wp_ret. apply (FIN 0 [(np, CBytes (rr_name r))]).
    + unfold own_rr, kept, nx. rewrite SEC. cbn [hr_len hr_name hr_type hr_class hr_ttl hr_rdata rr_name rr_type rr_class rr_ttl rr_rdata]. repeat (split; [auto|]). auto.
    + eapply owns_perm; [exact O2|]. perm.
  - destruct (rr_rdata r) as [d|] eqn:RD; [|exfalso; apply ND; [lia|auto]].
    apply wp_bind. eapply (wp_load_rdata _ d); [exact O2|right; right; apply in_or_app; right; apply in_or_app; left; subst fr; right; left; reflexivity|].
    eapply wp_alloc; [exact O2|]. intros q h3 NQ O3. apply (FIN q [(np, CBytes (rr_name r)); (q, CRdata d)]).
    + unfold own_rr, kept, nx. rewrite SEC. cbn [hr_len hr_name hr_type hr_class hr_ttl hr_rdata rr_name rr_type rr_class rr_ttl rr_rdata]. rewrite RD. repeat (split; [auto|]). auto.
    + eapply owns_perm; [exact O3|]. perm.
Qed.

Lemma combine_snoc : forall A B (l : list A) (m : list B) a b, length l = length m -> combine (l ++ [a]) (m ++ [b]) = combine l m ++ [(a, b)].
Proof. intros A B l. induction l as [|x l IH]; intros [|y m] a b E; try discriminate; cbn [combine app]; auto. f_equal. apply IH. cbn in E. lia. Qed.

(** Sizes stay below the uint16_t counters. *)
Definition sizes_le (a : rrset_array) (k : Z) : Prop :=
  zlen (a_rrs a) <= k /\ zlen (a_rrsets a) <= k /\ Forall (fun s => zlen (rs_rdatas s) <= k) (a_rrsets a).

Lemma insert_sim : forall a xa fa r x fr sec h L, own_arr a xa fa -> own_rr r x fr -> (sec <> 0 -> rr_rdata r <> None) -> (sec = 0 -> rr_rdata r = None) ->
  sizes_le a 65534 -> owns h (fa ++ fr ++ L) ->
  sim (insert_rr a r sec) (insert_h xa x sec) h (fun a' xa' h' => exists fa', own_arr a' xa' fa' /\ owns h' (fa' ++ L)) (fun _ => False).
Proof.
  intros a xa fa r x fr sec h L (xs & f1 & ys & f2 & OL1 & OL2 & N1 & N2 & Z1 & Z2 & ->) OR ND NQ (SZ1 & SZ2 & SZ3) O.
  pose proof (own_list_len _ _ _ _ _ _ OL1) as LE1. pose proof (own_list_len _ _ _ _ _ _ OL2) as LE2.
  assert (B1 : zlen xs <= 65534) by (unfold zlen in *; lia). assert (B2 : zlen ys <= 65534) by (unfold zlen in *; lia).
  unfold insert_h.
  eapply sim_wp.
  { eapply (add_rr_wp xa x r fr (a_rrs a) xs f1 sec h (block (ha_sets xa) (CSets ys) ++ f2 ++ L)
      (fun a1 h1 => exists p x' f1', p <> 0 /\ a1 = mkHarr (zlen xs + 1) p (ha_nsets xa) (ha_sets xa) /\
         own_list own_rr (a_rrs a ++ [kept r sec]) (xs ++ [x']) f1' /\
         owns h1 ((p, CRRs (xs ++ [x'])) :: f1' ++ fr ++ block (ha_sets xa) (CSets ys) ++ f2 ++ L)));
      [exact OR|exact OL1|auto|lia|exact Z1|exact ND| |].
    - eapply owns_perm; [exact O|]. perm.
    - intros p x' f1' h' NP OL' O'. exists p, x', f1'. auto. }
  cbv beta. intros a1 h1 (p & x' & f1' & NP & -> & OL1' & O1). cbn [ha_nsets ha_sets].
  assert (NEWLEN : zlen xs + 1 = zlen (xs ++ [x'])) by (rewrite zlen_app; reflexivity).
  assert (NEW : forall h2, owns h2 ((p, CRRs (xs ++ [x'])) :: f1' ++ fr ++ block (ha_sets xa) (CSets ys) ++ f2 ++ L) ->
    wp (ar <-- new_set_h (mkHarr (zlen xs + 1) p (ha_nsets xa) (ha_sets xa)) x sec ;;; clear_rr_h (snd ar) ;;;; ret (fst ar)) h2
      (fun xa' h' => exists fa', own_arr {| a_rrs := a_rrs a ++ [kept r sec];
          a_rrsets := a_rrsets a ++ [{| rs_name := rr_name r; rs_type := rr_type r; rs_class := rr_class r; rs_ttl := rr_ttl r;
             rs_rdatas := match rr_rdata r with Some d => [d] | None => [] end |}] |} xa' fa' /\ owns h' (fa' ++ L))).
  { clear h1 O1. intros h1 O1. unfold new_set_h. cbn [ha_nsets ha_sets ha_nrrs ha_rrs]. rewrite N2.
    assert (MOD : (zlen ys + 1) mod 2 ^ 16 = zlen ys + 1) by (apply Z.mod_small; pose proof (zlen_nonneg _ ys); lia). rewrite MOD.
    assert (OR2 := OR). destruct OR2 as (R1 & R2 & R3 & R4 & R5 & R6).
    apply wp_bind. apply wp_bind.
    eapply (realloc_sets_wp (ha_sets xa) ys (zlen ys + 1) h1 ((p, CRRs (xs ++ [x'])) :: f1' ++ fr ++ f2 ++ L)); [exact Z2|reflexivity| |].
    { eapply owns_perm; [exact O1|]. perm. }
    intros q h2 NQ2 O2.
    set (ns := fun n0 pp => mkHset (hr_len x) (hr_name x) (hr_type x) (hr_class x) (hr_ttl x) n0 pp).
    set (news := {| rs_name := rr_name r; rs_type := rr_type r; rs_class := rr_class r; rs_ttl := rr_ttl r;
             rs_rdatas := match rr_rdata r with Some d => [d] | None => [] end |}).
    assert (FIN : forall n0 pp g h3, own_set news (ns n0 pp) g ->
      owns h3 ((q, CSets (ys ++ [hset0])) :: g ++ (p, CRRs (xs ++ [x'])) :: f1' ++ f2 ++ L) ->
      wp (l <-- load_sets q ;;; l0 <-- upd l (zlen ys + 1 - 1) (ns n0 pp) ;;; store q (CSets l0) ;;;;
          ret (mkHarr (zlen xs + 1) p (zlen ys + 1) q, mkHrr 0 0 (hr_type x) (hr_class x) (hr_ttl x) 0)) h3
        (fun ar h' => wp (clear_rr_h (snd ar) ;;;; ret (fst ar)) h' (fun xa' h'' => exists fa', own_arr {| a_rrs := a_rrs a ++ [kept r sec];
          a_rrsets := a_rrsets a ++ [news] |} xa' fa' /\ owns h'' (fa' ++ L)))).
    { intros n0 pp g h3 OS O3. apply wp_bind. eapply wp_load_sets; [exact O3|left; reflexivity|].
      apply wp_bind. eapply wp_upd; [lia|].
      apply wp_bind. eapply wp_store; [exact O3|reflexivity|]. intros h4 O4. apply wp_ret. cbn [fst snd].
      apply wp_bind. unfold clear_rr_h. cbn [hr_name hr_rdata]. apply wp_bind. apply wp_free_null. apply wp_bind. apply wp_free_null. apply wp_ret. apply wp_ret.
      destruct (own_list_snoc _ _ _ _ _ _ _ _ _ OL2 OS) as (f2' & OL2' & P2).
      exists (block p (CRRs (xs ++ [x'])) ++ f1' ++ block q (CSets (ys ++ [ns n0 pp])) ++ f2'). split.
      - exists (xs ++ [x']), f1', (ys ++ [ns n0 pp]), f2'. cbn [a_rrs a_rrsets ha_nrrs ha_rrs ha_nsets ha_sets].
        split; [exact OL1'|]. split; [exact OL2'|]. split; [exact NEWLEN|]. split; [rewrite zlen_app; reflexivity|]. split; [contradiction|]. split; [contradiction|]. reflexivity.
      - rewrite !block_some by auto. eapply owns_perm; [exact O4|]. rewrite P2. perm. }
    destruct (sec =? 0) eqn:SEC; cbn [negb].
    - apply wp_bind. apply wp_ret. apply wp_bind. apply wp_ret. rewrite NQ in R6 by lia. destruct R6 as (R6 & RF). rewrite R6.
      apply (FIN 0 0 [(hr_name x, CBytes (rr_name r))]).
      + unfold own_set, ns, news. cbn [hs_len hs_name hs_type hs_class hs_ttl hs_n hs_rdatas rs_name rs_type rs_class rs_ttl rs_rdatas].
        rewrite NQ by lia. repeat (split; [auto|]). exists []. split; [reflexivity|]. split; [auto|]. reflexivity.
      + eapply owns_perm; [exact O2|]. subst fr. perm.
    - destruct (rr_rdata r) as [d|] eqn:RD; [|exfalso; apply ND; [lia|auto]].
      apply wp_bind. eapply wp_alloc; [exact O2|]. intros pp h3 NPP O3.
      apply wp_bind. apply wp_bind. eapply wp_load_ptrs; [exact O3|left; reflexivity|].
      apply wp_bind. eapply (wp_upd _ [] (-1) (hr_rdata x) []); [reflexivity|]. cbn [app].
      eapply wp_store; [exact O3|reflexivity|]. intros h4 O4.
      apply (FIN 1 pp [(hr_name x, CBytes (rr_name r)); (pp, CPtrs [hr_rdata x]); (hr_rdata x, CRdata d)]).
      + unfold own_set, ns, news. cbn [hs_len hs_name hs_type hs_class hs_ttl hs_n hs_rdatas rs_name rs_type rs_class rs_ttl rs_rdatas].
        repeat (split; [auto|]). exists [hr_rdata x]. split; [reflexivity|]. split; [contradiction|]. rewrite block_some by auto. reflexivity.
      + eapply owns_perm; [exact O4|]. subst fr. perm. }
  unfold insert_rr. destruct (sec =? 0) eqn:SEC.
  - (* question section: no search *)
    assert (S0 : search_h (Z.to_nat (ha_nsets xa)) sec x (ha_sets xa) h1 = HOk None h1).
    { destruct (Z.to_nat (ha_nsets xa)); cbn [search_h]; [reflexivity|]. rewrite SEC. reflexivity. }
    assert (W : wp (search_h (Z.to_nat (ha_nsets xa)) sec x (ha_sets xa)) h1 (fun o h' => o = None /\ h' = h1)) by (exists None, h1; auto).
    eapply sim_wp; [exact W|]. cbv beta. intros ? ? (-> & ->).
    apply sim_ok. eapply wp_mono; [apply NEW; exact O1|]. cbv beta. intros xa' h' (fa' & OA & O'). exists fa'. split; [|exact O'].
    unfold kept in OA. rewrite SEC in OA. rewrite (NQ ltac:(lia)) in OA. exact OA.
  - destruct (rr_rdata r) as [d|] eqn:RD; [|exfalso; apply ND; [lia|auto]].
    assert (KEPT : kept r sec = r). { unfold kept. rewrite SEC. destruct r. cbn in *. reflexivity. }
    assert (W : wp (search_h (Z.to_nat (ha_nsets xa)) sec x (ha_sets xa)) h1 (fun o h' => found_at r (a_rrsets a) o /\ h' = h1)).
    { rewrite N2, zlen_to_nat. destruct (Z.eq_dec (ha_sets xa) 0) as [Z0|Z0].
      - specialize (Z2 Z0). subst ys. cbn [length search_h]. apply wp_ret. apply own_list_nil in OL2 as (-> & _). split; [intros s []|auto].
      - rewrite <- LE2. rewrite (block_some _ _ Z0) in O1.
        eapply (search_wp sec r x fr (a_rrsets a) ys f2 (ha_sets xa) h1); [lia|exact OR|exact OL2|exact O1| | | |auto|rewrite app_nil_r; reflexivity|intros t []].
        + intros c I. right. apply in_or_app. right. apply in_or_app. left. exact I.
        + intros c I. right. do 3 (apply in_or_app; right). apply in_or_app. left. exact I.
        + right. do 2 (apply in_or_app; right). left. reflexivity. }
    eapply sim_wp; [exact W|]. clear W. cbv beta. intros o h2 (F & ->).
    destruct (join_last_found r d (a_rrsets a)) as (JN & JS & JN2).
    destruct o as [j|]; cbn [found_at] in F.
    + destruct F as (A & s & B & ES & LJ & C & NB). rewrite (JS A s B ES C NB).
      apply sim_ok. unfold join_h. cbn [ha_sets].
      assert (OLS := OL2). rewrite ES in OLS. apply own_list_split in OLS as (m1 & y & m2 & g1 & g & g2 & EY & EF & OA & OS & OB).
      assert (Z0 : ha_sets xa <> 0). { intros Z0. specialize (Z2 Z0). rewrite Z2 in EY. destruct m1; discriminate. }
      rewrite (block_some _ _ Z0) in O1.
      assert (LM : zlen m1 = j). { pose proof (own_list_len _ _ _ _ _ _ OA). unfold zlen in *. lia. }
      destruct OS as (S1 & S2 & S3 & S4 & S5 & S6 & ps & LP & PZ & EG).
      assert (B3 : zlen (rs_rdatas s) <= 65534). { rewrite Forall_forall in SZ3. apply SZ3. rewrite ES. apply in_or_app. right. left. reflexivity. }
      assert (LPS : zlen ps = zlen (rs_rdatas s)) by (unfold zlen; lia).
      assert (MOD : (hs_n y + 1) mod 2 ^ 16 = zlen ps + 1). { rewrite S6, <- LPS. apply Z.mod_small. pose proof (zlen_nonneg _ ps). lia. }
      apply wp_bind. apply wp_bind. rewrite EY in O1. eapply wp_load_sets; [exact O1|right; do 2 (apply in_or_app; right); left; reflexivity|].
      apply wp_bind. eapply wp_elem; [exact LM|]. rewrite MOD.
      assert (OR2 := OR). destruct OR2 as (R1 & R2 & R3 & R4 & R5 & R6). rewrite RD in R6. subst fr.
      apply wp_bind. eapply (realloc_ptrs_wp (hs_rdatas y) ps (zlen ps + 1) h1
        ((ha_sets xa, CSets (m1 ++ y :: m2)) :: (hs_name y, CBytes (rs_name s)) :: combine ps (map CRdata (rs_rdatas s)) ++ g1 ++ g2 ++
         (p, CRRs (xs ++ [x'])) :: f1' ++ [(hr_name x, CBytes (rr_name r)); (hr_rdata x, CRdata d)] ++ L)); [exact PZ|reflexivity| |].
      { eapply owns_perm; [exact O1|]. rewrite EF, EG. perm. }
      intros q h2 NQ2 O2.
      apply wp_bind. eapply wp_load_ptrs; [exact O2|left; reflexivity|].
      apply wp_bind. eapply wp_upd; [lia|].
      apply wp_bind. eapply wp_store; [exact O2|reflexivity|]. intros h3 O3.
      apply wp_bind. eapply wp_upd; [exact LM|].
      match goal with |- context [store _ (CSets (m1 ++ ?y0 :: m2))] => set (y' := y0) end.
      apply wp_bind. eapply (wp_store (ha_sets xa) (CSets (m1 ++ y :: m2)) (CSets (m1 ++ y' :: m2))); [exact O3|apply perm_swap|]. intros h4 O4.
      apply wp_ret. apply wp_bind. unfold clear_rr_h. cbn [hr_name hr_rdata].
      apply wp_bind. eapply (wp_free (hr_name x) (CBytes (rr_name r)) h4
        ((ha_sets xa, CSets (m1 ++ y' :: m2)) :: (q, CPtrs (ps ++ [hr_rdata x])) :: (hs_name y, CBytes (rs_name s)) :: combine ps (map CRdata (rs_rdatas s)) ++ g1 ++ g2 ++
         (p, CRRs (xs ++ [x'])) :: f1' ++ [(hr_rdata x, CRdata d)] ++ L)); [exact O4|perm|]. intros h5 O5.
      apply wp_bind. apply wp_free_null. apply wp_ret. apply wp_ret.
      assert (OSY : own_set (join_rrset r d s) y' ((hs_name y, CBytes (rs_name s)) :: block q (CPtrs (ps ++ [hr_rdata x])) ++
         combine (ps ++ [hr_rdata x]) (map CRdata (rs_rdatas s ++ [d])))).
      { unfold own_set, join_rrset, y'. cbn [hs_len hs_name hs_type hs_class hs_ttl hs_n hs_rdatas rs_name rs_type rs_class rs_ttl rs_rdatas].
        split; [auto|]. split; [auto|]. split; [auto|]. split; [auto|]. split; [rewrite R5, S5; reflexivity|]. split; [rewrite zlen_app; change (zlen [d]) with 1; lia|].
        exists (ps ++ [hr_rdata x]). split; [rewrite !app_length; cbn [length]; lia|]. split; [contradiction|]. reflexivity. }
      pose proof (own_list_join _ _ _ _ _ _ _ _ _ _ _ _ OA OSY OB) as OLJ.
      exists (block p (CRRs (xs ++ [x'])) ++ f1' ++ block (ha_sets xa) (CSets (m1 ++ y' :: m2)) ++ (g1 ++ ((hs_name y, CBytes (rs_name s)) :: block q (CPtrs (ps ++ [hr_rdata x])) ++
         combine (ps ++ [hr_rdata x]) (map CRdata (rs_rdatas s ++ [d]))) ++ g2)). split.
      * exists (xs ++ [x']), f1', (m1 ++ y' :: m2), (g1 ++ ((hs_name y, CBytes (rs_name s)) :: block q (CPtrs (ps ++ [hr_rdata x])) ++
         combine (ps ++ [hr_rdata x]) (map CRdata (rs_rdatas s ++ [d]))) ++ g2). cbn [a_rrs a_rrsets ha_nrrs ha_rrs ha_nsets ha_sets].
        split; [rewrite KEPT in OL1'; exact OL1'|]. split; [exact OLJ|]. split; [exact NEWLEN|]. split; [rewrite N2, EY, !zlen_app, !zlen_cons; reflexivity|]. split; [contradiction|]. split; [contradiction|]. reflexivity.
      * rewrite !block_some by auto. rewrite map_app. cbn [map]. rewrite combine_snoc by (rewrite map_length; auto).
        eapply owns_perm; [exact O5|]. perm.
    + rewrite (JN2 F). apply sim_ok. eapply wp_mono; [apply NEW; exact O1|]. cbv beta. intros xa' h' (fa' & OA & O'). exists fa'. split; [|exact O'].
      rewrite KEPT in OA. exact OA.
Qed.
