(** ProofRRset.v: proofs about ModelRRset.v. *)
From Coq Require Import Permutation Sorted.
From Verif Require Import Base Lib SpecName SpecMessage SpecEncode SpecRRset ModelName ModelDescr ModelParse ModelRRset.

(** ** host byte order *)
Lemma store16_host : forall big v, 0 <= v < 65536 -> store16 big v = host big 2 v.
Proof.
  intros big v H. unfold store16, host. cbn [digits rev app]. rewrite (Z.mod_small (v / 256) 256); [destruct big; reflexivity|].
  split; [apply Z.div_pos; lia|apply Z.div_lt_upper_bound; lia].
Qed.
Lemma div2 : forall v, v / 256 / 256 = v / 65536.
Proof. intros. rewrite Z.div_div by lia. reflexivity. Qed.
Lemma div3 : forall v, v / 65536 / 256 = v / 16777216.
Proof. intros. rewrite Z.div_div by lia. reflexivity. Qed.
Lemma store32_host : forall big v, 0 <= v < 2 ^ 32 -> store32 big v = host big 4 v.
Proof.
  intros big v H. unfold store32, host. cbn [digits rev app].
  rewrite (div2 v), (div3 v). rewrite (Z.mod_small (v / 16777216) 256); [destruct big; reflexivity|].
  split; [apply Z.div_pos; lia|apply Z.div_lt_upper_bound; lia].
Qed.
Lemma load16_host : forall big v, 0 <= v < 65536 -> load16 big (host big 2 v) = v.
Proof.
  intros big v H. rewrite <- store16_host by auto. unfold store16, load16, be16. pose proof (Z.div_mod v 256 ltac:(lia)). destruct big; lia.
Qed.
Lemma load32_host : forall big v, 0 <= v < 2 ^ 32 -> load32 big (host big 4 v) = v.
Proof.
  intros big v H. rewrite <- store32_host by auto. unfold store32, load32, be32.
  assert (((v / 16777216 * 256 + v / 65536 mod 256) * 256 + v / 256 mod 256) * 256 + v mod 256 = v) as E.
  { pose proof (Z.div_mod v 256 ltac:(lia)). pose proof (Z.div_mod (v / 256) 256 ltac:(lia)). pose proof (Z.div_mod (v / 256 / 256) 256 ltac:(lia)).
    rewrite (div2 v), (div3 v) in *. lia. }
  destruct big; cbn [rev app]; exact E.
Qed.
Lemma load16_range : forall big l, zlen l = 2 -> bytes_ok l -> 0 <= load16 big l < 65536 /\ host big 2 (load16 big l) = l.
Proof.
  intros big l L B. destruct l as [|a [|b [|c l]]]; try (exfalso; zl; pose proof (zlen_nonneg _ l); lia); try (zl; lia).
  inversion B as [|x y Ha B']; subst. inversion B' as [|x y Hb _]; subst. unfold is_byte in *.
  assert (G : 0 <= load16 big [a; b] < 65536) by (unfold load16, be16; destruct big; lia). split; auto.
  rewrite <- store16_host by auto. unfold store16, load16, be16. destruct big; f_equal; try (f_equal).
  - rewrite Z.div_add_l by lia. rewrite Z.div_small; lia.
  - rewrite Z.add_comm, Z.mod_add by lia. apply Z.mod_small; lia.
  - rewrite Z.add_comm, Z.mod_add by lia. apply Z.mod_small; lia.
  - rewrite Z.div_add_l by lia. rewrite Z.div_small; lia.
Qed.
Lemma load32_range : forall big l, zlen l = 4 -> bytes_ok l -> 0 <= load32 big l < 2 ^ 32 /\ host big 4 (load32 big l) = l.
Proof.
  intros big l L B. destruct l as [|a [|b [|c [|d [|e l]]]]]; try (exfalso; zl; pose proof (zlen_nonneg _ l); lia); try (zl; lia).
  unfold bytes_ok in B. rewrite !Forall_cons_iff in B. destruct B as (Ha & Hb & Hc & Hd & _). unfold is_byte in *.
  assert (G : 0 <= load32 big [a; b; c; d] < 2 ^ 32) by (unfold load32, be32; destruct big; lia). split; auto.
  assert (K : forall a b c d, 0 <= a < 256 -> 0 <= b < 256 -> 0 <= c < 256 -> 0 <= d < 256 ->
    digits 4 (be32 a b c d) = [d; c; b; a]).
  { clear. intros a b c d Ha Hb Hc Hd. unfold be32. cbn [digits].
    assert (S : forall q r, 0 <= r < 256 -> (q * 256 + r) mod 256 = r /\ (q * 256 + r) / 256 = q).
    { intros q r Hr. split; [rewrite Z.add_comm, Z.mod_add by lia; apply Z.mod_small; lia|]. rewrite Z.div_add_l by lia. rewrite Z.div_small; lia. }
    destruct (S ((a * 256 + b) * 256 + c) d Hd) as [-> ->]. destruct (S (a * 256 + b) c Hc) as [-> ->]. destruct (S a b Hb) as [-> ->].
    rewrite Z.mod_small by lia. reflexivity. }
  unfold host, load32. destruct big; rewrite K by lia; reflexivity.
Qed.
Lemma digits_length : forall n v, length (digits n v) = n.
Proof. induction n; intros; cbn [digits length]; auto. Qed.
Lemma zlen_host : forall big n v, zlen (host big n v) = Z.of_nat n.
Proof. intros. unfold host, zlen. destruct big; rewrite ?rev_length, digits_length; auto. Qed.
Lemma digits_bytes : forall n v, bytes_ok (digits n v).
Proof. induction n; intros; cbn [digits]; [constructor|]. constructor; [|apply IHn]. unfold is_byte. apply Z.mod_pos_bound. lia. Qed.
Lemma host_bytes : forall big n v, bytes_ok (host big n v).
Proof. intros. unfold host. destruct big; [apply Forall_rev|]; apply digits_bytes. Qed.

(** ** serialise *)
Lemma fold_size : forall rds big a, fold_left (fun sz rd => sz + 2 + zlen rd) rds a = a + zlen (concat (map (serial_rdata big) rds)).
Proof.
  induction rds as [|d rds IH]; intros big a; cbn [fold_left map concat]; [zlia|].
  rewrite (IH big). unfold serial_rdata at 2. zl. rewrite zlen_host. lia.
Qed.
Lemma serialize_size_spec : forall big s, serialize_size s = zlen (serial big s).
Proof.
  intros big s. unfold serialize_size, serial. rewrite (fold_size _ big). zl. rewrite !zlen_host. lia.
Qed.
Lemma serialize_rdatas_spec : forall rds big cap out, Forall (fun d => bytes_ok d /\ zlen d < 65536) rds ->
  zlen out + zlen (concat (map (serial_rdata big) rds)) <= cap ->
  serialize_rdatas big cap out rds = Ok (out ++ concat (map (serial_rdata big) rds)).
Proof.
  induction rds as [|d rds IH]; intros big cap out W H; cbn [serialize_rdatas map concat] in *; [rewrite app_nil_r; reflexivity|].
  inversion W as [|x y [_ L] W']; subst. pose proof (zlen_nonneg _ d). pose proof (zlen_nonneg _ (concat (map (serial_rdata big) rds))).
  rewrite store16_host by lia. unfold serial_rdata at 1 in H. zl. rewrite zlen_host in H.
  rewrite push_ok by (rewrite zlen_host; lia). cbn [bind]. rewrite push_ok by (zl; rewrite zlen_host; lia). cbn [bind].
  rewrite IH; auto; [|zl; rewrite zlen_host; lia]. unfold serial_rdata at 2. rewrite <- !app_assoc. reflexivity.
Qed.
Theorem serialize_spec : forall big cap s, wf_rrset s -> zlen (serial big s) <= cap -> serialize_rrset big cap s = Ok (serial big s).
Proof.
  intros big cap s (B & L & T & C & TT & N & R) H. unfold serialize_rrset, serial in *. zl. rewrite !zlen_host in H.
  pose proof (zlen_nonneg _ (rs_name s)). pose proof (zlen_nonneg _ (rs_rdatas s)). pose proof (zlen_nonneg _ (concat (map (serial_rdata big) (rs_rdatas s)))).
  rewrite !store16_host, store32_host by lia.
  rewrite push_ok by (zl; lia). cbn [bind app]. do 4 (rewrite push_ok by (zl; rewrite ?zlen_host; lia); cbn [bind]).
  rewrite push_ok by (zl; rewrite ?zlen_host; lia); cbn [bind].
  rewrite serialize_rdatas_spec; auto; [|zl; rewrite ?zlen_host; lia].
  f_equal. cbn [app]. rewrite <- !app_assoc. cbn [app]. reflexivity.
Qed.

(** ** deserialise *)
Lemma dcopy_some : forall m l r br sz len, m = l ++ r -> zlen l = len -> br + len <= sz -> dcopy m br sz len = Ok (Some (l, r, br + len)).
Proof.
  intros m l r br sz len -> L H. unfold dcopy. replace (br + len >? sz) with false by lia.
  rewrite take_rd_app by auto. cbn [bind]. rewrite adv_app by auto. reflexivity.
Qed.
Lemma dcopy_cases : forall w x br sz len, 0 <= len -> zlen w = sz - br ->
  (exists l w', w = l ++ w' /\ zlen l = len /\ zlen w' = sz - (br + len) /\ dcopy (w ++ x) br sz len = Ok (Some (l, w' ++ x, br + len))) \/
  (dcopy (w ++ x) br sz len = Ok None /\ zlen w < len).
Proof.
  intros w x br sz len L H. destruct (Z_lt_dec (zlen w) len).
  - right. unfold dcopy. replace (br + len >? sz) with true by lia. auto.
  - left. exists (firstn (Z.to_nat len) w), (skipn (Z.to_nat len) w). rewrite firstn_skipn. split; auto.
    assert (zlen (firstn (Z.to_nat len) w) = len) as F by (apply zlen_firstn; lia). split; auto.
    split; [rewrite zlen_skipn; lia|]. apply dcopy_some; auto; [|lia]. rewrite app_assoc, firstn_skipn. auto.
Qed.

Definition the_obj (s : rrset) : rrset_obj :=
  {| o_name_len := zlen (rs_name s); o_name := Some (rs_name s); o_type := rs_type s; o_class := rs_class s; o_ttl := rs_ttl s;
     o_n_rdatas := zlen (rs_rdatas s); o_rdatas := Some (map Some (rs_rdatas s)) |}.
Lemma holds_iff : forall o s, holds o s <-> o = the_obj s.
Proof.
  intros o s. split; [|intros ->; repeat split]. intros (A & B & C & D & E & F & G). destruct o; cbn in *. unfold the_obj. congruence.
Qed.

Definition fails (o : outcome (res * rrset_obj)) : Prop := exists c, o = Ok (res_overflow, c) /\ cleared c.
Lemma dfail_ok : forall o, (o_n_rdatas o = 0 \/ exists l, o_rdatas o = Some l /\ zlen l = o_n_rdatas o) -> fails (dfail o).
Proof.
  intros o H. unfold fails, dfail, clear_rrset.
  replace ((0 <? o_n_rdatas o) && match o_rdatas o with None => true | Some l => zlen l <? o_n_rdatas o end) with false.
  - cbn [bind]. eexists. split; [reflexivity|]. repeat split.
  - destruct H as [-> |(l & -> & <-)]; [reflexivity|]. lia.
Qed.

Definition wf_d (d : bytes) : Prop := bytes_ok d /\ zlen d < 65536.

Lemma deserialize_rdatas_complete : forall rds big m r br sz o done, Forall wf_d rds ->
  m = concat (map (serial_rdata big) rds) ++ r -> br + zlen (concat (map (serial_rdata big) rds)) <= sz ->
  deserialize_rdatas (length rds) big m br sz o done = Ok (res_success, with_rdatas o (done ++ rds) 0).
Proof.
  induction rds as [|d rds IH]; intros big m r br sz o done W E H; cbn [length deserialize_rdatas map concat] in *; [rewrite app_nil_r; reflexivity|].
  inversion W as [|? ? [_ L] W']; subst. pose proof (zlen_nonneg _ d). unfold serial_rdata at 1. unfold serial_rdata at 1 in H.
  pose proof (zlen_nonneg _ (concat (map (serial_rdata big) rds))). zl. rewrite zlen_host in H.
  rewrite <- !app_assoc.
  rewrite (dcopy_some _ _ _ br sz 2 eq_refl) by (rewrite ?zlen_host; lia). cbn [bind]. rewrite load16_host by lia.
  rewrite (dcopy_some _ _ _ (br + 2) sz (zlen d) eq_refl) by lia. cbn [bind]. erewrite IH; [|exact W'|reflexivity|lia]. rewrite <- app_assoc. reflexivity.
Qed.

Lemma deserialize_rdatas_sound : forall left big w x br sz o done, bytes_ok w -> zlen w = sz - br -> o_n_rdatas o = zlen done + Z.of_nat left ->
  (exists rds r, Forall wf_d rds /\ length rds = left /\ w = concat (map (serial_rdata big) rds) ++ r /\
     deserialize_rdatas left big (w ++ x) br sz o done = Ok (res_success, with_rdatas o (done ++ rds) 0)) \/
  fails (deserialize_rdatas left big (w ++ x) br sz o done).
Proof.
  induction left as [|left IH]; intros big w x br sz o done B H N; cbn [deserialize_rdatas].
  - left. exists [], w. rewrite app_nil_r. repeat split; auto.
  - assert (F : forall dn lf, zlen dn + Z.of_nat lf = o_n_rdatas o -> fails (dfail (with_rdatas o dn lf))).
    { intros dn lf E. apply dfail_ok. right. eexists. split; [reflexivity|]. zl. exact E. }
    destruct (dcopy_cases w x br sz 2 ltac:(lia) H) as [(l & w' & -> & L & H' & ->)|[-> _]]; cbn [bind]; [|right; apply F; lia].
    apply bytes_ok_app in B as [Bl B]. destruct (load16_range big l L Bl) as [R1 R2].
    destruct (dcopy_cases w' x (br + 2) sz (load16 big l) ltac:(lia) H') as [(d & w'' & -> & L' & H'' & ->)|[-> _]]; cbn [bind].
    2:{ right. apply F. zl. lia. }
    apply bytes_ok_app in B as [Bd B]. edestruct (IH big w'' x _ sz o (done ++ [d]) B H'') as [(rds & r & W & Ln & -> & E)|E]; [zl; lia| |right; exact E].
    left. exists (d :: rds), r. split; [constructor; auto; split; auto; lia|]. split; [cbn; lia|]. split.
    + cbn [map concat]. change (serial_rdata big d) with (host big 2 (zlen d) ++ d). rewrite L', R2, <- !app_assoc. reflexivity.
    + rewrite E, <- app_assoc. reflexivity.
Qed.

Lemma wf_rrset_len : forall s, wf_rrset s -> 0 <= zlen (rs_name s) < 256 /\ 0 <= zlen (rs_rdatas s) < 65536.
Proof. intros s (_ & L & _ & _ & _ & N & _). pose proof (zlen_nonneg _ (rs_name s)). pose proof (zlen_nonneg _ (rs_rdatas s)). lia. Qed.

Theorem deserialize_complete : forall big s r sz, wf_rrset s -> zlen (serial big s) <= sz ->
  deserialize_rrset big (serial big s ++ r) sz = Ok (res_success, the_obj s).
Proof.
  intros big s r sz W H. pose proof (wf_rrset_len _ W) as [L1 L2]. destruct W as (B & _ & T & C & TT & _ & R). unfold deserialize_rrset, serial in *. zl. rewrite !zlen_host in H.
  pose proof (zlen_nonneg _ (concat (map (serial_rdata big) (rs_rdatas s)))).
  rewrite <- !app_assoc. change ((zlen (rs_name s) :: rs_name s) ++ ?x) with ([zlen (rs_name s)] ++ rs_name s ++ x).
  rewrite (dcopy_some _ _ _ 0 sz 1 eq_refl) by (reflexivity || lia). cbn [bind hd].
  rewrite (dcopy_some _ _ _ (0 + 1) sz (zlen (rs_name s)) eq_refl) by (reflexivity || lia). cbn [bind].
  rewrite (dcopy_some _ _ _ (0 + 1 + zlen (rs_name s)) sz 2 eq_refl) by (rewrite ?zlen_host; lia). cbn [bind].
  rewrite (dcopy_some _ _ _ (0 + 1 + zlen (rs_name s) + 2) sz 2 eq_refl) by (rewrite ?zlen_host; lia). cbn [bind].
  rewrite (dcopy_some _ _ _ (0 + 1 + zlen (rs_name s) + 2 + 2) sz 4 eq_refl) by (rewrite ?zlen_host; lia). cbn [bind].
  rewrite (dcopy_some _ _ _ (0 + 1 + zlen (rs_name s) + 2 + 2 + 4) sz 2 eq_refl) by (rewrite ?zlen_host; lia). cbn [bind].
  rewrite !load16_host, load32_host by lia. rewrite zlen_to_nat. erewrite deserialize_rdatas_complete; [|exact R|reflexivity|lia].
  unfold with_rdatas, the_obj. cbn. rewrite app_nil_r. reflexivity.
Qed.

Theorem deserialize_sound : forall big w x, bytes_ok w ->
  (exists s r, wf_rrset s /\ w = serial big s ++ r /\ deserialize_rrset big (w ++ x) (zlen w) = Ok (res_success, the_obj s)) \/
  fails (deserialize_rrset big (w ++ x) (zlen w)).
Proof.
  intros big w x B. assert (F : forall o, o_n_rdatas o = 0 -> fails (dfail o)) by (intros; apply dfail_ok; auto).
  unfold deserialize_rrset. remember (zlen w) as sz eqn:Hz. assert (H0 : zlen w = sz - 0) by lia. clear Hz.
  destruct (dcopy_cases w x 0 sz 1 ltac:(lia) H0) as [(l0 & w0 & -> & L0 & H1 & ->)|[-> _]]; cbn [bind]; [|right; apply F; reflexivity].
  apply bytes_ok_app in B as [B0 B]. destruct l0 as [|nl [|? l0]]; try (exfalso; zl; pose proof (zlen_nonneg _ l0); lia); [zl; lia|]. cbn [hd].
  inversion B0 as [|? ? Bn _]; subst. unfold is_byte in Bn.
  destruct (dcopy_cases w0 x _ sz nl ltac:(lia) H1) as [(nm & w1 & -> & L1 & H2 & ->)|[-> _]]; cbn [bind]; [|right; apply F; reflexivity].
  apply bytes_ok_app in B as [B1 B].
  destruct (dcopy_cases w1 x _ sz 2 ltac:(lia) H2) as [(t & w2 & -> & L2 & H3 & ->)|[-> _]]; cbn [bind]; [|right; apply F; reflexivity].
  apply bytes_ok_app in B as [B2 B].
  destruct (dcopy_cases w2 x _ sz 2 ltac:(lia) H3) as [(c & w3 & -> & L3 & H4 & ->)|[-> _]]; cbn [bind]; [|right; apply F; reflexivity].
  apply bytes_ok_app in B as [B3 B].
  destruct (dcopy_cases w3 x _ sz 4 ltac:(lia) H4) as [(tt & w4 & -> & L4 & H5 & ->)|[-> _]]; cbn [bind]; [|right; apply F; reflexivity].
  apply bytes_ok_app in B as [B4 B].
  destruct (dcopy_cases w4 x _ sz 2 ltac:(lia) H5) as [(n & w5 & -> & L5 & H6 & ->)|[-> _]]; cbn [bind]; [|right; apply F; reflexivity].
  apply bytes_ok_app in B as [B5 B].
  destruct (load16_range big t L2 B2) as [Rt Et]. destruct (load16_range big c L3 B3) as [Rc Ec]. destruct (load32_range big tt L4 B4) as [Rtt Ett]. destruct (load16_range big n L5 B5) as [Rn En].
  edestruct (deserialize_rdatas_sound (Z.to_nat (load16 big n)) big w5 x) as [(rds & r & W & Ln & -> & E)|E]; [exact B|exact H6| | |right; exact E]; [cbn; lia|].
  left. exists {| rs_name := nm; rs_type := load16 big t; rs_class := load16 big c; rs_ttl := load32 big tt; rs_rdatas := rds |}, r.
  assert (Zr : zlen rds = load16 big n) by (unfold zlen; lia).
  split; [|split].
  - unfold wf_rrset. cbn. repeat split; auto; try lia.
  - unfold serial. cbn. rewrite Zr, Et, Ec, Ett, En, L1, <- !app_assoc. reflexivity.
  - rewrite E. unfold with_rdatas, the_obj. cbn. rewrite app_nil_r, L1, Zr. reflexivity.
Qed.

Lemma serial_inj : forall big s s' r r', wf_rrset s -> wf_rrset s' -> serial big s ++ r = serial big s' ++ r' -> s = s' /\ r = r'.
Proof.
  intros big s s' r r' W W' E. assert (the_obj s = the_obj s') as O.
  { pose (sz := Z.max (zlen (serial big s)) (zlen (serial big s'))).
    pose proof (deserialize_complete big s r sz W ltac:(lia)) as D. pose proof (deserialize_complete big s' r' sz W' ltac:(lia)) as D'.
    rewrite E in D. congruence. }
  assert (s = s') as ->.
  { destruct s, s'; unfold the_obj in O; cbn in O. injection O as _ O1 O2 O3 O4 _ O5. f_equal; auto.
    clear -O5. revert rs_rdatas0 O5. induction rs_rdatas as [|a l IH]; intros [|b l'] E; cbn in E; try discriminate; auto. injection E as -> E. f_equal; auto. }
  apply app_inv_head in E. auto.
Qed.

(** ** Sorting *)
Lemma memcmp_spec : forall a b, length a = length b ->
  (memcmp a b < 0 <-> octets_lt a b) /\ (memcmp a b = 0 <-> a = b) /\ (0 < memcmp a b <-> octets_lt b a).
Proof.
  induction a as [|x a IH]; intros [|y b] L; try discriminate; cbn [memcmp].
  - split; [|split]; split; intros H; try lia; auto; inversion H.
  - injection L as L. destruct (IH b L) as (I1 & I2 & I3). destruct (x =? y) eqn:E.
    + assert (x = y) by lia. subst y. rewrite I1, I2, I3. split; [|split]; split; intros H; try (constructor; auto; fail).
      * inversion H; subst; auto; lia.
      * congruence.
      * injection H; auto.
      * inversion H; subst; auto; lia.
    + split; [|split]; split; intros H; try (constructor; lia).
      * inversion H; subst; lia.
      * lia.
      * injection H as -> ->. lia.
      * inversion H; subst; lia.
Qed.
Lemma rdata_cmp_le : forall a b, rdata_cmp a b <= 0 <-> rdata_le a b.
Proof.
  intros a b. unfold rdata_cmp, rdata_le. destruct (zlen a <? zlen b) eqn:E1; [split; [left; lia|lia]|].
  destruct (zlen a >? zlen b) eqn:E2; [split; [lia|intros [H|[H _]]; lia]|].
  assert (L : zlen a = zlen b) by lia. assert (L' : length a = length b) by (unfold zlen in L; lia).
  destruct (memcmp_spec a b L') as (I1 & I2 & I3). rewrite <- I1, <- I2. split; [intros; right; lia|intros [?|[_ ?]]; lia].
Qed.
Lemma rdata_cmp_anti : forall a b, (rdata_cmp a b <= 0 <-> 0 <= rdata_cmp b a).
Proof.
  intros a b. unfold rdata_cmp. destruct (zlen a <? zlen b) eqn:E1, (zlen b <? zlen a) eqn:E2; try lia.
  - replace (zlen b >? zlen a) with true by lia. lia.
  - replace (zlen a >? zlen b) with true by lia. lia.
  - replace (zlen a >? zlen b) with false by lia. replace (zlen b >? zlen a) with false by lia.
    assert (L' : length a = length b) by (unfold zlen in *; lia).
    destruct (memcmp_spec a b L') as (I1 & I2 & I3), (memcmp_spec b a (eq_sym L')) as (J1 & J2 & J3). rewrite <- I3 in J1.
    assert (memcmp a b = 0 <-> memcmp b a = 0) by (rewrite I2, J2; split; auto). lia.
Qed.
Lemma octets_lt_trans : forall a b c, octets_lt a b -> octets_lt b c -> octets_lt a c.
Proof.
  intros a b c H. revert c. induction H; intros c H2; inversion H2; subst; constructor; auto; lia.
Qed.
Lemma rdata_le_trans : forall a b c, rdata_le a b -> rdata_le b c -> rdata_le a c.
Proof.
  unfold rdata_le. intros a b c [H|[H [E|H']]] [G|[G [E'|G']]]; subst; try (left; lia); right; split; try lia; auto.
  right. eapply octets_lt_trans; eauto.
Qed.
Lemma rdata_le_total : forall a b, rdata_le a b \/ rdata_le b a.
Proof. intros a b. rewrite <- !rdata_cmp_le. pose proof (rdata_cmp_anti a b). pose proof (rdata_cmp_anti b a). lia. Qed.
Lemma octets_lt_irrefl : forall a b, octets_lt a b -> octets_lt b a -> False.
Proof. intros a b H. induction H; intros G; inversion G; subst; auto; lia. Qed.
Lemma rdata_le_antisym : forall a b, rdata_le a b -> rdata_le b a -> a = b.
Proof.
  unfold rdata_le. intros a b [H|[H [E|H']]] [G|[G [E'|G']]]; auto; try lia. destruct (octets_lt_irrefl _ _ H' G').
Qed.

Lemma insert_perm : forall cmp a l, Permutation (a :: l) (insert_by cmp a l).
Proof.
  intros cmp a l. induction l as [|b l IH]; cbn [insert_by]; auto. destruct (cmp a b <=? 0); auto.
  eapply Permutation_trans; [apply perm_swap|]. constructor. exact IH.
Qed.
Lemma qsort_perm : forall cmp l, Permutation l (qsort cmp l).
Proof. intros cmp l. induction l as [|a l IH]; cbn [qsort]; auto. eapply Permutation_trans; [|apply insert_perm]. constructor. exact IH. Qed.
Lemma insert_sorted : forall a l, StronglySorted rdata_le l -> StronglySorted rdata_le (insert_by rdata_cmp a l).
Proof.
  intros a l S. induction S as [|b l S IH F]; cbn [insert_by]; [repeat constructor|].
  destruct (rdata_cmp a b <=? 0) eqn:E.
  - assert (rdata_le a b) as R by (apply rdata_cmp_le; lia). constructor; [constructor; auto|]. constructor; auto.
    eapply Forall_impl; [|exact F]. intros c Hc. eapply rdata_le_trans; eauto.
  - constructor; auto. eapply Permutation_Forall; [apply insert_perm|]. constructor; auto.
    destruct (rdata_le_total a b) as [G|G]; auto. apply rdata_cmp_le in G. lia.
Qed.
Lemma qsort_sorted : forall l, StronglySorted rdata_le (qsort rdata_cmp l).
Proof. induction l as [|a l IH]; cbn [qsort]; [constructor|apply insert_sorted; auto]. Qed.
Lemma sorted_unique : forall l l', StronglySorted rdata_le l -> StronglySorted rdata_le l' -> Permutation l l' -> l = l'.
Proof.
  intros l l' S. revert l'. induction S as [|a l S IH F]; intros l' S' P; [apply Permutation_nil in P; auto|].
  destruct S' as [|b l' S' F']; [symmetry in P; apply Permutation_nil in P; discriminate|].
  assert (a = b) as ->.
  { assert (I : In a (b :: l')) by (eapply Permutation_in; [exact P|left; auto]). assert (J : In b (a :: l)) by (eapply Permutation_in; [symmetry; exact P|left; auto]).
    rewrite Forall_forall in F, F'. destruct I as [<- |I]; auto. destruct J as [<- |J]; auto. apply rdata_le_antisym; auto. }
  f_equal. apply IH; auto. eapply Permutation_cons_inv; eauto.
Qed.
Lemma StronglySorted_ext : forall (R R' : bytes -> bytes -> Prop) l, (forall a b, R a b <-> R' a b) -> StronglySorted R l -> StronglySorted R' l.
Proof. intros R R' l E S. induction S; constructor; auto. eapply Forall_impl; [|eassumption]. intros; apply E; auto. Qed.
Lemma qsort_any : forall l l', qsort_result rdata_cmp l l' <-> l' = qsort rdata_cmp l.
Proof.
  intros l l'. split.
  - intros [P S]. apply (StronglySorted_ext _ _ _ rdata_cmp_le) in S. apply sorted_unique; auto; [apply qsort_sorted|]. eapply Permutation_trans; [symmetry; exact P|]. apply qsort_perm.
  - intros ->. split; [apply qsort_perm|]. eapply StronglySorted_ext; [|apply qsort_sorted]. intros; symmetry; apply rdata_cmp_le.
Qed.
Lemma sort_rrset_rdatas : forall s, rs_rdatas (sort_rrset s) = qsort rdata_cmp (rs_rdatas s).
Proof.
  intros s. unfold sort_rrset. cbn. destruct (zlen (rs_rdatas s) >? 1) eqn:E; auto.
  destruct (rs_rdatas s) as [|a [|b l]]; auto. exfalso. zl. pose proof (zlen_nonneg _ l). lia.
Qed.
