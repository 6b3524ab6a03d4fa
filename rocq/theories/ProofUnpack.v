(** ProofUnpack.v: unpack_name, copy_uname, skip_name, len_uname. *)
From Verif Require Import Base Lib SpecName ModelName.

Lemma prewire_cons : forall l ls, prewire (l :: ls) = zlen l :: l ++ prewire ls.
Proof. reflexivity. Qed.
Lemma zlen_prewire_nil : zlen (prewire []) = 0.
Proof. reflexivity. Qed.
Lemma prewire_app : forall a b, prewire (a ++ b) = prewire a ++ prewire b.
Proof. intros. unfold prewire. rewrite map_app, concat_app. reflexivity. Qed.
Lemma wire_cons : forall l ls, wire (l :: ls) = zlen l :: l ++ wire ls.
Proof. intros. unfold wire. rewrite prewire_cons. simpl. rewrite <- app_assoc. reflexivity. Qed.
Lemma zlen_wire : forall ls, zlen (wire ls) = zlen (prewire ls) + 1.
Proof. intros. unfold wire. zlia. Qed.
Lemma zlen_prewire_cons : forall l ls, zlen (prewire (l :: ls)) = 1 + zlen l + zlen (prewire ls).
Proof. intros. rewrite prewire_cons. zlia. Qed.

Lemma ptr_shift : forall hi lo, 192 <= hi < 256 -> Z.shiftl (Z.land hi 63) 8 + lo = ptr_target hi lo.
Proof.
  intros hi lo H. unfold ptr_target. rewrite Z.shiftl_mul_pow2 by lia.
  change 63 with (Z.ones 6). rewrite Z.land_ones by lia. replace (hi mod 2 ^ 6) with (hi - 192); [lia|].
  apply Z.mod_unique with (q := 3); lia.
Qed.

(** ** unpack *)

(** One-step equations. *)
Lemma unpack_root : forall k m eop i total out, octets_at m i [0] -> zlen out + 1 <= 255 ->
  unpack_loop (S k) m eop i total out = Ok (out ++ [0], total + 1).
Proof.
  intros. simpl. rewrite (proj2 (rd_ok m i 0)) by auto. simpl. rewrite push_ok; [reflexivity|]. unfold MAXLEN_NAME. zlia.
Qed.

Lemma unpack_label : forall k m eop i total out l, valid_label l -> octets_at m i (zlen l :: l) ->
  i + 1 + zlen l <= eop -> total + 1 + zlen l < 255 -> zlen out = total ->
  unpack_loop (S k) m eop i total out = unpack_loop k m eop (i + 1 + zlen l) (total + 1 + zlen l) (out ++ zlen l :: l).
Proof.
  intros k m eop i total out l [[V1 V2] VB] O B T Lo. apply octets_at_cons in O as [O1 O2].
  cbn [unpack_loop]. rewrite (proj2 (rd_ok m i (zlen l))) by auto. cbn [bind].
  replace (zlen l =? 0) with false by lia. replace (zlen l >=? 192) with false by lia.
  replace (zlen l <=? 63) with true by lia. unfold MAXLEN_NAME.
  replace (total + 1 >=? 255) with false by lia. rewrite push_ok by zlia. cbn [bind].
  replace (total + 1 + zlen l >=? 255) with false by lia.
  replace (i + 1 + zlen l >? eop) with false by lia.
  rewrite (proj2 (rds_ok m (i + 1) (zlen l) l)) by auto. cbn [bind]. rewrite push_ok by zlia. cbn [bind].
  rewrite <- app_assoc. reflexivity.
Qed.

Lemma unpack_ptr : forall k m eop i total out hi lo, octets_at m i [hi; lo] -> 192 <= hi < 256 -> 0 <= lo < 256 ->
  i + 1 <= eop -> ptr_target hi lo < i ->
  unpack_loop (S k) m eop i total out = unpack_loop k m eop (ptr_target hi lo) total out.
Proof.
  intros k m eop i total out hi lo O H Hl B T. apply octets_at_cons in O as [O1 O2].
  cbn [unpack_loop]. rewrite (proj2 (rd_ok m i hi)) by auto. cbn [bind].
  replace (hi =? 0) with false by lia. replace (hi >=? 192) with true by lia.
  replace (i + 1 >? eop) with false by lia. rewrite (proj2 (rd_ok m (i + 1) lo)) by auto. cbn [bind].
  rewrite ptr_shift by lia.
  replace (ptr_target hi lo >? eop) with false by lia.
  replace (ptr_target hi lo =? i + 1 - 1) with false by lia. cbn [bind].
  replace (ptr_target hi lo >? i + 1 - 2) with false by lia. reflexivity.
Qed.

(** Following [reaches] follows the loop. *)
Lemma unpack_reaches : forall m eop i ls j, bytes_ok m -> reaches m eop i ls j -> exists k, forall f total out,
  zlen out = total -> total + zlen (prewire ls) < 255 ->
  unpack_loop (k + f) m eop i total out = unpack_loop f m eop j (total + zlen (prewire ls)) (out ++ prewire ls).
Proof.
  intros m eop i ls j Hm H. induction H.
  - exists 0%nat. intros. simpl. unfold prewire; simpl. rewrite app_nil_r. f_equal. zlia.
  - destruct IHreaches as [k IH]. exists (S k). intros f total out Lo T. rewrite zlen_prewire_cons in T.
    pose proof (zlen_nonneg _ (prewire ls)).
    simpl plus. rewrite (unpack_label _ _ _ _ _ _ l) by (auto; lia). rewrite IH by (zlia).
    rewrite <- app_assoc, zlen_prewire_cons. f_equal. lia.
  - destruct IHreaches as [k IH]. exists (S k). intros f total out Lo T.
    simpl plus. rewrite (unpack_ptr _ _ _ _ _ _ hi lo); auto.
    apply (octets_at_bytes _ _ _ Hm) in H. inversion H as [|? ? ? HH]; inversion HH; auto.
Qed.

(** What the loop can end with, as a function of where it stands. *)
Definition end_root (m : bytes) (j : Z) := octets_at m j [0].

(** Complete classification: soundness direction. *)
Inductive unpack_case (m : bytes) (eop i : Z) (room : Z) : outcome lname -> Prop :=
| uc_ok : forall ls j, reaches m eop i ls j -> zlen (prewire ls) < room -> octets_at m j [0] ->
    unpack_case m eop i room (Ok ls)
| uc_len : forall ls j c, reaches m eop i ls j -> zlen (prewire ls) < room -> octets_at m j [c] -> 64 <= c <= 191 ->
    unpack_case m eop i room (Err res_invalid_length_octet)
| uc_ptr : forall ls j hi lo, reaches m eop i ls j -> zlen (prewire ls) < room -> octets_at m j [hi; lo] ->
    192 <= hi < 256 -> j + 1 <= eop -> j <= ptr_target hi lo ->
    unpack_case m eop i room (Err res_invalid_compression_pointer)
| uc_ovf : forall ls j c, reaches m eop i ls j -> zlen (prewire ls) < room -> octets_at m j [c] -> 1 <= c <= 63 ->
    room <= zlen (prewire ls) + 1 + c ->
    unpack_case m eop i room (Err res_name_overflow)
| uc_oob_label : forall ls j c, reaches m eop i ls j -> octets_at m j [c] -> 1 <= c <= 63 ->
    zlen (prewire ls) + 1 + c < room -> eop < j + 1 + c ->
    unpack_case m eop i room (Err res_out_of_bounds)
| uc_oob_ptr : forall ls j c, reaches m eop i ls j -> zlen (prewire ls) < room -> octets_at m j [c] -> 192 <= c ->
    eop < j + 1 ->
    unpack_case m eop i room (Err res_out_of_bounds)
| uc_read : forall ls j, reaches m eop i ls j -> zlen (prewire ls) < room -> zlen m <= j ->
    unpack_case m eop i room (UB OobRead)
| uc_read_ptr : forall ls j hi, reaches m eop i ls j -> zlen (prewire ls) < room -> octets_at m j [hi] -> 192 <= hi ->
    zlen m <= j + 1 <= eop -> unpack_case m eop i room (UB OobRead)
| uc_read_label : forall ls j c, reaches m eop i ls j -> octets_at m j [c] -> 1 <= c <= 63 ->
    zlen (prewire ls) + 1 + c < room -> zlen m < j + 1 + c <= eop ->
    unpack_case m eop i room (UB OobRead).

Lemma unpack_case_label : forall m eop i room l r, valid_label l -> octets_at m i (zlen l :: l) ->
  i + 1 + zlen l <= eop -> unpack_case m eop (i + 1 + zlen l) (room - 1 - zlen l) r ->
  unpack_case m eop i room (match r with Ok ls => Ok (l :: ls) | Err e => Err e | UB f => UB f | NoFuel => NoFuel end).
Proof.
  intros m eop i room l r V O B H. pose proof (zlen_nonneg _ l).
  destruct H as [ls j R P X|ls j c R P X Y|ls j hi lo R P X Y Z1 Z2|ls j c R P X Y Z1|ls j c R X Y Z1 Z2|ls j c R P X Y Z1|ls j R P X|ls j hi R P X Y Z1|ls j c R X Y Z1 Z2];
  assert (R' : reaches m eop i (l :: ls) j) by (apply rch_label; auto);
  pose proof (zlen_prewire_cons l ls) as E.
  - apply (uc_ok m eop i room (l :: ls) j); auto; lia.
  - apply (uc_len m eop i room (l :: ls) j c); auto; lia.
  - apply (uc_ptr m eop i room (l :: ls) j hi lo); auto; lia.
  - apply (uc_ovf m eop i room (l :: ls) j c); auto; lia.
  - apply (uc_oob_label m eop i room (l :: ls) j c); auto; lia.
  - apply (uc_oob_ptr m eop i room (l :: ls) j c); auto; lia.
  - apply (uc_read m eop i room (l :: ls) j); auto; lia.
  - apply (uc_read_ptr m eop i room (l :: ls) j hi); auto; lia.
  - apply (uc_read_label m eop i room (l :: ls) j c); auto; lia.
Qed.

Lemma unpack_case_ptr : forall m eop i room hi lo r, octets_at m i [hi; lo] -> 192 <= hi < 256 -> i + 1 <= eop ->
  ptr_target hi lo < i -> unpack_case m eop (ptr_target hi lo) room r -> unpack_case m eop i room r.
Proof.
  intros m eop i room hi lo r O B1 B2 T H.
  assert (K : forall ls j, reaches m eop (ptr_target hi lo) ls j -> reaches m eop i ls j) by (intros; eapply rch_ptr; eauto).
  destruct H; assert (R' : reaches m eop i ls j) by (apply K; auto).
  - eapply uc_ok; eauto.
  - eapply uc_len; eauto.
  - eapply uc_ptr; eauto.
  - eapply uc_ovf; eauto.
  - eapply uc_oob_label; eauto.
  - eapply uc_oob_ptr; eauto.
  - eapply uc_read; eauto.
  - eapply uc_read_ptr; eauto.
  - eapply uc_read_label; eauto.
Qed.

(** The result of the loop, given that of the specification. *)
Definition finish (total : Z) (out : bytes) (r : outcome lname) : outcome (bytes * Z) :=
  match r with
  | Ok ls => Ok (out ++ wire ls, total + zlen (wire ls))
  | Err e => Err e | UB f => UB f | NoFuel => NoFuel
  end.

Lemma unpack_loop_case : forall fuel m eop i total out,
  bytes_ok m -> 0 <= i -> zlen out = total -> total < 255 ->
  (Z.to_nat ((255 - total) / 2) * (length m + 2) + Z.to_nat (Z.min i (zlen m)) + 1 <= fuel)%nat ->
  exists r, unpack_case m eop i (255 - total) r /\ unpack_loop fuel m eop i total out = finish total out r.
Proof.
  induction fuel as [|k IH]; intros m eop i total out Hm Hi Lo T F; [lia|].
  pose proof (zlen_nonneg _ out) as NN.
  destruct (rd_cases m i) as [(c & E & B)|(E & B)].
  2:{ exists (UB OobRead). split.
      - apply (uc_read m eop i (255 - total) [] i); auto using rch_here; rewrite ?zlen_prewire_nil; lia.
      - simpl. rewrite E. reflexivity. }
  pose proof (rd_byte _ _ _ Hm E) as Hc. apply rd_ok in E as O.
  destruct (Z.eq_dec c 0) as [->|C0].
  { exists (Ok []). split.
    - apply (uc_ok m eop i (255 - total) [] i); auto using rch_here; rewrite ?zlen_prewire_nil; lia.
    - rewrite unpack_root by (auto; lia). reflexivity. }
  destruct (Z_le_gt_dec 192 c) as [C1|C1].
  - (* pointer *)
    cbn [unpack_loop]. rewrite E. cbn [bind].
    replace (c =? 0) with false by lia. replace (c >=? 192) with true by lia.
    destruct (Z_le_gt_dec (i + 1) eop) as [B1|B1].
    2:{ replace (i + 1 >? eop) with true by lia. exists (Err res_out_of_bounds). split; auto.
        apply (uc_oob_ptr m eop i (255 - total) [] i c); auto using rch_here; rewrite ?zlen_prewire_nil; lia. }
    replace (i + 1 >? eop) with false by lia.
    destruct (rd_cases m (i + 1)) as [(d & E2 & B2)|(E2 & B2)].
    2:{ rewrite E2. exists (UB OobRead). split; auto.
        apply (uc_read_ptr m eop i (255 - total) [] i c); auto using rch_here; rewrite ?zlen_prewire_nil; lia. }
    pose proof (rd_byte _ _ _ Hm E2) as Hd. rewrite E2. apply rd_ok in E2. cbn [bind].
    rewrite ptr_shift by lia.
    assert (OO : octets_at m i [c; d]) by (apply octets_at_cons; auto).
    assert (TG : 0 <= ptr_target c d) by (unfold ptr_target; lia).
    destruct (Z_lt_ge_dec (ptr_target c d) i) as [TL|TL].
    + replace (ptr_target c d >? eop) with false by lia.
      replace (ptr_target c d =? i + 1 - 1) with false by lia. cbn [bind].
      replace (ptr_target c d >? i + 1 - 2) with false by lia.
      destruct (IH m eop (ptr_target c d) total out Hm TG Lo T) as (r & R1 & R2); [lia|].
      exists r. split; auto. eapply unpack_case_ptr; eauto; lia.
    + exists (Err res_invalid_compression_pointer). split.
      * apply (uc_ptr m eop i (255 - total) [] i c d); auto using rch_here; rewrite ?zlen_prewire_nil; lia.
      * destruct (ptr_target c d >? eop) eqn:E4; [reflexivity|].
        destruct (ptr_target c d =? i + 1 - 1) eqn:E5.
        -- replace (i + 1 - 1) with i by lia. rewrite (proj2 (rd_ok m i c) O). cbn [bind].
           replace (c =? 0) with false by lia.
           replace (ptr_target c d >? i + 1 - 2) with true by lia. reflexivity.
        -- cbn [bind]. replace (ptr_target c d >? i + 1 - 2) with true by lia. reflexivity.
  - destruct (Z_le_gt_dec 64 c) as [C2|C2].
    { exists (Err res_invalid_length_octet). split.
      - apply (uc_len m eop i (255 - total) [] i c); auto using rch_here; rewrite ?zlen_prewire_nil; lia.
      - cbn [unpack_loop]. rewrite E. cbn [bind]. replace (c =? 0) with false by lia.
        replace (c >=? 192) with false by lia. replace (c <=? 63) with false by lia. reflexivity. }
    cbn [unpack_loop]. rewrite E. cbn [bind]. replace (c =? 0) with false by lia.
    replace (c >=? 192) with false by lia. replace (c <=? 63) with true by lia. unfold MAXLEN_NAME.
    destruct (Z_le_gt_dec 255 (total + 1)) as [T1|T1].
    { replace (total + 1 >=? 255) with true by lia. exists (Err res_name_overflow). split; auto.
      apply (uc_ovf m eop i (255 - total) [] i c); auto using rch_here; rewrite ?zlen_prewire_nil; lia. }
    replace (total + 1 >=? 255) with false by lia. rewrite push_ok by zlia. cbn [bind].
    destruct (Z_le_gt_dec 255 (total + 1 + c)) as [T2|T2].
    { replace (total + 1 + c >=? 255) with true by lia. exists (Err res_name_overflow). split; auto.
      apply (uc_ovf m eop i (255 - total) [] i c); auto using rch_here; rewrite ?zlen_prewire_nil; lia. }
    replace (total + 1 + c >=? 255) with false by lia.
    destruct (Z_le_gt_dec (i + 1 + c) eop) as [B1|B1].
    2:{ replace (i + 1 + c >? eop) with true by lia. exists (Err res_out_of_bounds). split; auto.
        apply (uc_oob_label m eop i (255 - total) [] i c); auto using rch_here; rewrite ?zlen_prewire_nil; lia. }
    replace (i + 1 + c >? eop) with false by lia.
    destruct (rds_cases m (i + 1) c) as [(l & E2 & B2)|(E2 & B2)].
    2:{ rewrite E2. exists (UB OobRead). split; auto.
        apply (uc_read_label m eop i (255 - total) [] i c); auto using rch_here; rewrite ?zlen_prewire_nil; lia. }
    rewrite E2. apply rds_ok in E2 as [O2 L2]. cbn [bind]. rewrite push_ok by zlia. cbn [bind].
    assert (V : valid_label l). { split; [lia|]. eapply octets_at_bytes; eauto. }
    assert (OO : octets_at m i (zlen l :: l)) by (apply octets_at_cons; rewrite L2; auto).
    destruct (IH m eop (i + 1 + c) (total + 1 + c) ((out ++ [c]) ++ l) Hm ltac:(lia) ltac:(zlia) ltac:(lia)) as (r & R1 & R2).
    { unfold zlen in *.
      assert (Z.to_nat ((255 - (total + 1 + c)) / 2) + 1 <= Z.to_nat ((255 - total) / 2))%nat.
      { assert ((255 - (total + 1 + c)) / 2 + 1 <= (255 - total) / 2); [|pose proof (Z.div_pos (255 - (total + 1 + c)) 2 ltac:(lia) ltac:(lia)); lia].
        rewrite <- Z.div_add by lia. apply Z.div_le_mono; lia. }
      nia. }
    rewrite R2. eexists. split.
    + eapply (unpack_case_label m eop i (255 - total) l r); auto; [lia|].
      replace (i + 1 + zlen l) with (i + 1 + c) by lia. replace (255 - total - 1 - zlen l) with (255 - (total + 1 + c)) by lia. exact R1.
    + destruct r; simpl; auto. rewrite <- !app_assoc. rewrite wire_cons. f_equal. f_equal.
      * simpl. rewrite L2. reflexivity.
      * zlia.
Qed.

Theorem unpack_name_case : forall m eop i, bytes_ok m -> 0 <= i < eop ->
  exists r, unpack_case m eop i 255 r /\ unpack_name m eop i = finish 0 [] r.
Proof.
  intros m eop i Hm Hi. unfold unpack_name.
  replace ((0 >=? eop) || (i >=? eop) || (i <? 0)) with false by lia.
  change 255 with (255 - 0). apply unpack_loop_case; auto; try lia.
  unfold unpack_fuel. change (Z.to_nat ((255 - 0) / 2)) with 127%nat. unfold zlen. nia.
Qed.

(** [reaches] is deterministic enough: from one point, two reached points are ordered. *)
Definition step_label (m : bytes) (eop i : Z) (l : label) (i' : Z) : Prop :=
  valid_label l /\ octets_at m i (zlen l :: l) /\ i + 1 + zlen l <= eop /\ i' = i + 1 + zlen l.
Definition step_ptr (m : bytes) (eop i i' : Z) : Prop :=
  exists hi lo, octets_at m i [hi; lo] /\ 192 <= hi < 256 /\ i + 1 <= eop /\ ptr_target hi lo < i /\ i' = ptr_target hi lo.

Lemma octet_det : forall m i a b, octets_at m i [a] -> octets_at m i [b] -> a = b.
Proof. intros m i a b H1 H2. pose proof (octets_at_det _ _ _ _ H1 H2 eq_refl). congruence. Qed.

Lemma octet_head : forall m i a l, octets_at m i (a :: l) -> octets_at m i [a].
Proof. intros m i a l H. apply octets_at_cons in H. tauto. Qed.

(** A terminal observation at [j] made through [reaches] fixes the loop result. *)
Lemma unpack_case_complete : forall m eop i r, bytes_ok m -> 0 <= i < eop -> unpack_case m eop i 255 r ->
  unpack_name m eop i = finish 0 [] r.
Proof.
  intros m eop i r Hm Hi C.
  destruct (unpack_name_case m eop i Hm Hi) as (r0 & C0 & E). 
  assert (NF : unpack_name m eop i <> NoFuel). { rewrite E. destruct C0; simpl; discriminate. }
  unfold unpack_name in *. replace ((0 >=? eop) || (i >=? eop) || (i <? 0)) with false in * by lia.
  assert (MONO : forall f k total out j, unpack_loop f m eop j total out <> NoFuel ->
     unpack_loop (k + f) m eop j total out = unpack_loop f m eop j total out).
  { clear. induction f as [|f IH]; intros k total out j H; [simpl in H; congruence|].
    replace (k + S f)%nat with (S (k + f)) by lia. cbn [unpack_loop] in *.
    destruct (rd m j) as [c| | |]; cbn [bind] in *; auto.
    destruct (c =? 0); auto. destruct (c >=? 192).
    - destruct (j + 1 >? eop); auto. destruct (rd m (j + 1)) as [d| | |]; cbn [bind] in *; auto.
      destruct (_ >? eop); auto.
      destruct (if (Z.shiftl (Z.land c 63) 8 + d =? j + 1 - 1) then _ else _) as [[|]| | |]; cbn [bind] in *; auto.
      destruct (_ >? _); auto.
    - destruct (c <=? 63); auto. destruct (_ >=? _); auto.
      destruct (push MAXLEN_NAME out [c]); cbn [bind] in *; auto. destruct (_ >=? _); auto. destruct (_ >? _); auto.
      destruct (rds m (j + 1) c) as [l| | |]; cbn [bind] in *; auto.
      destruct (push MAXLEN_NAME a l); cbn [bind] in *; auto. }
  assert (FIN : forall ls j x, reaches m eop i ls j -> zlen (prewire ls) < 255 ->
     (forall f, unpack_loop (S f) m eop j (0 + zlen (prewire ls)) ([] ++ prewire ls) = x) -> unpack_loop (unpack_fuel m) m eop i 0 [] = x).
  { intros ls j x R P Q. destruct (unpack_reaches _ _ _ _ _ Hm R) as [k K].
    rewrite <- (MONO (unpack_fuel m) (k + 1)%nat) by auto.
    replace (k + 1 + unpack_fuel m)%nat with (k + (S (unpack_fuel m)))%nat by lia.
    rewrite K; [apply Q|reflexivity|lia]. }
  destruct C as [ls j R P X|ls j c R P X Y|ls j hi lo R P X Y Z1 Z2|ls j c R P X Y Z1|ls j c R X Y Z1 Z2|ls j c R P X Y Z1|ls j R P X|ls j hi R P X Y Z1|ls j c R X Y Z1 Z2];
   (apply (FIN ls j); [auto|try lia|intros f]).
  - rewrite unpack_root by (auto; simpl; lia). unfold finish. rewrite zlen_wire. unfold wire. simpl app. f_equal.
  - cbn [unpack_loop]. rewrite (proj2 (rd_ok m j c) X). cbn [bind]. replace (c =? 0) with false by lia.
    replace (c >=? 192) with false by lia. replace (c <=? 63) with false by lia. reflexivity.
  - cbn [unpack_loop]. pose proof (octets_at_bytes _ _ _ Hm X) as BB. apply octets_at_cons in X as [X1 X2].
    assert (Hlo : 0 <= lo < 256) by (inversion BB as [|? ? ? B2]; inversion B2; auto).
    rewrite (proj2 (rd_ok m j hi) X1). cbn [bind].
    replace (hi =? 0) with false by lia. replace (hi >=? 192) with true by lia. replace (j + 1 >? eop) with false by lia.
    rewrite (proj2 (rd_ok m (j + 1) lo) X2). cbn [bind]. rewrite ptr_shift by lia.
    destruct (ptr_target hi lo >? eop) eqn:E4; [reflexivity|].
    destruct (ptr_target hi lo =? j + 1 - 1) eqn:E5.
    + replace (j + 1 - 1) with j by lia. rewrite (proj2 (rd_ok m j hi) X1). cbn [bind].
      replace (hi =? 0) with false by lia. replace (ptr_target hi lo >? j + 1 - 2) with true by lia. reflexivity.
    + cbn [bind]. replace (ptr_target hi lo >? j + 1 - 2) with true by lia. reflexivity.
  - cbn [unpack_loop]. rewrite (proj2 (rd_ok m j c) X). cbn [bind]. replace (c =? 0) with false by lia.
    replace (c >=? 192) with false by lia. replace (c <=? 63) with true by lia. unfold MAXLEN_NAME.
    destruct (_ >=? 255) eqn:T1; [reflexivity|]. rewrite push_ok by (simpl; zlia). cbn [bind].
    replace (_ >=? 255) with true by lia. reflexivity.
  - cbn [unpack_loop]. rewrite (proj2 (rd_ok m j c) X). cbn [bind]. replace (c =? 0) with false by lia.
    replace (c >=? 192) with false by lia. replace (c <=? 63) with true by lia. unfold MAXLEN_NAME.
    replace (_ + 1 >=? 255) with false by lia. rewrite push_ok by (simpl; zlia). cbn [bind].
    replace (_ >=? 255) with false by lia. replace (_ >? eop) with true by lia. reflexivity.
  - cbn [unpack_loop]. rewrite (proj2 (rd_ok m j c) X). cbn [bind]. replace (c =? 0) with false by lia.
    replace (c >=? 192) with true by lia. replace (_ >? eop) with true by lia. reflexivity.
  - cbn [unpack_loop]. destruct (rd_cases m j) as [(b & _ & B)|(-> & _)]; [lia|reflexivity].
  - cbn [unpack_loop]. rewrite (proj2 (rd_ok m j hi) X). cbn [bind]. replace (hi =? 0) with false by lia.
    replace (hi >=? 192) with true by lia. replace (_ >? eop) with false by lia.
    destruct (rd_cases m (j + 1)) as [(b & _ & B)|(-> & _)]; [lia|reflexivity].
  - cbn [unpack_loop]. rewrite (proj2 (rd_ok m j c) X). cbn [bind]. replace (c =? 0) with false by lia.
    replace (c >=? 192) with false by lia. replace (c <=? 63) with true by lia. unfold MAXLEN_NAME.
    replace (_ + 1 >=? 255) with false by lia. rewrite push_ok by (simpl; zlia). cbn [bind].
    replace (_ >=? 255) with false by lia. replace (_ >? eop) with false by lia.
    destruct (rds_cases m (j + 1) c) as [(b & _ & B)|(-> & _)]; [lia|reflexivity].
Qed.
