(** ProofCopy.v: consequences for unpack_name; copy_uname, skip_name, len_uname. *)
From Verif Require Import Base Lib SpecName ModelName ProofUnpack.

(** ** unpack_name: derived facts *)

Lemma reaches_bound : forall m eop i ls j, reaches m eop i ls j -> 0 <= i <= eop -> bytes_ok m -> 0 <= j <= eop.
Proof.
  intros m eop i ls j H. induction H; intros Hi Hm; auto.
  - apply IHreaches; auto. pose proof (zlen_nonneg _ l). lia.
  - apply IHreaches; auto. pose proof (octets_at_bytes _ _ _ Hm H) as B.
    assert (0 <= lo < 256) by (inversion B as [|? ? ? B2]; inversion B2; auto). unfold ptr_target in *. lia.
Qed.

Lemma reaches_denotes : forall m eop i ls j, reaches m eop i ls j -> octets_at m j [0] -> denotes m i ls.
Proof.
  intros m eop i ls j H. induction H; intros Z.
  - apply den_root; auto.
  - apply den_label; auto.
  - eapply den_ptr; eauto.
Qed.

Lemma denotes_bound : forall m i ls, denotes m i ls -> 0 <= i < zlen m.
Proof. intros m i ls H. destruct H as [? H|? ? ? ? H|? ? ? ? H]; apply octets_at_bound in H; zl; try pose proof (zlen_nonneg _ l); lia. Qed.

Lemma denotes_reaches : forall m eop i ls, denotes m i ls -> zlen m <= eop + 1 ->
  exists j, reaches m eop i ls j /\ octets_at m j [0].
Proof.
  intros m eop i ls H L. induction H.
  - exists i. split; auto. apply rch_here.
  - destruct IHdenotes as (j & R & Z). exists j. split; auto. apply rch_label; auto.
    apply denotes_bound in H1. lia.
  - destruct IHdenotes as (j & R & Z). exists j. split; auto. eapply rch_ptr; eauto.
    apply octets_at_bound in H. change (zlen [hi; lo]) with 2 in H. lia.
Qed.

Lemma denotes_valid : forall m i ls, denotes m i ls -> valid_labels ls.
Proof. intros m i ls H. induction H; [constructor|constructor; auto|auto]. Qed.

Lemma reaches_valid : forall m eop i ls j, reaches m eop i ls j -> valid_labels ls.
Proof. intros m eop i ls j H. induction H; [constructor|constructor; auto|auto]. Qed.

Lemma octets_at_firstn : forall m n i l, 0 <= n -> (octets_at (firstn (Z.to_nat n) m) i l <->
  octets_at m i l /\ (i + zlen l <= n)).
Proof.
  intros m n i l Hn. split.
  - intros H. split.
    + rewrite <- (firstn_skipn (Z.to_nat n) m). apply octets_at_ext; auto.
    + apply octets_at_bound in H. unfold zlen in *. rewrite firstn_length in H. lia.
  - intros [H B]. pose proof (octets_at_bound _ _ _ H) as [B1 B2].
    rewrite <- (firstn_skipn (Z.to_nat n) m) in H. apply octets_at_ext_inv in H; auto.
    unfold zlen in *. rewrite firstn_length. lia.
Qed.

(** exact message *)
Lemma unpack_denotes : forall m eop i w sz, bytes_ok m -> 0 <= i < eop -> zlen m = eop \/ zlen m = eop + 1 ->
  (unpack_name m eop i = Ok (w, sz) <->
   exists ls, denotes m i ls /\ zlen (wire ls) <= 255 /\ w = wire ls /\ sz = zlen (wire ls)).
Proof.
  intros m eop i w sz Hm Hi L. split.
  - intros E. destruct (unpack_name_case m eop i Hm Hi) as (r & C & F). rewrite E in F.
    destruct C; simpl in F; try discriminate. injection F as -> ->. exists ls. repeat split; auto.
    + eapply reaches_denotes; eauto.
    + rewrite zlen_wire. lia.
  - intros (ls & D & B & -> & ->). destruct (denotes_reaches m eop i ls D ltac:(lia)) as (j & R & Z).
    rewrite (unpack_case_complete m eop i (Ok ls)); auto.
    eapply uc_ok; eauto. rewrite zlen_wire in B. lia.
Qed.

Lemma unpack_outcomes : forall m eop i, bytes_ok m ->
  unpack_name m eop i = UB OobRead \/
  (exists w, zlen w <= 255 /\ unpack_name m eop i = Ok (w, zlen w)) \/
  (exists e, unpack_name m eop i = Err e /\
    (e = res_invalid_length_octet \/ e = res_invalid_compression_pointer \/ e = res_name_overflow \/ e = res_out_of_bounds)).
Proof.
  intros m eop i Hm. destruct (Z_lt_ge_dec i eop); [destruct (Z_le_gt_dec 0 i)|].
  2,3: right; right; exists res_out_of_bounds; split; auto; unfold unpack_name;
       replace ((0 >=? eop) || (i >=? eop) || (i <? 0)) with true by lia; reflexivity.
  destruct (unpack_name_case m eop i Hm ltac:(lia)) as (r & C & ->).
  destruct C; simpl; auto; right.
  - left. exists (wire ls). rewrite zlen_wire. split; [lia|]. f_equal. 
  - right. eexists; split; eauto.
  - right. eexists; split; eauto.
  - right. eexists; split; eauto.
  - right. eexists; split; eauto.
  - right. eexists; split; eauto.
Qed.

(** With one readable octet at [eop], no undefined behaviour at all. *)
Lemma unpack_safe_stray : forall m eop i, bytes_ok m -> eop < zlen m -> unpack_name m eop i <> UB OobRead.
Proof.
  intros m eop i Hm L. destruct (Z_lt_ge_dec i eop); [destruct (Z_le_gt_dec 0 i)|].
  2,3: unfold unpack_name;
       replace ((0 >=? eop) || (i >=? eop) || (i <? 0)) with true by lia; discriminate.
  destruct (unpack_name_case m eop i Hm ltac:(lia)) as (r & C & ->).
  destruct C; simpl; try discriminate.
  - apply reaches_bound in H; auto; lia.
  - lia.
  - lia.
Qed.

(** On the exact message, undefined behaviour happens only if decoding reaches the end without a root octet. *)
Lemma unpack_ub_exact : forall m eop i, bytes_ok m -> zlen m = eop -> unpack_name m eop i = UB OobRead ->
  exists ls j, reaches m eop i ls j /\ (j = eop \/ (j = eop - 1 /\ exists hi, octets_at m j [hi] /\ 192 <= hi)).
Proof.
  intros m eop i Hm L E. destruct (Z_lt_ge_dec i eop); [destruct (Z_le_gt_dec 0 i)|].
  2,3: unfold unpack_name in E; replace ((0 >=? eop) || (i >=? eop) || (i <? 0)) with true in E by lia; discriminate.
  destruct (unpack_name_case m eop i Hm ltac:(lia)) as (r & C & F). rewrite E in F.
  destruct C; simpl in F; try discriminate.
  - exists ls, j. split; auto. apply reaches_bound in H; auto; lia.
  - exists ls, j. split; auto. right. split; [lia|eauto].
  - lia.
Qed.

Lemma unpack_wire : forall m eop i ls, bytes_ok m -> octets_at m i (wire ls) -> valid_name ls -> i + zlen (wire ls) <= eop ->
  unpack_name m eop i = Ok (wire ls, zlen (wire ls)).
Proof.
  intros m eop i ls Hm O [V L] B. pose proof (octets_at_bound _ _ _ O).
  rewrite (unpack_case_complete m eop i (Ok ls)); auto.
  - pose proof (zlen_wire ls). pose proof (zlen_nonneg _ (prewire ls)). lia.
  - unfold wire in O. apply octets_at_app in O as [O1 O2].
    apply (uc_ok m eop i 255 ls (i + zlen (prewire ls))); auto; [|rewrite zlen_wire in L; lia].
    assert (B' : i + zlen (prewire ls) <= eop) by (rewrite zlen_wire in B; lia).
    clear O2 L B H. revert i O1 B'. induction ls as [|l ls IH]; intros i O1 B'.
    + rewrite zlen_prewire_nil. replace (i + 0) with i by lia. apply rch_here.
    + inversion V; subst. rewrite zlen_prewire_cons in *. rewrite prewire_cons in O1.
      apply octets_at_app with (a := zlen l :: l) in O1 as [O1 O3]. replace (i + zlen (zlen l :: l)) with (i + 1 + zlen l) in O3 by zlia.
      pose proof (zlen_nonneg _ (prewire ls)).
      apply rch_label; auto; [lia|]. replace (i + (1 + zlen l + zlen (prewire ls))) with (i + 1 + zlen l + zlen (prewire ls)) by lia.
      apply IH; auto. lia.
Qed.

(** ** copy_uname *)
Inductive copy_case (m : bytes) (eop i : Z) (room : Z) : outcome lname -> Prop :=
| cc_ok : forall ls, valid_labels ls -> octets_at m i (wire ls) -> i + zlen (prewire ls) <= eop ->
    zlen (prewire ls) < room -> copy_case m eop i room (Ok ls)
| cc_len : forall ls c, valid_labels ls -> octets_at m i (prewire ls ++ [c]) -> i + zlen (prewire ls) <= eop ->
    zlen (prewire ls) < room -> 64 <= c -> copy_case m eop i room (Err res_invalid_length_octet)
| cc_ovf : forall ls c, valid_labels ls -> octets_at m i (prewire ls ++ [c]) -> i + zlen (prewire ls) <= eop ->
    zlen (prewire ls) < room -> 1 <= c <= 63 -> room <= zlen (prewire ls) + 1 + c ->
    copy_case m eop i room (Err res_name_overflow)
| cc_oob : forall ls c, valid_labels ls -> octets_at m i (prewire ls ++ [c]) -> i + zlen (prewire ls) <= eop ->
    zlen (prewire ls) + 1 + c < room -> 1 <= c <= 63 -> eop < i + zlen (prewire ls) + 1 + c ->
    copy_case m eop i room (Err res_out_of_bounds)
| cc_read : forall ls, valid_labels ls -> octets_at m i (prewire ls) -> i + zlen (prewire ls) <= eop ->
    zlen m = i + zlen (prewire ls) -> zlen (prewire ls) < room -> copy_case m eop i room (UB OobRead)
| cc_read_label : forall ls c, valid_labels ls -> octets_at m i (prewire ls ++ [c]) -> 
    zlen m < i + zlen (prewire ls) + 1 + c <= eop -> zlen (prewire ls) + 1 + c < room -> 1 <= c <= 63 ->
    copy_case m eop i room (UB OobRead).

Definition okcons (l : label) (r : outcome lname) : outcome lname :=
  match r with Ok ls => Ok (l :: ls) | Err e => Err e | UB f => UB f | NoFuel => NoFuel end.

Lemma copy_case_label : forall m eop i room l r, valid_label l -> octets_at m i (zlen l :: l) ->
  i + 1 + zlen l <= eop -> copy_case m eop (i + 1 + zlen l) (room - 1 - zlen l) r ->
  copy_case m eop i room (okcons l r).
Proof.
  intros m eop i room l r V O B H. pose proof (zlen_nonneg _ l).
  assert (J : forall x, octets_at m (i + 1 + zlen l) x -> octets_at m i ((zlen l :: l) ++ x)).
  { intros x X. apply octets_at_app. split; auto. replace (i + zlen (zlen l :: l)) with (i + 1 + zlen l) by zlia. auto. }
  destruct H as [ls V1 X|ls c V1 X|ls c V1 X|ls c V1 X|ls V1 X|ls c V1 X]; pose proof (zlen_prewire_cons l ls) as E;
    apply J in X; assert (V' : valid_labels (l :: ls)) by (constructor; auto).
  - apply (cc_ok m eop i room (l :: ls)); auto; try lia. rewrite wire_cons. exact X.
  - apply (cc_len m eop i room (l :: ls) c); auto; try lia. rewrite prewire_cons. simpl. rewrite <- app_assoc. exact X.
  - apply (cc_ovf m eop i room (l :: ls) c); auto; try lia. rewrite prewire_cons. simpl. rewrite <- app_assoc. exact X.
  - apply (cc_oob m eop i room (l :: ls) c); auto; try lia. rewrite prewire_cons. simpl. rewrite <- app_assoc. exact X.
  - apply (cc_read m eop i room (l :: ls)); auto; try lia.
  - apply (cc_read_label m eop i room (l :: ls) c); auto; try lia. rewrite prewire_cons. simpl. rewrite <- app_assoc. exact X.
Qed.

Lemma copy_loop_case : forall fuel m eop i total out,
  bytes_ok m -> 0 <= i <= eop -> zlen out = total -> total < 255 ->
  i <= zlen m -> zlen m - i + 1 <= Z.of_nat fuel ->
  exists r, copy_case m eop i (255 - total) r /\ copy_loop fuel m eop i total out = finish total out r.
Proof.
  induction fuel as [|k IH]; intros m eop i total out Hm Hi Lo T Bi F; [lia|].
  pose proof (zlen_nonneg _ out) as NN.
  assert (V0 : valid_labels []) by constructor.
  assert (ON : octets_at m i (prewire [])).
  { change (prewire []) with (@nil Z). exists (firstn (Z.to_nat i) m), (skipn (Z.to_nat i) m). simpl. rewrite firstn_skipn. split; auto.
    apply zlen_firstn. lia. }
  destruct (rd_cases m i) as [(c & E & B)|(E & B)].
  2:{ exists (UB OobRead). split.
      - apply (cc_read m eop i (255 - total) []); auto; rewrite ?zlen_prewire_nil; try lia.
      - simpl. rewrite E. reflexivity. }
  pose proof (rd_byte _ _ _ Hm E) as Hc. apply rd_ok in E as O.
  assert (O' : octets_at m i (prewire [] ++ [c])) by exact O.
  cbn [copy_loop]. rewrite E. cbn [bind].
  destruct (Z.eq_dec c 0) as [->|C0].
  { exists (Ok []). split.
    - apply (cc_ok m eop i (255 - total) []); auto; rewrite ?zlen_prewire_nil; lia.
    - simpl. rewrite push_ok by (unfold MAXLEN_NAME; zlia). reflexivity. }
  replace (c =? 0) with false by lia.
  destruct (Z_le_gt_dec 64 c) as [C2|C2].
  { replace (c <=? 63) with false by lia. exists (Err res_invalid_length_octet). split; auto.
    apply (cc_len m eop i (255 - total) [] c); auto; rewrite ?zlen_prewire_nil; lia. }
  replace (c <=? 63) with true by lia. unfold MAXLEN_NAME.
  destruct (Z_le_gt_dec 255 (total + 1)) as [T1|T1].
  { replace (total + 1 >=? 255) with true by lia. exists (Err res_name_overflow). split; auto.
    apply (cc_ovf m eop i (255 - total) [] c); auto; rewrite ?zlen_prewire_nil; lia. }
  replace (total + 1 >=? 255) with false by lia. rewrite push_ok by zlia. cbn [bind].
  destruct (Z_le_gt_dec 255 (total + 1 + c)) as [T2|T2].
  { replace (total + 1 + c >=? 255) with true by lia. exists (Err res_name_overflow). split; auto.
    apply (cc_ovf m eop i (255 - total) [] c); auto; rewrite ?zlen_prewire_nil; lia. }
  replace (total + 1 + c >=? 255) with false by lia.
  destruct (Z_le_gt_dec (i + 1 + c) eop) as [B1|B1].
  2:{ replace (i + 1 + c >? eop) with true by lia. exists (Err res_out_of_bounds). split; auto.
      apply (cc_oob m eop i (255 - total) [] c); auto; rewrite ?zlen_prewire_nil; lia. }
  replace (i + 1 + c >? eop) with false by lia.
  destruct (rds_cases m (i + 1) c) as [(l & E2 & B2)|(E2 & B2)].
  2:{ rewrite E2. exists (UB OobRead). split; auto.
      apply (cc_read_label m eop i (255 - total) [] c); auto; rewrite ?zlen_prewire_nil; lia. }
  rewrite E2. apply rds_ok in E2 as [O2 L2]. cbn [bind]. rewrite push_ok by zlia. cbn [bind].
  assert (V : valid_label l). { split; [lia|]. eapply octets_at_bytes; eauto. }
  assert (OO : octets_at m i (zlen l :: l)) by (apply octets_at_cons; rewrite L2; auto).
  destruct (IH m eop (i + 1 + c) (total + 1 + c) ((out ++ [c]) ++ l) Hm ltac:(lia) ltac:(zlia) ltac:(lia) ltac:(lia) ltac:(lia)) as (r & R1 & R2).
  rewrite R2. eexists. split.
  + eapply (copy_case_label m eop i (255 - total) l r); auto; [lia|].
    replace (i + 1 + zlen l) with (i + 1 + c) by lia. replace (255 - total - 1 - zlen l) with (255 - (total + 1 + c)) by lia. exact R1.
  + destruct r; simpl; auto. rewrite <- !app_assoc. rewrite wire_cons. f_equal. f_equal.
    * simpl. rewrite L2. reflexivity.
    * zlia.
Qed.

(** Every outcome of copy_uname, for memories that contain the message. *)
Theorem copy_uname_case : forall m eop i, bytes_ok m -> 0 <= i < eop -> i <= zlen m ->
  exists r, copy_case m eop i 255 r /\ copy_uname m eop i = finish 0 [] r.
Proof.
  intros m eop i Hm Hi L. unfold copy_uname.
  replace ((0 >=? eop) || (i >=? eop) || (i <? 0)) with false by lia.
  change 255 with (255 - 0). apply copy_loop_case; auto; try lia. unfold zlen. lia.
Qed.

Lemma copy_prefix : forall ls f m eop i total out, valid_labels ls -> octets_at m i (prewire ls) ->
  i + zlen (prewire ls) <= eop -> zlen out = total -> total + zlen (prewire ls) < 255 ->
  copy_loop (length ls + f) m eop i total out =
  copy_loop f m eop (i + zlen (prewire ls)) (total + zlen (prewire ls)) (out ++ prewire ls).
Proof.
  induction ls as [|l ls IH]; intros f m eop i total out V O B Lo T.
  - rewrite zlen_prewire_nil. change (prewire []) with (@nil Z). rewrite app_nil_r. simpl. f_equal; lia.
  - inversion V as [|? ? [[V1 V2] V3] V4]; subst. rewrite zlen_prewire_cons in *. rewrite prewire_cons in *.
    apply octets_at_cons in O as [O1 O2]. apply octets_at_app in O2 as [O2 O3].
    pose proof (zlen_nonneg _ out). pose proof (zlen_nonneg _ (prewire ls)).
    cbn [length plus copy_loop]. rewrite (proj2 (rd_ok m i (zlen l))) by auto. cbn [bind].
    replace (zlen l =? 0) with false by lia. replace (zlen l <=? 63) with true by lia. unfold MAXLEN_NAME.
    replace (zlen out + 1 >=? 255) with false by lia. rewrite push_ok by zlia. cbn [bind].
    replace (zlen out + 1 + zlen l >=? 255) with false by lia. replace (i + 1 + zlen l >? eop) with false by lia.
    rewrite (proj2 (rds_ok m (i + 1) (zlen l) l)) by auto. cbn [bind]. rewrite push_ok by zlia. cbn [bind].
    rewrite IH; auto; try zlia. rewrite <- !app_assoc. cbn [app]. f_equal; lia.
Qed.

Lemma prewire_length : forall ls, Z.of_nat (length ls) <= zlen (prewire ls).
Proof.
  induction ls as [|l ls IH]; [rewrite zlen_prewire_nil; simpl; lia|]. rewrite zlen_prewire_cons.
  pose proof (zlen_nonneg _ l). cbn [length]. lia.
Qed.

Lemma copy_case_complete : forall m eop i r, 0 <= i < eop -> copy_case m eop i 255 r ->
  copy_uname m eop i = finish 0 [] r.
Proof.
  intros m eop i r Hi C. unfold copy_uname.
  replace ((0 >=? eop) || (i >=? eop) || (i <? 0)) with false by lia.
  assert (FIN : forall ls x, valid_labels ls -> octets_at m i (prewire ls) -> i + zlen (prewire ls) <= eop ->
     zlen (prewire ls) < 255 ->
     (forall f, copy_loop (S f) m eop (i + zlen (prewire ls)) (zlen (prewire ls)) (prewire ls) = x) ->
     copy_loop (S (length m)) m eop i 0 [] = x).
  { intros ls x V O B L Q. pose proof (prewire_length ls). pose proof (octets_at_bound _ _ _ O).
    assert (Hf : (length ls <= length m)%nat) by (unfold zlen in *; lia).
    replace (S (length m)) with (length ls + S (length m - length ls))%nat by lia.
    rewrite copy_prefix; auto. }
  assert (HD : forall ls c, octets_at m i (prewire ls ++ [c]) -> octets_at m i (prewire ls) /\ rd m (i + zlen (prewire ls)) = Ok c).
  { intros ls c O. apply octets_at_app in O as [O1 O2]. rewrite rd_ok. auto. }
  destruct C as [ls V O B L|ls c V O B L C|ls c V O B L C D|ls c V O B L C D|ls V O B E L|ls c V O B L C].
  - unfold wire in O. apply HD in O as [O1 O2]. apply (FIN ls); auto. intros f. cbn [copy_loop]. rewrite O2. cbn [bind].
    replace (0 =? 0) with true by lia. rewrite push_ok by (unfold MAXLEN_NAME; zlia). cbn [bind finish]. rewrite zlen_wire. reflexivity.
  - apply HD in O as [O1 O2]. apply (FIN ls); auto. intros f. cbn [copy_loop]. rewrite O2. cbn [bind].
    replace (c =? 0) with false by lia. replace (c <=? 63) with false by lia. reflexivity.
  - apply HD in O as [O1 O2]. apply (FIN ls); auto. intros f. cbn [copy_loop]. rewrite O2. cbn [bind].
    replace (c =? 0) with false by lia. replace (c <=? 63) with true by lia. unfold MAXLEN_NAME.
    destruct (_ >=? 255) eqn:T1; [reflexivity|]. rewrite push_ok by zlia. cbn [bind].
    replace (_ >=? 255) with true by lia. reflexivity.
  - apply HD in O as [O1 O2]. apply (FIN ls); auto; try lia. intros f. cbn [copy_loop]. rewrite O2. cbn [bind].
    replace (c =? 0) with false by lia. replace (c <=? 63) with true by lia. unfold MAXLEN_NAME.
    replace (_ + 1 >=? 255) with false by lia. rewrite push_ok by zlia. cbn [bind].
    replace (_ >=? 255) with false by lia. replace (_ >? eop) with true by lia. reflexivity.
  - apply (FIN ls); auto. intros f. cbn [copy_loop].
    destruct (rd_cases m (i + zlen (prewire ls))) as [(b & _ & X)|(-> & _)]; [lia|reflexivity].
  - apply HD in O as [O1 O2]. apply (FIN ls); auto; try lia. intros f. cbn [copy_loop]. rewrite O2. cbn [bind].
    replace (c =? 0) with false by lia. replace (c <=? 63) with true by lia. unfold MAXLEN_NAME.
    replace (_ + 1 >=? 255) with false by lia. rewrite push_ok by zlia. cbn [bind].
    replace (_ >=? 255) with false by lia. replace (_ >? eop) with false by lia.
    destruct (rds_cases m (i + zlen (prewire ls) + 1) c) as [(b & _ & X)|(-> & _)]; [lia|reflexivity].
Qed.

(** Success of copy_uname, exact message. *)
Lemma copy_exact : forall m i w sz, bytes_ok m -> 0 <= i < zlen m ->
  (copy_uname m (zlen m) i = Ok (w, sz) <->
   exists ls, valid_name ls /\ octets_at m i (wire ls) /\ w = wire ls /\ sz = zlen (wire ls)).
Proof.
  intros m i w sz Hm Hi. split.
  - intros E. destruct (copy_uname_case m (zlen m) i Hm ltac:(lia) ltac:(lia)) as (r & C & F). rewrite E in F.
    destruct C; simpl in F; try discriminate. injection F as -> ->. exists ls. repeat split; auto. rewrite zlen_wire; lia.
  - intros (ls & [V L] & O & -> & ->). rewrite (copy_case_complete m (zlen m) i (Ok ls)); auto.
    apply cc_ok; auto; [|rewrite zlen_wire in L; lia]. apply octets_at_bound in O. rewrite zlen_wire in O. lia.
Qed.

Lemma copy_outcomes : forall m eop i, bytes_ok m -> eop <= zlen m ->
  copy_uname m eop i = UB OobRead \/
  (exists w, zlen w <= 255 /\ copy_uname m eop i = Ok (w, zlen w)) \/
  (exists e, copy_uname m eop i = Err e /\
    (e = res_invalid_length_octet \/ e = res_name_overflow \/ e = res_out_of_bounds)).
Proof.
  intros m eop i Hm L. destruct (Z_lt_ge_dec i eop); [destruct (Z_le_gt_dec 0 i)|].
  2,3: right; right; exists res_out_of_bounds; split; auto; unfold copy_uname;
       replace ((0 >=? eop) || (i >=? eop) || (i <? 0)) with true by lia; reflexivity.
  destruct (copy_uname_case m eop i Hm ltac:(lia) ltac:(lia)) as (r & C & ->).
  destruct C; simpl; auto; right.
  - left. exists (wire ls). rewrite zlen_wire. split; [lia|reflexivity].
  - right. eexists; split; eauto.
  - right. eexists; split; eauto.
  - right. eexists; split; eauto.
Qed.

Lemma copy_ub : forall m eop i, bytes_ok m -> eop <= zlen m -> copy_uname m eop i = UB OobRead -> 
  zlen m = eop /\ exists ls, valid_labels ls /\ octets_at m i (prewire ls) /\ i + zlen (prewire ls) = eop.
Proof.
  intros m eop i Hm L E. destruct (Z_lt_ge_dec i eop); [destruct (Z_le_gt_dec 0 i)|].
  2,3: unfold copy_uname in E; replace ((0 >=? eop) || (i >=? eop) || (i <? 0)) with true in E by lia; discriminate.
  destruct (copy_uname_case m eop i Hm ltac:(lia) ltac:(lia)) as (r & C & F). rewrite E in F.
  destruct C; simpl in F; try discriminate.
  - split; [lia|]. exists ls. repeat split; auto. lia.
  - lia.
Qed.

(** ** skip_name *)
Lemma skip_bound : forall m eod i s, skip_name m eod i = Ok s -> s <= eod.
Proof.
  intros m eod i s. unfold skip_name. destruct (skip_loop _ m eod i); simpl; try discriminate.
  intros [= <-]. destruct (a + 1 >? eod) eqn:E; lia.
Qed.

Lemma skip_loop_total : forall f m eod i, bytes_ok m -> 0 <= i -> 1 <= Z.of_nat f -> zlen m - i + 1 <= Z.of_nat f ->
  (exists s, skip_loop f m eod i = Ok s /\ i <= s) \/ (skip_loop f m eod i = UB OobRead /\ zlen m <= eod).
Proof.
  induction f as [|f IH]; intros m eod i Hm Hi F1 F2; [lia|]. cbn [skip_loop].
  destruct (i <=? eod) eqn:L; [|left; eexists; split; eauto; lia].
  destruct (rd_cases m i) as [(c & E & B)|(E & B)]; rewrite E; cbn [bind]; [|right; split; auto; lia].
  pose proof (rd_byte _ _ _ Hm E).
  destruct (c =? 0) eqn:C0; [left; eexists; split; eauto; lia|].
  destruct (c >=? 192) eqn:C1; [left; eexists; split; eauto; lia|].
  destruct (IH m eod (i + c + 1) Hm ltac:(lia) ltac:(lia) ltac:(lia)) as [(s & -> & S2)|[-> S2]]; [left|right; auto].
  eexists; split; eauto; lia.
Qed.

Lemma skip_total : forall m eod i, bytes_ok m -> 0 <= i <= eod ->
  (exists s, skip_name m eod i = Ok s /\ i <= s <= eod) \/ (skip_name m eod i = UB OobRead /\ zlen m <= eod).
Proof.
  intros m eod i Hm Hi. unfold skip_name.
  destruct (skip_loop_total (S (S (length m))) m eod i Hm ltac:(lia) ltac:(lia) ltac:(unfold zlen; lia)) as [(s & -> & S2)|[-> S2]];
   cbn [bind]; [left|right; auto].
  eexists; split; [reflexivity|]. destruct (s + 1 >? eod) eqn:E; lia.
Qed.

Lemma extent_pos : forall m i e, extent m i e -> 1 <= e.
Proof. intros m i e H. induction H; try lia. pose proof (zlen_nonneg _ l). lia. Qed.

Lemma extent_bound : forall m i e, extent m i e -> 0 <= i /\ i + e <= zlen m.
Proof.
  intros m i e H. induction H.
  - apply octets_at_bound in H. zl. lia.
  - apply octets_at_bound in H. zl. lia.
  - apply octets_at_bound in H0. zl. lia.
Qed.

Lemma skip_loop_extent : forall m i e, extent m i e -> forall f eod, i + e <= eod + 1 -> e <= Z.of_nat f ->
  skip_loop f m eod i = Ok (i + e - 1).
Proof.
  intros m i e H. induction H as [i H|i hi lo H|i l e V O H IH]; intros f eod B F; (destruct f as [|f]; [try lia|]).
  - cbn [skip_loop]. replace (i <=? eod) with true by lia. rewrite (proj2 (rd_ok m i 0) H). cbn [bind].
    replace (0 =? 0) with true by lia. f_equal. lia.
  - apply octet_head in H. cbn [skip_loop]. replace (i <=? eod) with true by lia. rewrite (proj2 (rd_ok m i hi) H). cbn [bind].
    replace (hi =? 0) with false by lia. replace (hi >=? 192) with true by lia. f_equal. lia.
  - apply extent_pos in H. destruct V. lia.
  - pose proof (extent_pos _ _ _ H). destruct V as [V1 V2]. apply octet_head in O.
    cbn [skip_loop]. replace (i <=? eod) with true by lia. rewrite (proj2 (rd_ok m i _) O). cbn [bind].
    replace (zlen l =? 0) with false by lia. replace (zlen l >=? 192) with false by lia.
    replace (i + zlen l + 1) with (i + 1 + zlen l) by lia. rewrite IH by lia. f_equal. lia.
Qed.

Lemma skip_extent : forall m i e eod, extent m i e -> i + e <= eod -> skip_name m eod i = Ok (i + e).
Proof.
  intros m i e eod H B. unfold skip_name. pose proof (extent_bound _ _ _ H).
  rewrite (skip_loop_extent m i e H) by (unfold zlen in *; lia). cbn [bind].
  replace (i + e - 1 + 1 >? eod) with false by lia. f_equal. lia.
Qed.

Lemma denotes_extent : forall m i ls, denotes m i ls -> exists e, extent m i e.
Proof.
  intros m i ls H. induction H.
  - exists 1. apply ext_root; auto.
  - destruct IHdenotes as [e E]. exists (1 + zlen l + e). apply ext_label; auto.
  - exists 2. eapply ext_ptr; eauto.
Qed.

Lemma extent_det : forall m i e e', extent m i e -> extent m i e' -> e = e'.
Proof.
  intros m i e e' H. revert e'. induction H as [i H|i hi lo H|i l e V O H IH]; intros e' H'; inversion H' as [? X|? ? ? X|? l' ? V' X Y]; subst; auto;
  repeat match goal with K : octets_at _ _ (?a :: ?b :: ?c) |- _ => apply octet_head in K end;
  try (destruct V as [V ?]); try (destruct V' as [V' ?]);
  repeat match goal with K : octets_at _ ?i (zlen ?l :: ?l) |- _ => apply octets_at_cons in K as [? ?] end;
  repeat match goal with K1 : octets_at ?m ?i [?a], K2 : octets_at ?m ?i [?b] |- _ =>
    pose proof (octet_det _ _ _ _ K1 K2); clear K2 end; try lia.
  assert (E : l = l') by (eapply octets_at_det; eauto). subst l'. f_equal. auto.
Qed.

(** ** len_uname *)
Inductive len_case (p : bytes) (n : Z) : outcome Z -> Prop :=
| lc_root : forall ls rest, valid_labels ls -> p = wire ls ++ rest -> zlen (wire ls) <= n ->
    len_case p n (Ok (zlen (wire ls)))
| lc_cut : forall ls rest, valid_labels ls -> p = prewire ls ++ rest -> zlen (prewire ls) = n ->
    len_case p n (Ok (n + 1))
| lc_bad : forall ls c rest, valid_labels ls -> p = prewire ls ++ c :: rest -> zlen (prewire ls) < n ->
    64 <= c \/ (1 <= c /\ n < zlen (prewire ls) + 1 + c) -> len_case p n (Err res_invalid_length_octet).

Lemma len_loop_case : forall f p n, bytes_ok p -> 0 <= n < 2 ^ 32 -> n <= zlen p -> n + 1 <= Z.of_nat f ->
  exists r, len_case p n r /\
    match r with
    | Ok s => exists v, len_loop f p n = Ok v /\ (n - v) mod 2 ^ 32 = s mod 2 ^ 32
    | Err e => len_loop f p n = Err e
    | _ => False
    end.
Proof.
  induction f as [|f IH]; intros p n Hp Hn HL F; [lia|]. cbn [len_loop].
  assert (VN : valid_labels []) by apply Forall_nil.
  destruct (n =? 0) eqn:E0.
  { exists (Ok (n + 1)). split.
    - apply (lc_cut p n [] p); auto. rewrite zlen_prewire_nil; lia.
    - eexists; split; eauto. assert (n = 0) by lia. subst. reflexivity. }
  destruct p as [|c p]; cbn [hd_rd bind tl].
  { zl. lia. }
  apply bytes_ok_cons in Hp as [Hc Hp]. unfold is_byte in Hc.
  destruct ((c >? 63) || (c >? n - 1)) eqn:E1.
  { exists (Err res_invalid_length_octet). split; auto.
    apply (lc_bad (c :: p) n [] c p); auto; rewrite zlen_prewire_nil; lia. }
  destruct (c =? 0) eqn:E2.
  { exists (Ok 1). split.
    - apply (lc_root (c :: p) n [] p); auto; [|change (zlen (wire [])) with 1; lia].
      replace c with 0 by lia. reflexivity.
    - eexists; split; eauto. f_equal. lia. }
  zl.
  assert (Ep : p = firstn (Z.to_nat c) p ++ adv p c) by (unfold adv; rewrite firstn_skipn; auto).
  assert (Ll : zlen (firstn (Z.to_nat c) p) = c) by (apply zlen_firstn; lia).
  set (l := firstn (Z.to_nat c) p) in *. set (q := adv p c) in *.
  assert (Lq : zlen q = zlen p - c) by (rewrite Ep; zl; lia). 
  assert (Hq : bytes_ok l /\ bytes_ok q). { rewrite Ep in Hp. apply bytes_ok_app in Hp. auto. }
  assert (V : valid_label l) by (split; [lia|tauto]).
  destruct (IH q (n - 1 - c) ltac:(tauto) ltac:(lia) ltac:(lia) ltac:(lia)) as (r & C & R).
  assert (S : c :: p = zlen l :: l ++ q) by (rewrite Ll, <- Ep; auto).
  rewrite S.
  destruct C as [ls rest Vs Eq Bd|ls rest Vs Eq Bd|ls d rest Vs Eq Bd X].
  + exists (Ok (zlen (wire (l :: ls)))). split.
    * apply (lc_root _ n (l :: ls) rest); [constructor; auto| |rewrite wire_cons; zlia].
      rewrite wire_cons, Eq. cbn [app]. rewrite <- app_assoc. reflexivity.
    * destruct R as (v & -> & R). exists v. split; auto. rewrite wire_cons. zl. rewrite Ll.
      replace (n - v) with (n - 1 - c - v + (1 + c)) by lia. rewrite <- Z.add_mod_idemp_l, R, Z.add_mod_idemp_l by lia. f_equal. lia.
  + exists (Ok (n + 1)). split.
    * apply (lc_cut _ n (l :: ls) rest); [constructor; auto| |rewrite zlen_prewire_cons; lia].
      rewrite prewire_cons, Eq. cbn [app]. rewrite <- app_assoc. reflexivity.
    * destruct R as (v & -> & R). exists v. split; auto.
      replace (n - v) with (n - 1 - c - v + (1 + c)) by lia. rewrite <- Z.add_mod_idemp_l, R, Z.add_mod_idemp_l by lia. f_equal. lia.
  + exists (Err res_invalid_length_octet). split; auto.
    apply (lc_bad _ n (l :: ls) d rest); [constructor; auto| |rewrite zlen_prewire_cons; lia|rewrite zlen_prewire_cons; lia].
    rewrite prewire_cons, Eq. cbn [app]. rewrite <- app_assoc. reflexivity.
Qed.

(** Limit check of len_uname on top of the loop. *)
Definition limit255 (r : outcome Z) : outcome Z :=
  match r with Ok s => if s >? 255 then Err res_name_len else Ok s | x => x end.

Theorem len_uname_case : forall p n, bytes_ok p -> 0 < n < 2 ^ 32 - 1 -> n <= zlen p ->
  exists r, len_case p n r /\ len_uname p n = limit255 r.
Proof.
  intros p n Hp Hn HL. unfold len_uname. replace (n <=? 0) with false by lia. rewrite (Z.mod_small n) by lia.
  destruct (len_loop_case (S (length p)) p n Hp ltac:(lia) HL ltac:(unfold zlen in *; lia)) as (r & C & R).
  exists r. split; auto. destruct r as [s|e| |]; try tauto.
  - destruct R as (v & -> & R). cbn [bind]. rewrite R.
    assert (0 <= s < 2 ^ 32).
    { inversion C; subst; [pose proof (zlen_nonneg _ (wire ls))|pose proof (zlen_nonneg _ (prewire ls))]; lia. }
    rewrite Z.mod_small by lia. reflexivity.
  - rewrite R. reflexivity.
Qed.

(** Uniqueness of the label prefix of an octet string. *)
Lemma prewire_cover : forall ls a ls' a', prewire ls ++ a = prewire ls' ++ a' ->
  (exists x, ls' = ls ++ x) \/ (exists x, ls = ls' ++ x).
Proof.
  induction ls as [|l ls IH]; intros a ls' a' E.
  - left. exists ls'. reflexivity.
  - destruct ls' as [|l' ls'].
    + right. exists (l :: ls). reflexivity.
    + rewrite !prewire_cons in E. cbn [app] in E. rewrite <- !app_assoc in E. injection E as E1 E2.
      assert (l = l'). { rewrite <- (firstn_app_exact _ l (prewire ls ++ a) _ eq_refl), E2. apply firstn_app_exact; auto. }
      subst l'. apply app_inv_head in E2.
      destruct (IH a ls' a' E2) as [[x ->]|[x ->]]; [left|right]; exists x; reflexivity.
Qed.

Lemma prewire_hd : forall x c rest, valid_labels x -> prewire x ++ [] ++ rest = c :: rest -> x = [].
Proof.
  intros [|l x] c rest V E; auto. exfalso. apply (f_equal (@length Z)) in E. rewrite prewire_cons in E. simpl in E.
  rewrite !app_length in E. inversion V as [|? ? [H ?]]; subst. unfold zlen in H. lia.
Qed.

Lemma wire_inj_app : forall ls ls' a a', valid_labels ls -> valid_labels ls' -> wire ls ++ a = wire ls' ++ a' -> ls = ls' /\ a = a'.
Proof.
  induction ls as [|l ls IH]; intros [|l' ls'] a a' V V' E.
  - split; auto. injection E as E. auto.
  - rewrite wire_cons in E. inversion V' as [|? ? [H ?]]; subst. injection E as E _. lia.
  - rewrite wire_cons in E. inversion V as [|? ? [H ?]]; subst. injection E as E _. lia.
  - rewrite !wire_cons in E. cbn [app] in E. rewrite <- !app_assoc in E. injection E as E1 E2.
    assert (l = l'). { rewrite <- (firstn_app_exact _ l (wire ls ++ a) _ eq_refl), E2. apply firstn_app_exact; auto. }
    subst l'. apply app_inv_head in E2. inversion V; inversion V'; subst.
    destruct (IH _ _ _ H2 H6 E2) as [-> ->]. auto.
Qed.

Lemma wire_inj : forall ls ls', valid_labels ls -> valid_labels ls' -> wire ls = wire ls' -> ls = ls'.
Proof. intros ls ls' V V' E. apply (wire_inj_app ls ls' [] []); auto. rewrite E. auto. Qed.

(** A terminated name is never read as anything else. *)
Lemma wire_vs_prefix : forall ls rest ls' c rest', valid_labels ls -> valid_labels ls' ->
  wire ls ++ rest = prewire ls' ++ c :: rest' -> (exists x, ls = ls' ++ x) /\ (c <> 0 -> exists l x, ls = ls' ++ l :: x /\ c = zlen l).
Proof.
  intros ls rest ls'. revert ls. induction ls' as [|l' ls' IH]; intros ls c rest' V V' E.
  - split; [exists ls; auto|]. intros C. destruct ls as [|l ls].
    + injection E as E _. congruence.
    + rewrite wire_cons in E. injection E as E _. exists l, ls. auto.
  - destruct ls as [|l ls].
    + rewrite prewire_cons in E. inversion V' as [|? ? [H ?]]; subst. injection E as E _. lia.
    + rewrite wire_cons, prewire_cons in E. cbn [app] in E. rewrite <- !app_assoc in E. injection E as E1 E2.
      assert (l = l'). { rewrite <- (firstn_app_exact _ l (wire ls ++ rest) _ eq_refl), E2. apply firstn_app_exact; auto. }
      subst l'. apply app_inv_head in E2. inversion V; inversion V'; subst.
      destruct (IH _ _ _ H2 H6 E2) as [[x ->] K]. split; [exists x; auto|].
      intros C. destruct (K C) as (l2 & x2 & E3 & E4). exists l2, x2. rewrite E3. auto.
Qed.

Lemma len_uname_wire : forall ls rest n, valid_name ls -> bytes_ok rest -> zlen (wire ls) <= n <= zlen (wire ls ++ rest) -> n < 2 ^ 32 - 1 ->
  len_uname (wire ls ++ rest) n = Ok (zlen (wire ls)).
Proof.
  intros ls rest n [V L] Hr Hn Hb. pose proof (zlen_wire ls). pose proof (zlen_nonneg _ (prewire ls)).
  assert (Hp : bytes_ok (wire ls ++ rest)).
  { apply bytes_ok_app; split; auto. clear -V. unfold wire. apply bytes_ok_app. split; [|repeat constructor; lia].
    induction V as [|l ls [H HB] V IH]; [constructor|]. rewrite prewire_cons. apply bytes_ok_cons. split; [unfold is_byte; lia|].
    apply bytes_ok_app; auto. }
  destruct (len_uname_case (wire ls ++ rest) n Hp ltac:(lia) ltac:(lia)) as (r & C & ->).
  destruct C as [ls' rest' V' E B|ls' rest' V' E B|ls' c rest' V' E B X].
  - apply wire_inj_app in E as [-> _]; auto. simpl. replace (_ >? 255) with false by lia. reflexivity.
  - exfalso. assert (E2 : exists d y, wire ls ++ (rest ++ [0]) = prewire ls' ++ d :: y).
    { rewrite app_assoc, E, <- app_assoc. destruct rest' as [|d y]; simpl; eauto. }
    destruct E2 as (d & y & E2). destruct (wire_vs_prefix _ _ _ _ _ V V' E2) as [[x ->] _].
    rewrite prewire_app in *. zl. pose proof (zlen_nonneg _ (prewire x)). lia.
  - exfalso. destruct (wire_vs_prefix _ _ _ _ _ V V' E) as [_ K].
    destruct K as (l & x & -> & ->); [lia|]. apply Forall_app in V as [_ V]. inversion V as [|? ? [Q ?]]; subst.
    rewrite prewire_app, zlen_app, zlen_prewire_cons in *. pose proof (zlen_nonneg _ (prewire x)). lia.
Qed.

Lemma len_uname_cut : forall ls rest, valid_labels ls -> ls <> [] -> zlen (prewire ls) < 255 -> bytes_ok rest ->
  len_uname (prewire ls ++ rest) (zlen (prewire ls)) = Ok (zlen (prewire ls) + 1).
Proof.
  intros ls rest V NE L Hr. pose proof (zlen_nonneg _ rest).
  assert (0 < zlen (prewire ls)).
  { destruct ls; [congruence|]. rewrite zlen_prewire_cons. pose proof (zlen_nonneg _ l). pose proof (zlen_nonneg _ (prewire ls)). lia. }
  assert (Hp : bytes_ok (prewire ls ++ rest)).
  { apply bytes_ok_app; split; auto. clear -V. 
    induction V as [|l ls [H HB] V IH]; [constructor|]. rewrite prewire_cons. apply bytes_ok_cons. split; [unfold is_byte; lia|].
    apply bytes_ok_app; auto. }
  destruct (len_uname_case (prewire ls ++ rest) (zlen (prewire ls)) Hp ltac:(lia) ltac:(zlia)) as (r & C & ->).
  destruct C as [ls' rest' V' E B|ls' rest' V' E B|ls' c rest' V' E B X].
  - exfalso. assert (E2 : exists d y, wire ls' ++ (rest' ++ [0]) = prewire ls ++ d :: y).
    { rewrite app_assoc, <- E, <- app_assoc. destruct rest as [|d y]; simpl; eauto. }
    destruct E2 as (d & y & E2). destruct (wire_vs_prefix _ _ _ _ _ V' V E2) as [[x ->] _].
    rewrite zlen_wire, prewire_app in *. zl. pose proof (zlen_nonneg _ (prewire x)). lia.
  - unfold limit255. replace (_ >? 255) with false by lia. reflexivity.
  - exfalso. destruct (prewire_cover _ _ _ _ E) as [[x ->]|[x ->]].
    + rewrite prewire_app in *. zl. pose proof (zlen_nonneg _ (prewire x)). lia.
    + rewrite prewire_app in *. rewrite <- app_assoc in E. apply app_inv_head in E. 
      apply Forall_app in V as [_ V]. destruct x as [|l x]; [rewrite app_nil_r in B; lia|].
      rewrite prewire_cons in E. injection E as <- E. inversion V as [|? ? [Q ?]]; subst.
      rewrite zlen_app, zlen_prewire_cons in *. pose proof (zlen_nonneg _ (prewire x)). lia.
Qed.

Lemma len_uname_iff : forall p n sz, bytes_ok p -> 0 < n < 2 ^ 32 - 1 -> n <= zlen p ->
  (len_uname p n = Ok sz <->
   (exists ls rest, valid_name ls /\ p = wire ls ++ rest /\ zlen (wire ls) <= n /\ sz = zlen (wire ls)) \/
   (exists ls rest, valid_labels ls /\ ls <> [] /\ p = prewire ls ++ rest /\ zlen (prewire ls) = n /\ n < 255 /\ sz = n + 1)).
Proof.
  intros p n sz Hp Hn HL. split.
  - intros E. destruct (len_uname_case p n Hp Hn HL) as (r & C & F). rewrite E in F.
    destruct C as [ls' rest' V' E' B|ls' rest' V' E' B|ls' c rest' V' E' B X]; cbn [limit255] in F.
    + destruct (_ >? 255) eqn:G; [discriminate|]. injection F as ->. left. exists ls', rest'. repeat split; auto. lia.
    + destruct (_ >? 255) eqn:G; [discriminate|]. injection F as ->. right. exists ls', rest'. repeat split; auto; try lia.
      intros ->. rewrite zlen_prewire_nil in B. lia.
    + discriminate.
  - intros [(ls & rest & V & -> & B & ->)|(ls & rest & V & NE & -> & <- & B & ->)].
    + apply bytes_ok_app in Hp as [_ Hr]. apply len_uname_wire; auto; lia.
    + apply bytes_ok_app in Hp as [_ Hr]. apply len_uname_cut; auto.
Qed.
