(** ProofNameMore.v: remaining facts used by PropName.v. *)
From Verif Require Import Base Lib SpecName ModelName ProofUnpack ProofCopy ProofNameOps ProofNameStr ProofStrName.

Lemma reaches_ext : forall m x eop i ls j, reaches m eop i ls j -> reaches (m ++ x) eop i ls j.
Proof.
  intros m x eop i ls j H. induction H.
  - apply rch_here.
  - apply rch_label; auto. apply octets_at_ext; auto.
  - eapply rch_ptr; eauto. apply octets_at_ext; auto.
Qed.

Lemma unpack_ext : forall m x eop i, bytes_ok m -> bytes_ok x -> unpack_name m eop i <> UB OobRead ->
  unpack_name (m ++ x) eop i = unpack_name m eop i.
Proof.
  intros m x eop i Hm Hx N. assert (Hmx : bytes_ok (m ++ x)) by (apply bytes_ok_app; auto).
  destruct (Z_lt_ge_dec i eop); [destruct (Z_le_gt_dec 0 i)|].
  2,3: unfold unpack_name; replace ((0 >=? eop) || (i >=? eop) || (i <? 0)) with true by lia; reflexivity.
  destruct (unpack_name_case m eop i Hm ltac:(lia)) as (r & C & E). rewrite E in *.
  apply unpack_case_complete; auto.
  destruct C as [ls j R P X|ls j c R P X Y|ls j hi lo R P X Y Z1 Z2|ls j c R P X Y Z1|ls j c R X Y Z1 Z2|ls j c R P X Y Z1|ls j R P X|ls j hi R P X Y Z1|ls j c R X Y Z1 Z2];
   try (simpl in N; congruence); apply (reaches_ext _ x) in R; apply (octets_at_ext _ x) in X.
  - eapply uc_ok; eauto.
  - eapply uc_len; eauto.
  - eapply uc_ptr; eauto.
  - eapply uc_ovf; eauto.
  - eapply uc_oob_label; eauto.
  - eapply uc_oob_ptr; eauto.
Qed.

Lemma unpack_stray : forall msg x rest i, bytes_ok msg -> is_byte x -> bytes_ok rest ->
  unpack_name (msg ++ x :: rest) (zlen msg) i = unpack_name (msg ++ [x]) (zlen msg) i.
Proof.
  intros msg x rest i H1 H2 H3. change (x :: rest) with ([x] ++ rest). rewrite app_assoc. apply unpack_ext; auto.
  - apply bytes_ok_app; split; auto. apply bytes_ok_cons; split; auto. apply bytes_ok_nil.
  - apply unpack_safe_stray; [|zlia]. apply bytes_ok_app; split; auto. apply bytes_ok_cons; split; auto. apply bytes_ok_nil.
Qed.

Lemma copy_ok_unpack : forall m eop i w sz, bytes_ok m -> eop <= zlen m -> copy_uname m eop i = Ok (w, sz) -> unpack_name m eop i = Ok (w, sz).
Proof.
  intros m eop i w sz Hm L E. destruct (Z_lt_ge_dec i eop); [destruct (Z_le_gt_dec 0 i)|].
  2,3: unfold copy_uname in E; replace ((0 >=? eop) || (i >=? eop) || (i <? 0)) with true in E by lia; discriminate.
  destruct (copy_uname_case m eop i Hm ltac:(lia) ltac:(lia)) as (r & C & F). rewrite E in F.
  destruct C as [ls V O B L'| | | | | ]; simpl in F; try discriminate. injection F as -> ->.
  rewrite (unpack_case_complete m eop i (Ok ls)); auto.
  unfold wire in O. apply octets_at_app in O as [O1 O2]. apply (uc_ok m eop i 255 ls (i + zlen (prewire ls))); auto.
  clear O2 L' E. revert i l l0 O1 B. induction ls as [|x ls IH]; intros i l l0 O1 B.
  - rewrite zlen_prewire_nil. replace (i + 0) with i by lia. apply rch_here.
  - apply valid_labels_cons in V as [V1 V]. rewrite prewire_cons in O1. rewrite zlen_prewire_cons in *.
    apply octets_at_app with (a := zlen x :: x) in O1 as [O1 O3]. replace (i + zlen (zlen x :: x)) with (i + 1 + zlen x) in O3 by zlia.
    pose proof (zlen_nonneg _ (prewire ls)). pose proof (zlen_nonneg _ x).
    apply rch_label; auto; [lia|]. replace (i + (1 + zlen x + zlen (prewire ls))) with (i + 1 + zlen x + zlen (prewire ls)) by lia.
    destruct ls as [|y ls]; [rewrite zlen_prewire_nil; replace (i + 1 + zlen x + 0) with (i + 1 + zlen x) by lia; apply rch_here|].
    apply IH; auto; try lia. rewrite zlen_prewire_cons in *. pose proof (zlen_nonneg _ y). pose proof (zlen_nonneg _ (prewire ls)). lia.
Qed.

(** Per-error characterisations of unpack_name, both directions. *)
Lemma unpack_err_iff : forall m eop i e, bytes_ok m -> 0 <= i < eop ->
  (unpack_name m eop i = Err e <-> unpack_case m eop i 255 (Err e)).
Proof.
  intros m eop i e Hm Hi. split.
  - intros E. destruct (unpack_name_case m eop i Hm Hi) as (r & C & F). rewrite E in F. destruct r; simpl in F; try discriminate. congruence.
  - intros C. rewrite (unpack_case_complete m eop i (Err e)); auto.
Qed.

Lemma copy_err_iff : forall m eop i e, bytes_ok m -> 0 <= i < eop -> eop <= zlen m ->
  (copy_uname m eop i = Err e <-> copy_case m eop i 255 (Err e)).
Proof.
  intros m eop i e Hm Hi L. split.
  - intros E. destruct (copy_uname_case m eop i Hm Hi ltac:(lia)) as (r & C & F). rewrite E in F. destruct r; simpl in F; try discriminate. congruence.
  - intros C. rewrite (copy_case_complete m eop i (Err e)); auto.
Qed.

(** Iterated left_chop. *)
Fixpoint chop_n (n : nat) (d : bytes) (len : Z) : outcome (bytes * Z) :=
  match n with
  | O => Ok (d, len)
  | S k => '(d', len') <- left_chop d len ;; chop_n k d' len'
  end.

Lemma chop_n_all : forall ls rest, valid_name ls -> chop_n (length ls) (wire ls ++ rest) (zlen (wire ls)) = Ok ([0] ++ rest, 1).
Proof.
  induction ls as [|l ls IH]; intros rest V; [reflexivity|]. cbn [length chop_n]. rewrite left_chop_cons by auto. cbn [bind].
  apply IH. destruct V as [V L]. apply valid_labels_cons in V as [_ V]. split; auto. rewrite wire_cons in L. zl. pose proof (zlen_nonneg _ l). lia.
Qed.
