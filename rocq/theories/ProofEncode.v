(** ProofEncode.v: the encoding of an abstract message reads back as that message. *)
From Verif Require Import Base Lib SpecName SpecMessage SpecEncode ModelParse SpecParsed ProofUnpack ProofMessage ProofRdata.

Lemma denotes_wire : forall ls m i, valid_labels ls -> octets_at m i (wire ls) -> denotes m i ls /\ extent m i (zlen (wire ls)).
Proof.
  induction ls as [|l ls IH]; intros m i V O.
  - split; constructor; exact O.
  - inversion V; subst. rewrite wire_cons in O. change (zlen l :: l ++ wire ls) with ((zlen l :: l) ++ wire ls) in O.
    apply octets_at_app in O as [O1 O2]. rewrite zlen_cons in O2.
    destruct (IH m (i + (zlen l + 1))) as [D X]; auto. replace (i + (zlen l + 1)) with (i + 1 + zlen l) in * by lia.
    split; [apply den_label; auto|]. rewrite wire_cons. replace (zlen (zlen l :: l ++ wire ls)) with (1 + zlen l + zlen (wire ls)).
    + apply ext_label; auto.
    + rewrite zlen_cons, zlen_app. lia.
Qed.

Lemma owner_wire : forall ls m i, valid_name ls -> octets_at m i (wire ls) -> owner_at m i ls (zlen (wire ls)).
Proof. intros ls m i [V L] O. destruct (denotes_wire ls m i V O). split; auto. Qed.

Lemma wire_bytes : forall ls, valid_labels ls -> bytes_ok (wire ls).
Proof.
  intros ls V. unfold wire. apply Forall_app. split; [|repeat constructor; unfold is_byte; lia].
  induction V as [|l ls [B F] V IH]; [constructor|]. rewrite prewire_cons. constructor; [unfold is_byte; lia|]. apply Forall_app. auto.
Qed.

Lemma canon_cons : forall v vs, canon (v :: vs) = canon1 v ++ canon vs.
Proof. reflexivity. Qed.
Lemma wf_values_bytes : forall fs vs, wf_values fs vs -> bytes_ok (canon vs).
Proof.
  induction 1 as [fs|fs ls vs V W IH|f fs l vs F B Ne T W IH]; [constructor| |]; rewrite canon_cons; apply Forall_app; split; auto.
  cbn [canon1]. apply wire_bytes. apply V.
Qed.

Lemma zlen_pos : forall l : list Z, l <> [] -> 0 < zlen l.
Proof. intros [|a l] H; [congruence|]. rewrite zlen_cons. pose proof (zlen_nonneg _ l). lia. Qed.

Lemma rdata_canon : forall fs vs m i, wf_values fs vs -> octets_at m i (canon vs) -> rdata_at m fs i (zlen (canon vs)) vs.
Proof.
  intros fs vs m i W. revert i. induction W as [fs|fs ls vs V W IH|f fs l vs F B Ne T W IH]; intros i O.
  - constructor.
  - rewrite canon_cons in *. cbn [canon1] in *. apply octets_at_app in O as [O1 O2]. destruct (owner_wire _ _ _ V O1) as (D & L & X).
    rewrite zlen_app. pose proof (zlen_nonneg _ (canon vs)).
    apply (ra_name m fs i _ ls (zlen (wire ls))); auto; try lia.
    replace (zlen (wire ls) + zlen (canon vs) - zlen (wire ls)) with (zlen (canon vs)) by lia. apply IH. exact O2.
  - rewrite canon_cons in *. cbn [canon1] in *. apply octets_at_app in O as [O1 O2]. rewrite zlen_app. pose proof (zlen_nonneg _ (canon vs)).
    pose proof (zlen_pos l Ne). apply ra_octets; auto; try lia.
    + intros Te. rewrite (T Te). change (zlen (canon [])) with 0. lia.
    + replace (zlen l + zlen (canon vs) - zlen l) with (zlen (canon vs)) by lia. apply IH. exact O2.
Qed.

Lemma u16_val : forall v, v / 256 * 256 + v mod 256 = v.
Proof. intros. pose proof (Z.div_mod v 256). lia. Qed.
Lemma u32_val : forall v, v / 16777216 * 16777216 + v / 65536 mod 256 * 65536 + v / 256 mod 256 * 256 + v mod 256 = v.
Proof.
  intros. pose proof (Z.div_mod v 256). pose proof (Z.div_mod (v / 256) 256). pose proof (Z.div_mod (v / 65536) 256).
  rewrite Z.div_div in * by lia. change (256 * 256) with 65536 in *. change (65536 * 256) with 16777216 in *. lia.
Qed.
Lemma u16_bytes : forall v, 0 <= v < 65536 -> bytes_ok (u16 v).
Proof.
  intros v H. repeat constructor; unfold is_byte; try (apply Z.mod_pos_bound; lia);
  [apply Z.div_pos; lia|apply Z.div_lt_upper_bound; lia].
Qed.
Lemma u32_bytes : forall v, 0 <= v < 2 ^ 32 -> bytes_ok (u32 v).
Proof.
  intros v H. change (2 ^ 32) with 4294967296 in H. repeat constructor; unfold is_byte; try (apply Z.mod_pos_bound; lia);
  [apply Z.div_pos; lia|apply Z.div_lt_upper_bound; lia].
Qed.
Lemma zlen_u16 : forall v, zlen (u16 v) = 2. Proof. reflexivity. Qed.
Lemma zlen_u32 : forall v, zlen (u32 v) = 4. Proof. reflexivity. Qed.

Lemma encode_question_at : forall r m i, wf_question r -> octets_at m i (encode_question r) -> question_at m i r (zlen (encode_question r)).
Proof.
  intros r m i ((V & Bt & Bc) & T & D) O. unfold encode_question in *. apply octets_at_app in O as [O1 O2].
  exists (zlen (wire (s_name r))), (s_type r / 256), (s_type r mod 256), (s_class r / 256), (s_class r mod 256).
  split; [apply owner_wire; auto|]. split; [exact O2|]. rewrite !u16_val. rewrite !zlen_app, !zlen_u16. repeat split; auto.
Qed.

Lemma encode_record_at : forall r m i, wf_record r -> octets_at m i (encode_record r) -> record_at m i r (zlen (encode_record r)).
Proof.
  intros r m i ((V & Bt & Bc) & T & vs & D & W & L) O. unfold encode_record in *. rewrite D in *. cbv zeta in *.
  apply octets_at_app in O as [O1 O2]. apply octets_at_app in O2 as [O2 O3].
  replace (zlen (u16 (s_type r) ++ u16 (s_class r) ++ u32 (s_ttl r) ++ u16 (zlen (canon vs)))) with 10 in * by reflexivity.
  exists (zlen (wire (s_name r))), (s_type r / 256), (s_type r mod 256), (s_class r / 256), (s_class r mod 256),
    (s_ttl r / 16777216), (s_ttl r / 65536 mod 256), (s_ttl r / 256 mod 256), (s_ttl r mod 256), (zlen (canon vs) / 256), (zlen (canon vs) mod 256), vs.
  split; [apply owner_wire; auto|]. split; [exact O2|]. rewrite !u16_val, u32_val. cbv zeta. split; auto. split; auto. split; auto.
  pose proof (octets_at_bound _ _ _ O3). split; [lia|]. split; [apply rdata_canon; auto|]. split; auto.
  rewrite (zlen_app _ (wire _)), (zlen_app _ _ (canon vs)).
  replace (zlen (u16 (s_type r) ++ u16 (s_class r) ++ u32 (s_ttl r) ++ u16 (zlen (canon vs)))) with 10 by reflexivity. lia.
Qed.

Lemma encode_entries : forall sec rs m i, Forall (if sec =? 0 then wf_question else wf_record) rs ->
  octets_at m i (concat (map (if sec =? 0 then encode_question else encode_record) rs)) ->
  entries_at sec m i (zlen rs) rs (i + zlen (concat (map (if sec =? 0 then encode_question else encode_record) rs))).
Proof.
  intros sec rs m. induction rs as [|r rs IH]; intros i F O.
  - cbn [map concat]. change (zlen (@nil Z)) with 0. rewrite Z.add_0_r. constructor.
  - inversion F; subst. cbn [map concat] in *. apply octets_at_app in O as [O1 O2]. rewrite zlen_app, Z.add_assoc.
    pose proof (zlen_nonneg _ rs). rewrite (zlen_cons _ r rs).
    assert (0 < zlen ((if sec =? 0 then encode_question else encode_record) r)).
    { destruct (sec =? 0); unfold encode_question, encode_record; rewrite zlen_app, zlen_wire;
      pose proof (zlen_nonneg _ (prewire (s_name r))); match goal with |- _ < _ + zlen ?x => pose proof (zlen_nonneg _ x) end; lia. }
    pose proof (octets_at_bound _ _ _ O1).
    eapply (en_more sec m i _ r (zlen ((if sec =? 0 then encode_question else encode_record) r))); try lia.
    + unfold entry_at. destruct (sec =? 0); [apply encode_question_at|apply encode_record_at]; auto.
    + replace (zlen rs + 1 - 1) with (zlen rs) by lia. apply IH; auto.
Qed.

Theorem encode_message_at : forall s, wf_msg s -> message_at (encode s) s.
Proof.
  intros s (Bi & Bf & Fq & Fa & Fn & Fr & Lq & La & Ln & Lr).
  pose proof (octets_at_self (encode s)) as O. unfold encode in O at 2. apply octets_at_app in O as [O0 O].
  change (0 + zlen (encode_header s)) with 12 in O.
  apply octets_at_app in O as [O1 O]. apply octets_at_app in O as [O2 O]. apply octets_at_app in O as [O3 O4].
  pose proof (encode_entries 0 _ _ _ Fq O1) as E1. pose proof (encode_entries 1 _ _ _ Fa O2) as E2.
  pose proof (encode_entries 2 _ _ _ Fn O3) as E3. pose proof (encode_entries 3 _ _ _ Fr O4) as E4. cbn [Z.eqb] in *.
  do 16 eexists. split; [exact O0|]. rewrite !u16_val. repeat (split; [first [reflexivity|eassumption]|]). eassumption.
Qed.

Lemma concat_bytes : forall A (f : A -> bytes) (P : A -> Prop) l, (forall a, P a -> bytes_ok (f a)) -> Forall P l -> bytes_ok (concat (map f l)).
Proof. intros A f P l H F. induction F; cbn; [constructor|]. apply Forall_app. split; auto. apply H. auto. Qed.

Lemma encode_bytes : forall s, wf_msg s -> bytes_ok (encode s).
Proof.
  intros s (Bi & Bf & Fq & Fa & Fn & Fr & Lq & La & Ln & Lr). unfold encode, encode_header, bytes_ok.
  assert (Q : forall r, wf_question r -> bytes_ok (encode_question r)).
  { intros r ((V & Bt & Bc) & _ & _). unfold encode_question, bytes_ok. rewrite !Forall_app. repeat split; try apply u16_bytes; auto. apply wire_bytes, V. }
  assert (R : forall r, wf_record r -> bytes_ok (encode_record r)).
  { intros r ((V & Bt & Bc) & T & vs & D & W & L). unfold encode_record, bytes_ok. rewrite D. cbv zeta. rewrite !Forall_app.
    pose proof (zlen_nonneg _ (canon vs)).
    repeat split; try (apply u16_bytes; lia); [apply wire_bytes, V|apply u32_bytes; auto|eapply wf_values_bytes; eauto]. }
  pose proof (zlen_nonneg _ (sm_qd s)). pose proof (zlen_nonneg _ (sm_an s)). pose proof (zlen_nonneg _ (sm_ns s)). pose proof (zlen_nonneg _ (sm_ar s)).
  rewrite !Forall_app. repeat split; try (apply u16_bytes; lia); eapply concat_bytes; eauto.
Qed.
