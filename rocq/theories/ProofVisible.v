(** ProofVisible.v: the tokens of SpecText consist of visible characters. *)
From Coq Require Strings.String.
From Verif Require Import Base Lib SpecName SpecMessage SpecEncode SpecFormat SpecTables SpecText Libc ModelName ModelFormat ModelTables ModelDescr
  ProofFormat ProofInet ProofInet6 ProofB64 ProofB32 ProofTables ProofRdata ProofPrint ProofPrint2 ProofStrName ProofNameStr.

Definition visible (s : bytes) : Prop := Forall (fun c => 33 <= c <= 126) s.
(** Not empty, neither starting nor ending with white space. *)
Definition solid (s : bytes) : Prop := s <> [] /\ isspace (hd 32 s) = false /\ last s 32 <> 32.

Lemma visible_app : forall a b, visible (a ++ b) <-> visible a /\ visible b.
Proof. intros; unfold visible; apply Forall_app. Qed.
Lemma visible_cons : forall a b, visible (a :: b) <-> 33 <= a <= 126 /\ visible b.
Proof. intros; unfold visible; split; [intros H; inversion H; auto|intros [? ?]; auto]. Qed.
Lemma visible_nil : visible []. Proof. constructor. Qed.
Lemma last_cons : forall A (a d : A) l, l <> [] -> last (a :: l) d = last l d.
Proof. intros A a d [|b l] H; [congruence|reflexivity]. Qed.
Lemma visible_solid : forall s, visible s -> s <> [] -> solid s.
Proof.
  intros s V N. split; [auto|]. split.
  - destruct s; [congruence|]. apply visible_cons in V as [V _]. cbn [hd]. unfold isspace. lia.
  - revert N. induction V as [|c s Hc V IH]; intros N; [congruence|]. destruct s as [|d s]; [cbn; lia|]. rewrite last_cons by discriminate. apply IH. discriminate.
Qed.
Lemma solid_app : forall a b, a <> [] -> b <> [] -> isspace (hd 32 a) = false -> last b 32 <> 32 -> solid (a ++ b).
Proof.
  intros a b A B H L. split; [destruct a; [congruence|discriminate]|]. split; [destruct a; [congruence|exact H]|].
  clear - B L. induction a as [|c a IH]; [exact L|]. cbn [app]. rewrite last_cons; [exact IH|]. destruct a, b; try discriminate; congruence.
Qed.
Lemma last_snoc : forall A (l : list A) a d, last (l ++ [a]) d = a.
Proof. intros. apply last_last. Qed.
Lemma quoted_solid : forall l, solid (quoted l).
Proof. intros l. unfold quoted. split; [discriminate|]. split; [reflexivity|]. rewrite app_assoc, last_snoc. lia. Qed.

Lemma digit_visible : forall s, Forall digit s -> visible s.
Proof. intros s H. eapply Forall_impl; [|exact H]. unfold digit. cbn. intros; lia. Qed.
Lemma decimal_visible : forall n s, decimal n s -> visible s /\ s <> [].
Proof. intros n s D. split; [|eapply decimal_nonempty; eauto]. destruct D as (D & _). apply digit_visible; auto. Qed.
Lemma hex_octet_visible : forall up b h, hex_octet up b h -> visible h /\ h <> [].
Proof.
  intros up b h (x & y & u & v & -> & _ & _ & _ & C1 & C2). split; [|discriminate].
  assert (G : forall c, hex_case up c -> 33 <= c <= 126) by (intros c; unfold hex_case; destruct up; lia).
  apply visible_cons. split; [apply G; auto|]. apply visible_cons. split; [apply G; auto|constructor].
Qed.
Lemma hex_text_visible : forall up l s, hex_text up l s -> visible s /\ (l <> [] -> s <> []).
Proof.
  induction 1 as [|b h l s H _ [IH _]]; [split; [constructor|congruence]|]. apply hex_octet_visible in H as [V N].
  split; [apply visible_app; auto|]. intros _. destruct h; [congruence|discriminate].
Qed.
Lemma b64_char_visible : forall v, 0 <= v < 64 -> 33 <= b64_char v <= 126.
Proof. intros v H. pose proof (b64_char_byte v H). lia. Qed.
Lemma div_range : forall a b c, 0 < b -> 0 <= a < b * c -> 0 <= a / b < c.
Proof. intros. split; [apply Z.div_pos; lia|apply Z.div_lt_upper_bound; lia]. Qed.
Lemma base64_visible : forall n l, (length l <= n)%nat -> bytes_ok l -> visible (base64 l).
Proof.
  induction n as [|n IH]; intros l L B.
  - destruct l; [constructor|cbn in L; lia].
  - destruct l as [|a [|b [|c r]]]; [constructor| | |]; apply bytes_ok_cons in B as [Ba B]; unfold is_byte in Ba; cbn [base64].
    + repeat (apply visible_cons; split); try apply visible_nil; try lia; apply b64_char_visible; zdm.
    + apply bytes_ok_cons in B as [Bb B]; unfold is_byte in Bb.
      repeat (apply visible_cons; split); try apply visible_nil; try lia; apply b64_char_visible; zdm.
    + apply bytes_ok_cons in B as [Bb B]. apply bytes_ok_cons in B as [Bc B]. unfold is_byte in *.
      do 4 (apply visible_cons; split; [apply b64_char_visible; zdm|]). apply IH; [cbn in L; lia|auto].
Qed.
Lemma base64_nonempty : forall l, l <> [] -> base64 l <> [].
Proof. intros [|a [|b [|c r]]] H; [congruence| | |]; discriminate. Qed.
Lemma b32_char_visible : forall v, 0 <= v < 32 -> 33 <= b32_char v <= 126.
Proof. intros v H. unfold b32_char. destruct (v <=? 9); lia. Qed.
Lemma base32_visible : forall n l, (length l <= n)%nat -> bytes_ok l -> visible (base32hex l).
Proof.
  induction n as [|n IH]; intros l L B.
  - destruct l; [constructor|cbn in L; lia].
  - destruct l as [|a [|b [|c [|d [|e r]]]]]; [constructor| | | | |]; cbn [base32hex map app];
      repeat match goal with H : bytes_ok (_ :: _) |- _ => apply bytes_ok_cons in H as [? ?] end; unfold is_byte in *;
      repeat (apply visible_cons; split; [apply b32_char_visible; zdm|]); try apply visible_nil. apply IH; [cbn in L; lia|auto].
Qed.
Lemma base32_length : forall l, l <> [] -> 2 <= zlen (base32hex l).
Proof.
  intros [|a [|b [|c [|d [|e r]]]]] H; [congruence| | | | |]; cbn [base32hex map app]; rewrite !zlen_cons;
    match goal with |- context [zlen ?x] => pose proof (zlen_nonneg _ x) end; lia.
Qed.
Lemma ipv4_visible : forall a s, ipv4_text a s -> visible s /\ s <> [].
Proof.
  intros a s (a0 & a1 & a2 & a3 & s0 & s1 & s2 & s3 & -> & D0 & D1 & D2 & D3 & ->).
  apply decimal_visible in D0 as [V0 N0], D1 as [V1 _], D2 as [V2 _], D3 as [V3 _].
  split; [|destruct s0; [congruence|discriminate]].
  repeat (apply visible_app; split; auto; apply visible_cons; split; [lia|]); auto.
Qed.
Lemma group_visible : forall w s, group_text w s -> visible s /\ s <> [].
Proof.
  intros w s (C & _ & _ & N). split.
  - eapply Forall_impl; [|exact C]. unfold hex_case. cbn. intros; lia.
  - destruct N as [-> |(c & r & -> & _)]; discriminate.
Qed.
Lemma groups_visible : forall ws s, groups_text ws s -> visible s /\ s <> [].
Proof.
  induction 1 as [w s H|w s ws t H _ [IH1 IH2]]; [eapply group_visible; eauto|]. apply group_visible in H as [V N]. split.
  - apply visible_app; split; auto. apply visible_cons; split; [lia|auto].
  - destruct s; [congruence|discriminate].
Qed.
Lemma groups_opt_visible : forall ws s, groups_opt ws s -> visible s.
Proof. intros ws s [[_ ->]|H]; [constructor|eapply groups_visible; eauto]. Qed.
Lemma ipv6_visible : forall a s, ipv6_text a s -> visible s /\ s <> [].
Proof.
  intros a s [ws s' _ _ _ G|pre post n s' t _ _ _ _ _ G1 G2|x y v4 s' _ _ G|v4 s' _ G].
  - eapply groups_visible; eauto.
  - apply groups_opt_visible in G1, G2. split; [|destruct s'; discriminate].
    apply visible_app; split; auto. cbn [app]. do 2 (apply visible_cons; split; [lia|]). auto.
  - apply ipv4_visible in G as [V _]. split; [|discriminate]. cbn [app]. do 2 (apply visible_cons; split; [lia|]). auto.
  - apply ipv4_visible in G as [V _]. split; [|discriminate]. cbn [app]. do 7 (apply visible_cons; split; [lia|]). auto.
Qed.
Definition vis_lit (m : String.string) : bool := forallb (fun c => (33 <=? c) && (c <=? 126)) (lit m) && negb (match lit m with [] => true | _ => false end).
Lemma vis_lit_spec : forall m, vis_lit m = true -> visible (lit m) /\ lit m <> [].
Proof.
  intros m H. apply andb_prop in H as [H1 H2]. split.
  - apply Forall_forall. rewrite forallb_forall in H1. intros x X. apply H1 in X. lia.
  - intros E. rewrite E in H2. discriminate.
Qed.
Lemma mnemonic_visible : forall tb n s, forallb (fun e => vis_lit (snd e)) tb = true -> mnemonic tb n s -> visible s /\ s <> [].
Proof. intros tb n s F (m & I & ->). rewrite forallb_forall in F. apply F in I. apply vis_lit_spec. exact I. Qed.
Lemma type_text_visible : forall n s, type_text n s -> visible s /\ s <> [].
Proof.
  intros n s [M|(_ & d & D & ->)]; [eapply mnemonic_visible; eauto; vm_compute; reflexivity|].
  apply decimal_visible in D as [V _]. split; [|discriminate]. apply visible_app; split; auto. apply (vis_lit_spec "TYPE"%string). reflexivity.
Qed.
Lemma key_text_visible : forall n s, key_text n s -> visible s /\ s <> [].
Proof.
  intros n s [M|(_ & d & D & ->)]; [eapply mnemonic_visible; eauto; vm_compute; reflexivity|].
  apply decimal_visible in D as [V _]. split; [|discriminate]. apply visible_app; split; auto. apply (vis_lit_spec "key"%string). reflexivity.
Qed.
Lemma pres_octet_visible : forall b, is_byte b -> visible (pres_octet b).
Proof.
  intros b H. unfold is_byte in H. unfold pres_octet. destruct (_ || _) eqn:E; [repeat (apply visible_cons; split); try apply visible_nil; lia|].
  destruct (_ && _) eqn:E2; [repeat (apply visible_cons; split); try apply visible_nil; lia|].
  repeat (apply visible_cons; split); try apply visible_nil; zdm.
Qed.
Lemma pres_label_visible : forall l, bytes_ok l -> visible (pres_label l).
Proof.
  induction l as [|c l IH]; intros B; [constructor|]. apply bytes_ok_cons in B as [Hc B]. rewrite pres_label_cons. apply visible_app. split; [apply pres_octet_visible|]; auto.
Qed.
Lemma pres_name_visible : forall ls, valid_labels ls -> visible (pres_name ls) /\ pres_name ls <> [] /\ exists p, pres_name ls = p ++ [46].
Proof.
  intros ls V. destruct ls as [|l ls]; [split; [repeat constructor|split; [discriminate|exists []; reflexivity]]; lia|].
  assert (G : forall ls, valid_labels ls -> visible (concat (map (fun l => pres_label l ++ [46]) ls))).
  { induction 1 as [|x xs [_ H] _ IH]; [constructor|]. cbn [map concat]. apply visible_app. split; [|exact IH]. apply visible_app. split; [apply pres_label_visible; auto|].
    apply visible_cons; split; [lia|constructor]. }
  assert (E : forall l ls, exists p, concat (map (fun l => pres_label l ++ [46]) (l :: ls)) = p ++ [46]).
  { clear. intros l ls. revert l. induction ls as [|m ls IH]; intros l; [exists (pres_label l); cbn; apply app_nil_r|]. destruct (IH m) as (p & E).
    exists ((pres_label l ++ [46]) ++ p). cbn [map concat] in *. rewrite E, app_assoc. reflexivity. }
  split; [apply G; auto|]. destruct (E l ls) as (p & Ep). cbn [pres_name]. rewrite Ep. split; [destruct p; discriminate|eauto].
Qed.
Lemma join_visible : forall c ts, 33 <= c <= 126 -> ts <> [] -> Forall (fun t => visible t /\ t <> []) ts -> visible (join_by c ts) /\ join_by c ts <> [].
Proof.
  intros c ts Hc. induction ts as [|t ts IH]; intros N F; [congruence|]. inversion F as [|? ? [V1 N1] F2]; subst. destruct ts as [|u ts]; [auto|].
  rewrite join_cons by discriminate. destruct (IH ltac:(discriminate) F2) as [V2 _]. split; [|destruct t; [congruence|discriminate]].
  apply visible_app; split; auto. apply visible_cons; auto.
Qed.
Lemma Forall2_right : forall A B (R : A -> B -> Prop) (P : B -> Prop) l m, Forall2 R l m -> (forall a b, R a b -> P b) -> Forall P m.
Proof. intros A B R P l m H K. induction H; constructor; eauto. Qed.
Lemma Forall2_nonnil : forall A B (R : A -> B -> Prop) l m, Forall2 R l m -> l <> [] -> m <> [].
Proof. intros A B R l m H. inversion H; [congruence|discriminate]. Qed.

(** A parameter token without its key. *)
Lemma value_text_end : forall k v t, bytes_ok v -> value_text k v t -> visible t \/ exists m, t = quoted m.
Proof.
  intros k v t B V. destruct V.
  - left. eapply join_visible; [lia|eapply Forall2_nonnil; eauto|eapply Forall2_right; eauto; intros; eapply key_text_visible; eauto].
  - right. eexists. reflexivity.
  - left. eapply decimal_visible; eauto.
  - left. eapply join_visible; [lia|eapply Forall2_nonnil; eauto|eapply Forall2_right; eauto; intros; eapply ipv4_visible; eauto].
  - left. apply (base64_visible (length l)); auto.
  - left. eapply join_visible; [lia|eapply Forall2_nonnil; eauto|eapply Forall2_right; eauto; intros; eapply ipv6_visible; eauto].
  - right. eexists. reflexivity.
Qed.
Lemma param_text_solid : forall kv s, bytes_ok (snd kv) -> param_text kv s -> solid s.
Proof.
  intros kv s B P. destruct P as [s K|k v s t K V].
  - apply key_text_visible in K as [? ?]. apply visible_solid; auto.
  - apply key_text_visible in K as [V1 N1]. cbn [snd] in B. destruct (value_text_end k v t B V) as [Vt|(m & ->)].
    + apply visible_solid; [|destruct s; [congruence|discriminate]]. apply visible_app; split; auto. cbn [app]. apply visible_cons; split; [lia|auto].
    + apply solid_app; auto; [discriminate|apply (visible_solid s V1 N1)|]. pose proof (quoted_solid m) as (_ & _ & Q). cbn [app]. rewrite last_cons; [exact Q|discriminate].
Qed.
