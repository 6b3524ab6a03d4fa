(** ProofDowncase.v: proofs about wdns_downcase_rdata. *)
From Verif Require Import Base Lib SpecName SpecMessage SpecEncode SpecRRset ModelName ModelDescr ModelParse ModelRRset.
From Verif Require Import ProofUnpack ProofCopy ProofRdata ProofRdata2 ProofEncode.

Definition dcase_descr (t c : Z) : option (list rdf) :=
  if existsb (fun x => x =? t) downcase_types then descr_for t c else None.
Lemma downcase_unfold : forall m len t c, downcase_rdata m len t c =
  match dcase_descr t c with Some ts => dcase_fields ts [] m len | None => Ok (res_success, m) end.
Proof.
  intros m len t c. unfold downcase_rdata, dcase_descr, descr_for. destruct (lookup_descr t) as [d|]; [|destruct (existsb _ _); reflexivity].
  destruct (existsb _ _); cbn [negb]; [|reflexivity]. destruct ((d_class d =? class_un) || (d_class d =? c)); reflexivity.
Qed.
Lemma dcase_types_iff : forall t, existsb (fun x => x =? t) downcase_types = true <-> In t rfc4034_types.
Proof.
  intros t. rewrite existsb_exists. split.
  - intros (x & I & E). apply Z.eqb_eq in E. subst x. cbn in *. tauto.
  - intros I. exists t. split; [cbn in *; tauto|lia].
Qed.

(** ** Only letters change. *)
Lemma lowered_refl : forall l, Forall2 lowered l l.
Proof. induction l; constructor; auto. left; auto. Qed.
Lemma lowered_dc : forall c, lowered c (dc c).
Proof.
  intros c. unfold lowered. destruct (Z_le_dec 65 c); [destruct (Z_le_dec c 90)|]; try (left; apply dc_other; lia).
  right. split; [lia|]. apply dc_upper; lia.
Qed.
Lemma dcase_name_low : forall f don p rem don' p' rem', dcase_name f don p rem = Ok (don', p', rem') ->
  exists q q', p = q ++ p' /\ don' = don ++ q' /\ Forall2 lowered q q'.
Proof.
  induction f as [|f IH]; intros don p rem don' p' rem' E; cbn [dcase_name] in E; [discriminate|].
  destruct (rem =? 0); [injection E as <- <- <-; exists [], []; rewrite app_nil_r; auto|].
  destruct p as [|c p]; cbn [hd_rd bind tl] in E; [discriminate|]. destruct (c =? 0).
  - injection E as <- <- <-. exists [c], [c]. split; [reflexivity|]. split; auto. apply lowered_refl.
  - apply IH in E as (q & q' & -> & -> & F). exists (c :: q), (dc c :: q'). split; [reflexivity|]. rewrite <- app_assoc. split; auto.
    constructor; auto. apply lowered_dc.
Qed.
Definition flow_ok (don p : bytes) (fl : dflow) : Prop :=
  match fl with
  | DReturn r m => exists p2, m = don ++ p2 /\ Forall2 lowered p p2
  | DGo don' p' rem' => exists q q', p = q ++ p' /\ don' = don ++ q' /\ Forall2 lowered q q'
  end.
Lemma dadv_flow : forall don p rem x, flow_ok don p (dadv don p rem x).
Proof.
  intros don p rem x. unfold dadv. destruct (rem <? x); cbn [flow_ok]; [exists p; split; auto; apply lowered_refl|]. exists (firstn (Z.to_nat x) p), (firstn (Z.to_nat x) p).
  unfold adv. rewrite firstn_skipn. split; auto. split; auto. apply lowered_refl.
Qed.
Lemma flow_trans : forall don p q q' p1 fl, p = q ++ p1 -> Forall2 lowered q q' -> flow_ok (don ++ q') p1 fl -> flow_ok don p fl.
Proof.
  intros don p q q' p1 [r m|d2 p2 r2] -> F; cbn [flow_ok].
  - intros (x & -> & G). exists (q' ++ x). rewrite app_assoc. split; auto. apply Forall2_app; auto.
  - intros (a & a' & -> & -> & G). exists (q ++ a), (q' ++ a'). rewrite !app_assoc. split; auto. split; auto. apply Forall2_app; auto.
Qed.
Lemma dcase_field_flow : forall t don p rem fl, dcase_field t don p rem = Ok fl -> flow_ok don p fl.
Proof.
  intros t don p rem fl E. pose proof (lowered_refl p) as LR.
  assert (K : forall k o, o = Ok (dadv don p rem k) -> o = Ok fl -> flow_ok don p fl) by (intros k o -> [= <-]; apply dadv_flow).
  destruct t; cbn [dcase_field] in E; try (eapply K; [reflexivity|exact E]); try (injection E as <-; cbn [flow_ok]; eauto; fail); try discriminate.
  - apply bind_ok in E as ([[d1 p1] r1] & E & X). injection X as <-. apply dcase_name_low in E. exact E.
  - apply bind_ok in E as ([[d1 p1] r1] & E & X). injection X as <-. apply dcase_name_low in E. exact E.
  - apply bind_ok in E as (c & _ & E). destruct (c >? 16); injection E as <-; [cbn [flow_ok]; eauto|apply dadv_flow].
  - pose proof (dadv_flow don p rem 8) as G. destruct (dadv don p rem 8) as [r m|d1 p1 r1]; [injection E as <-; exact G|].
    destruct G as (q & q' & E1 & -> & F). apply bind_ok in E as (c & _ & E). injection E as <-. eapply flow_trans; eauto. apply dadv_flow.
  - apply bind_ok in E as (c & _ & E). injection E as <-. apply dadv_flow.
  - apply bind_ok in E as (c & _ & E). injection E as <-. apply dadv_flow.
  - apply bind_ok in E as (c & _ & E). injection E as <-. apply dadv_flow.
Qed.
Lemma dcase_fields_low : forall ts don p rem r m, dcase_fields ts don p rem = Ok (r, m) -> exists p2, m = don ++ p2 /\ Forall2 lowered p p2.
Proof.
  induction ts as [|t ts IH]; intros don p rem r m E; cbn [dcase_fields] in E.
  - injection E as <- <-. exists p. split; auto. apply lowered_refl.
  - destruct (rem =? 0); [injection E as <- <-; exists p; split; auto; apply lowered_refl|].
    apply bind_ok in E as (fl & F & E). apply dcase_field_flow in F. destruct fl as [r' m'|d' p' r'].
    + injection E as <- <-. exact F.
    + destruct F as (q & q' & -> & -> & F). apply IH in E as (p2 & -> & G). exists (q' ++ p2). rewrite app_assoc. split; auto. apply Forall2_app; auto.
Qed.
Theorem downcase_low : forall m len t c r m', downcase_rdata m len t c = Ok (r, m') -> Forall2 lowered m m'.
Proof.
  intros m len t c r m' E. rewrite downcase_unfold in E. destruct (dcase_descr t c).
  - apply dcase_fields_low in E as (p2 & -> & F). exact F.
  - injection E as <- <-. apply lowered_refl.
Qed.

(** ** Exactness on well-formed rdata. *)
Definition nonzero_name (ls : lname) : Prop := Forall (fun l => ~ In 0 l) ls.
Definition nonzero_names (vs : list fval) : Prop := Forall (fun v => match v with VName ls => nonzero_name ls | VOctets _ => True end) vs.

Lemma dcase_label : forall l f don p rem, ~ In 0 l -> zlen l <= rem -> (length l <= f)%nat ->
  dcase_name f don (l ++ p) rem = dcase_name (f - length l) (don ++ map dc l) p (rem - zlen l).
Proof.
  induction l as [|c l IH]; intros f don p rem H L Hf.
  - cbn [app map length]. rewrite app_nil_r, zlen_nil, Nat.sub_0_r, Z.sub_0_r. reflexivity.
  - cbn [length] in Hf. destruct f as [|f]; [lia|]. cbn [dcase_name app hd_rd tl bind]. zl. pose proof (zlen_nonneg _ l).
    replace (rem =? 0) with false by lia. replace (c =? 0) with false by (symmetry; apply Z.eqb_neq; intros ->; apply H; left; auto).
    rewrite IH; [|intros X; apply H; right; auto|lia|lia]. cbn [map length Nat.sub]. rewrite <- app_assoc. cbn [app].
    replace (rem - 1 - zlen l) with (rem - (zlen l + 1)) by lia. reflexivity.
Qed.
Lemma map_dc_label : forall l, bytes_ok l -> map dc l = lower_label l.
Proof. induction 1; cbn; [reflexivity|]. f_equal; auto. apply dc_spec. exact H. Qed.
Lemma zlen_lower : forall l, zlen (lower_label l) = zlen l.
Proof. intros. apply zlen_map. Qed.

Lemma dcase_wire : forall ls f don p rem, valid_labels ls -> nonzero_name ls -> zlen (wire ls) <= rem -> (length (wire ls) <= f)%nat ->
  dcase_name f don (wire ls ++ p) rem = Ok (don ++ wire (lower_name ls), p, rem - zlen (wire ls)).
Proof.
  induction ls as [|l ls IH]; intros f don p rem V NZ L Hf.
  - change (wire []) with [0] in *. change (wire (lower_name [])) with [0]. cbn [length] in Hf. destruct f as [|f]; [lia|]. cbn [dcase_name app hd_rd tl bind]. zl.
    replace (rem =? 0) with false by lia. reflexivity.
  - inversion V as [|? ? [Ll Bl] V']; subst. inversion NZ as [|? ? Nl NZ']; subst. rewrite wire_cons in *.
    change (lower_name (l :: ls)) with (lower_label l :: lower_name ls). rewrite wire_cons. zl. cbn [length app] in *.
    rewrite app_length in Hf. destruct f as [|f]; [lia|]. cbn [dcase_name hd_rd tl bind]. pose proof (zlen_nonneg _ (wire ls)).
    replace (rem =? 0) with false by lia. replace (zlen l =? 0) with false by lia. rewrite <- app_assoc. rewrite dcase_label; auto; try lia.
    rewrite IH; auto; try lia. rewrite (dc_other (zlen l)) by lia. rewrite map_dc_label by auto. rewrite zlen_lower. rewrite <- !app_assoc. cbn [app].
    f_equal. f_equal. lia.
Qed.

Definition plain_field (t : rdf) : bool := match t with rdf_ipv6prefix | rdf_eui64 | rdf_edns_opt_rdata => false | _ => true end.
Lemma dadv_app : forall don l p rem x, zlen l = x -> x <= rem -> dadv don (l ++ p) rem x = DGo (don ++ l) p (rem - x).
Proof.
  intros don l p rem x <- H. unfold dadv. replace (rem <? zlen l) with false by lia. rewrite firstn_zlen_app. unfold adv. rewrite skipn_zlen_app. reflexivity.
Qed.

Lemma dcase_fields_exact : forall ts vs don p, forallb plain_field ts = true -> wf_values (map fmt_of ts) vs -> nonzero_names vs ->
  dcase_fields ts don (canon vs ++ p) (zlen (canon vs)) = Ok (res_success, don ++ canon (map lower_val vs) ++ p).
Proof.
  induction ts as [|t ts IH]; intros vs don p P W NZ.
  - inversion W; subst. reflexivity.
  - cbn [forallb] in P. apply andb_true_iff in P as [Pt P]. cbn [map] in W.
    destruct vs as [|v vs]; [reflexivity|]. cbn [dcase_fields]. inversion NZ as [|? ? Nv NZ']; subst.
    pose proof (zlen_nonneg _ (canon vs)).
    inversion W as [|? ls ? Vn W'|? ? l ? Fo Bo Ne TE W']; subst.
    + assert (T : t = rdf_name \/ t = rdf_uname) by (apply fmt_name; auto). cbn [map lower_val]. rewrite !canon_cons in *. cbn [canon1] in *. zl.
      assert (0 < zlen (wire ls)) by (unfold wire; zl; pose proof (zlen_nonneg _ (prewire ls)); lia).
      replace (zlen (wire ls) + zlen (canon vs) =? 0) with false by lia. destruct Vn as [Vl _].
      assert (D : dcase_field t don ((wire ls ++ canon vs) ++ p) (zlen (wire ls) + zlen (canon vs)) = Ok (DGo (don ++ wire (lower_name ls)) (canon vs ++ p) (zlen (canon vs)))).
      { assert (dcase_name (S (length ((wire ls ++ canon vs) ++ p))) don ((wire ls ++ canon vs) ++ p) (zlen (wire ls) + zlen (canon vs)) = Ok (don ++ wire (lower_name ls), canon vs ++ p, zlen (canon vs))) as X.
        { rewrite <- app_assoc. rewrite dcase_wire; auto; try lia; [|rewrite app_length; lia]. f_equal. f_equal. lia. }
        destruct T as [-> | ->]; cbn [dcase_field]; rewrite X; reflexivity. }
      rewrite D. cbn [bind]. rewrite IH; auto. rewrite <- !app_assoc. reflexivity.
    + cbn [map lower_val]. rewrite !canon_cons in *. cbn [canon1] in *. zl. pose proof (zlen_pos l Ne).
      replace (zlen l + zlen (canon vs) =? 0) with false by lia. rewrite <- app_assoc.
      assert (DA : forall n, zlen l = n -> dadv don (l ++ canon vs ++ p) (zlen l + zlen (canon vs)) n = DGo (don ++ l) (canon vs ++ p) (zlen (canon vs))).
      { intros n L. rewrite dadv_app by lia. f_equal. lia. }
      assert (DS : forall o, o = Ok (DGo (don ++ l) (canon vs ++ p) (zlen (canon vs))) -> (fl <- o ;; match fl with DReturn r m => Ok (r, m) | DGo don p rem => dcase_fields ts don p rem end) = Ok (res_success, don ++ (l ++ canon (map lower_val vs)) ++ p)).
      { intros o ->. cbn [bind]. rewrite IH; auto. rewrite <- !app_assoc. reflexivity. }
      assert (DE : vs = [] -> Ok (res_success, don ++ l ++ canon vs ++ p) = Ok (res_success, don ++ (l ++ canon (map lower_val vs)) ++ p)).
      { intros ->. cbn [map]. change (canon []) with (@nil Z). rewrite app_nil_r. reflexivity. }
      destruct t; cbn [plain_field] in Pt; try discriminate; cbn [fmt_of] in *; try contradiction; cbn [dcase_field]; try (apply DS; rewrite DA by exact Fo; reflexivity); try (cbn [bind]; apply DE; apply TE; reflexivity).
      all: destruct Fo as (s & Ls & ->); apply DS; unfold char_string; cbn [app hd_rd bind]; cbn [app] in DA; rewrite DA; [reflexivity|]; unfold char_string; zlia.
Qed.

Lemma dcase_descr_plain : forall t c ts, dcase_descr t c = Some ts -> t <> 38 -> forallb plain_field ts = true.
Proof.
  intros t c ts. unfold dcase_descr. destruct (existsb _ _) eqn:E; [|discriminate]. apply dcase_types_iff in E. intros D N.
  assert (K : forallb (fun t => (t =? 38) || match lookup_descr t with Some d => forallb plain_field (d_types d) | None => true end) rfc4034_types = true) by reflexivity.
  rewrite forallb_forall in K. apply K in E. replace (t =? 38) with false in E by lia. cbn [orb] in E. unfold descr_for in D.
  destruct (lookup_descr t) as [d|]; [|discriminate]. destruct (_ || _); [|discriminate]. injection D as <-. exact E.
Qed.

Theorem downcase_exact : forall t c vs x, wf_values (format_of t c) vs -> nonzero_names vs -> In t rfc4034_types -> t <> 38 ->
  downcase_rdata (canon vs ++ x) (zlen (canon vs)) t c = Ok (res_success, canon (map lower_val vs) ++ x).
Proof.
  intros t c vs x W NZ I N. rewrite downcase_unfold. apply dcase_types_iff in I. unfold dcase_descr. rewrite I.
  rewrite format_of_fields in W. unfold fields_for in W.
  destruct (descr_for t c) as [ts|] eqn:D.
  - rewrite dcase_fields_exact; auto. apply (dcase_descr_plain t c); auto. unfold dcase_descr. rewrite I. auto.
  - cbn in W. inversion W as [|? ? ? ? W'|? ? l ? Fo Bo Ne TE W']; subst; auto. rewrite (TE eq_refl). reflexivity.
Qed.

(** Octets behind the last field. *)
Lemma dcase_fields_over : forall ts vs don z p, forallb plain_field ts = true -> Forall delimited (map fmt_of ts) -> length vs = length ts ->
  wf_values (map fmt_of ts) vs -> nonzero_names vs -> z <> [] ->
  dcase_fields ts don (canon vs ++ z ++ p) (zlen (canon vs) + zlen z) = Ok (res_parse_error, don ++ canon (map lower_val vs) ++ z ++ p).
Proof.
  induction ts as [|t ts IH]; intros vs don z p P DL LN W NZ ZN; pose proof (zlen_pos z ZN) as PZ.
  - destruct vs; [|discriminate LN]. cbn [dcase_fields]. change (canon []) with (@nil Z). zl. replace (0 + zlen z =? 0) with false by lia. reflexivity.
  - cbn [forallb] in P. apply andb_true_iff in P as [Pt P]. cbn [map] in W, DL. apply Forall_inv in DL as D1; apply Forall_inv_tail in DL.
    destruct vs as [|v vs]; [discriminate LN|]. cbn [dcase_fields length] in *. inversion NZ as [|? ? Nv NZ']; subst.
    pose proof (zlen_nonneg _ (canon vs)).
    assert (LN' : length vs = length ts) by lia.
    inversion W as [|? ls ? Vn W'|? ? l ? Fo Bo Ne TE W']; subst.
    + assert (T : t = rdf_name \/ t = rdf_uname) by (apply fmt_name; auto). cbn [map lower_val]. rewrite !canon_cons in *. cbn [canon1] in *. zl.
      assert (0 < zlen (wire ls)) by (unfold wire; zl; pose proof (zlen_nonneg _ (prewire ls)); lia).
      replace (zlen (wire ls) + zlen (canon vs) + zlen z =? 0) with false by lia. destruct Vn as [Vl _].
      assert (D : dcase_field t don ((wire ls ++ canon vs) ++ z ++ p) (zlen (wire ls) + zlen (canon vs) + zlen z) = Ok (DGo (don ++ wire (lower_name ls)) (canon vs ++ z ++ p) (zlen (canon vs) + zlen z))).
      { assert (dcase_name (S (length ((wire ls ++ canon vs) ++ z ++ p))) don ((wire ls ++ canon vs) ++ z ++ p) (zlen (wire ls) + zlen (canon vs) + zlen z) = Ok (don ++ wire (lower_name ls), canon vs ++ z ++ p, zlen (canon vs) + zlen z)) as X.
        { rewrite <- (app_assoc (wire ls)). rewrite dcase_wire; auto; try lia; [|rewrite app_length; lia]. f_equal. f_equal. lia. }
        destruct T as [-> | ->]; cbn [dcase_field]; rewrite X; reflexivity. }
      rewrite D. cbn [bind]. rewrite IH; auto. rewrite <- !app_assoc. reflexivity.
    + cbn [map lower_val]. rewrite !canon_cons in *. cbn [canon1] in *. zl. pose proof (zlen_pos l Ne).
      replace (zlen l + zlen (canon vs) + zlen z =? 0) with false by lia. rewrite <- app_assoc.
      assert (DA : forall n, zlen l = n -> dadv don (l ++ canon vs ++ z ++ p) (zlen l + zlen (canon vs) + zlen z) n = DGo (don ++ l) (canon vs ++ z ++ p) (zlen (canon vs) + zlen z)).
      { intros n L. rewrite dadv_app by lia. f_equal. lia. }
      assert (DS : forall o, o = Ok (DGo (don ++ l) (canon vs ++ z ++ p) (zlen (canon vs) + zlen z)) -> (fl <- o ;; match fl with DReturn r m => Ok (r, m) | DGo don p rem => dcase_fields ts don p rem end) = Ok (res_parse_error, don ++ (l ++ canon (map lower_val vs)) ++ z ++ p)).
      { intros o ->. cbn [bind]. rewrite IH; auto. rewrite <- !app_assoc. reflexivity. }
      destruct t; cbn [plain_field] in Pt; try discriminate; cbn [fmt_of] in *; try contradiction; cbn [delimited] in D1; try contradiction; cbn [dcase_field]; try (apply DS; rewrite DA by exact Fo; reflexivity).
      all: destruct Fo as (s & Ls & ->); apply DS; unfold char_string; cbn [app hd_rd bind]; cbn [app] in DA; rewrite DA; [reflexivity|]; unfold char_string; zlia.
Qed.

Theorem downcase_over : forall t c vs z x, wf_values (format_of t c) vs -> nonzero_names vs -> In t rfc4034_types -> t <> 38 ->
  length vs = length (format_of t c) -> Forall delimited (format_of t c) -> z <> [] ->
  downcase_rdata (canon vs ++ z ++ x) (zlen (canon vs) + zlen z) t c = Ok (res_parse_error, canon (map lower_val vs) ++ z ++ x).
Proof.
  intros t c vs z x W NZ I N LN DL ZN. rewrite downcase_unfold. apply dcase_types_iff in I. unfold dcase_descr. rewrite I.
  rewrite format_of_fields in *. unfold fields_for in *.
  destruct (descr_for t c) as [ts|] eqn:D.
  - rewrite dcase_fields_over; auto; [|rewrite map_length in LN; exact LN]. apply (dcase_descr_plain t c); auto. unfold dcase_descr. rewrite I. auto.
  - inversion DL; contradiction.
Qed.

(** ** Memory safety. *)
Definition is_name (t : rdf) : bool := match t with rdf_name | rdf_uname => true | _ => false end.
Definition noread (t : rdf) : bool :=
  match t with rdf_name | rdf_uname | rdf_string | rdf_salt | rdf_hash | rdf_ipv6prefix | rdf_eui64 | rdf_edns_opt_rdata => false | _ => true end.
Fixpoint good (ts : list rdf) : bool :=
  match ts with
  | [] => true
  | t :: r => if is_name t then forallb noread r else match t with rdf_eui64 | rdf_edns_opt_rdata => false | _ => good r end
  end.
Lemma noread_ok : forall ts don p rem, forallb noread ts = true -> exists x, dcase_fields ts don p rem = Ok x.
Proof.
  induction ts as [|t ts IH]; intros don p rem H; cbn [dcase_fields]; [eauto|]. cbn [forallb] in H. apply andb_true_iff in H as [Ht H].
  destruct (rem =? 0); [eauto|]. assert (exists fl, dcase_field t don p rem = Ok fl) as (fl & ->) by (destruct t; try discriminate; cbn [dcase_field]; eauto).
  cbn [bind]. destruct fl; eauto.
Qed.
Lemma dcase_name_zero : forall a b don rem f, ~ In 0 a -> zlen a < rem -> (length a < f)%nat ->
  dcase_name f don (a ++ 0 :: b) rem = Ok (don ++ map dc a ++ [0], b, rem - zlen a - 1).
Proof.
  intros a b don rem f N L Hf. rewrite dcase_label by (auto; lia). destruct (f - length a)%nat eqn:E; [lia|]. cbn [dcase_name hd_rd tl bind].
  replace (rem - zlen a =? 0) with false by lia. cbn. rewrite <- app_assoc. reflexivity.
Qed.
Lemma dcase_name_none : forall a p don f, ~ In 0 a -> (length a < f)%nat -> dcase_name f don (a ++ p) (zlen a) = Ok (don ++ map dc a, p, 2 ^ 64 - 1).
Proof.
  intros a p don f N Hf. rewrite dcase_label by (auto; lia). destruct (f - length a)%nat eqn:E; [lia|]. cbn [dcase_name]. rewrite Z.sub_diag. reflexivity.
Qed.
Lemma split_zero : forall l : bytes, ~ In 0 l \/ exists a b, l = a ++ 0 :: b /\ ~ In 0 a.
Proof.
  induction l as [|c l [N|(a & b & -> & N)]]; [left; auto| |].
  - destruct (Z.eq_dec c 0) as [-> |Hc]; [right; exists [], l; auto|left; intros [X|X]; auto].
  - destruct (Z.eq_dec c 0) as [-> |Hc]; [right; exists [], (a ++ 0 :: b); auto|right; exists (c :: a), b; split; auto; intros [X|X]; auto].
Qed.
Lemma dcase_name_inb : forall don p rem, 0 <= rem <= zlen p ->
  exists d' p' r', dcase_name (S (length p)) don p rem = Ok (d', p', r').
Proof.
  intros don p rem H. rewrite <- (firstn_skipn (Z.to_nat rem) p). set (w := firstn (Z.to_nat rem) p). set (y := skipn (Z.to_nat rem) p).
  assert (L : zlen w = rem) by (apply zlen_firstn; lia). clearbody w y. rewrite app_length.
  destruct (split_zero w) as [N|(a & b & -> & N)].
  - rewrite <- L. rewrite dcase_name_none by (auto; lia). eauto.
  - rewrite <- app_assoc. cbn [app]. rewrite app_length. zl. pose proof (zlen_nonneg _ b). rewrite dcase_name_zero by (auto; cbn [length]; lia). eauto.
Qed.
Lemma dadv_inb : forall don p rem x d' p' r', 0 <= x -> 0 <= rem <= zlen p -> dadv don p rem x = DGo d' p' r' -> 0 <= r' <= zlen p'.
Proof.
  intros don p rem x d' p' r' Hx H. unfold dadv. destruct (rem <? x) eqn:E; [discriminate|]. intros [= <- <- <-]. unfold adv. rewrite zlen_skipn; lia.
Qed.
Lemma hd_inb : forall p rem, rem <> 0 -> 0 <= rem <= zlen p -> bytes_ok p -> exists c, hd_rd p = Ok c /\ 0 <= c < 256.
Proof. intros [|c p] rem N H B; [zl; lia|]. exists c. split; auto. inversion B; auto. Qed.
Lemma bytes_adv : forall p x, bytes_ok p -> bytes_ok (adv p x).
Proof. intros. apply bytes_ok_skipn; auto. Qed.
Lemma good_ok : forall ts don p rem, good ts = true -> bytes_ok p -> 0 <= rem <= zlen p -> exists x, dcase_fields ts don p rem = Ok x.
Proof.
  induction ts as [|t ts IH]; intros don p rem H B L; cbn [dcase_fields]; [eauto|]. destruct (rem =? 0) eqn:E0; [eauto|].
  cbn [good] in H. destruct (is_name t) eqn:T.
  - destruct (dcase_name_inb don p rem L) as (d' & p' & r' & D). destruct t; try discriminate; cbn [dcase_field]; rewrite D; cbn [bind]; apply noread_ok; auto.
  - assert (DD : forall x, 0 <= x -> exists y, (fl <- Ok (dadv don p rem x) ;; match fl with DReturn r m => Ok (r, m) | DGo don p rem => dcase_fields ts don p rem end) = Ok y).
    { intros x Hx. cbn [bind]. destruct (dadv don p rem x) as [r m|d' p' r'] eqn:D; [eauto|]. apply IH.
      - destruct t; try discriminate; auto.
      - unfold dadv in D. destruct (rem <? x); [discriminate|]. injection D as <- <- <-. apply bytes_adv; auto.
      - eapply dadv_inb; eauto. }
    destruct (hd_inb p rem ltac:(lia) L B) as (c & Hc & Rc).
    destruct t; try discriminate; cbn [dcase_field]; rewrite ?Hc; cbn [bind]; try (apply DD; lia); eauto.
    destruct (c >? 16); [cbn [bind]; eauto|apply DD; lia].
Qed.

(** rdata of a type that begins (for PX: after two octets) with two names, whose first name has no end. *)
Definition unterminated (t c : Z) (m : bytes) : Prop :=
  ((t = 6 \/ t = 14 \/ t = 17) /\ m <> [] /\ ~ In 0 m) \/ (t = 26 /\ c = 1 /\ 2 < zlen m /\ ~ In 0 (skipn 2 m)).

Lemma two_names : forall t r don m, is_name t = true -> good r = true -> bytes_ok m -> In 0 m -> exists x, dcase_fields (t :: r) don m (zlen m) = Ok x.
Proof.
  intros t r don m T G B I. cbn [dcase_fields]. destruct (zlen m =? 0); [eauto|]. destruct (split_zero m) as [N|(a & b & -> & N)]; [contradiction|].
  assert (D : dcase_name (S (length (a ++ 0 :: b))) don (a ++ 0 :: b) (zlen (a ++ 0 :: b)) = Ok (don ++ map dc a ++ [0], b, zlen b)).
  { rewrite dcase_name_zero; auto; zl; [|pose proof (zlen_nonneg _ b); lia|rewrite app_length; cbn [length]; lia]. f_equal. f_equal. lia. }
  apply bytes_ok_app in B as [_ B]. apply bytes_ok_cons in B as [_ B]. pose proof (zlen_nonneg _ b).
  destruct t; try discriminate; cbn [dcase_field]; rewrite D; cbn [bind]; apply good_ok; auto; lia.
Qed.
Lemma two_names_ub : forall t t' r don m, is_name t = true -> is_name t' = true -> m <> [] -> ~ In 0 m -> dcase_fields (t :: t' :: r) don m (zlen m) = UB OobRead.
Proof.
  intros t t' r don m T T' Ne N. pose proof (zlen_pos m Ne). cbn [dcase_fields]. replace (zlen m =? 0) with false by lia.
  assert (D : dcase_name (S (length m)) don m (zlen m) = Ok (don ++ map dc m, [], 2 ^ 64 - 1)).
  { rewrite <- (app_nil_r m) at 2. apply dcase_name_none; auto. }
  destruct t; try discriminate; cbn [dcase_field]; rewrite D; cbn [bind]; change (2 ^ 64 - 1 =? 0) with false; cbn [dcase_fields]; destruct t'; try discriminate; reflexivity.
Qed.

Lemma dcase_descr_good : forall t c ts, dcase_descr t c = Some ts -> t <> 6 -> t <> 14 -> t <> 17 -> t <> 26 -> good ts = true.
Proof.
  intros t c ts. unfold dcase_descr. destruct (existsb _ _) eqn:E; [|discriminate]. apply dcase_types_iff in E. intros D N1 N2 N3 N4.
  assert (K : forallb (fun t => (t =? 6) || (t =? 14) || (t =? 17) || (t =? 26) || match lookup_descr t with Some d => good (d_types d) | None => true end) rfc4034_types = true) by reflexivity.
  rewrite forallb_forall in K. apply K in E. replace ((t =? 6) || (t =? 14) || (t =? 17) || (t =? 26)) with false in E by lia. cbn [orb] in E. unfold descr_for in D.
  destruct (lookup_descr t) as [d|]; [|discriminate]. destruct (_ || _); [|discriminate]. injection D as <-. exact E.
Qed.

Theorem downcase_unsafe : forall m t c, unterminated t c m -> downcase_rdata m (zlen m) t c = UB OobRead.
Proof.
  intros m t c [(T & Ne & N)|(-> & -> & L & N)]; rewrite downcase_unfold.
  - assert (exists ts, dcase_descr t c = Some (rdf_name :: rdf_name :: ts)) as (ts & ->) by (destruct T as [-> |[-> | ->]]; eexists; reflexivity).
    apply two_names_ub; auto.
  - change (dcase_descr 26 1) with (Some [rdf_int16; rdf_name; rdf_name]). cbn [dcase_fields]. replace (zlen m =? 0) with false by lia.
    cbn [dcase_field]. unfold dadv. replace (zlen m <? 2) with false by lia. cbn [bind]. unfold adv. change (Z.to_nat 2) with 2%nat in *.
    assert (E : zlen (skipn 2 m) = zlen m - 2) by (apply (zlen_skipn _ m 2); lia). rewrite <- E.
    apply (two_names_ub rdf_name rdf_name []); auto. intros X. rewrite X in E. zl. lia.
Qed.
Theorem downcase_safe : forall m t c, bytes_ok m -> ~ unterminated t c m -> exists x, downcase_rdata m (zlen m) t c = Ok x.
Proof.
  intros m t c B U. rewrite downcase_unfold. destruct (dcase_descr t c) as [ts|] eqn:D; [|eauto]. pose proof (zlen_nonneg _ m).
  destruct (in_dec Z.eq_dec t [6; 14; 17]) as [T|T].
  - assert (exists r, ts = rdf_name :: r /\ good r = true) as (r & -> & G).
    { cbn in T. destruct T as [<- |[<- |[<- |[]]]]; injection D as <-; eexists; split; reflexivity. }
    destruct m as [|a m]; [exists (res_success, []); reflexivity|].
    destruct (in_dec Z.eq_dec 0 (a :: m)) as [I|I]; [apply two_names; auto|]. exfalso. apply U. left. cbn in T. split; [lia|split; [discriminate|auto]].
  - destruct (Z.eq_dec t 26) as [-> |T'].
    + assert (c = 1 /\ ts = [rdf_int16; rdf_name; rdf_name]) as [-> ->].
      { unfold dcase_descr in D. cbn in D. unfold descr_for in D. cbn in D. unfold class_in in D. destruct c as [|[| |]|]; cbn in D; try discriminate. injection D as <-. auto. }
      cbn [dcase_fields]. destruct (zlen m =? 0) eqn:E0; [eauto|]. cbn [dcase_field]. unfold dadv. destruct (zlen m <? 2) eqn:E2; cbn [bind]; [eauto|].
      unfold adv. change (Z.to_nat 2) with 2%nat in *. assert (E : zlen (skipn 2 m) = zlen m - 2) by (apply (zlen_skipn _ m 2); lia). rewrite <- E.
      destruct (Z.eq_dec (zlen m) 2) as [Q|Q]; [cbn [dcase_fields]; replace (zlen (skipn 2 m) =? 0) with true by lia; eauto|].
      apply (two_names rdf_name [rdf_name]); auto; [apply bytes_ok_skipn; auto|].
      destruct (in_dec Z.eq_dec 0 (skipn 2 m)) as [I|I]; auto. exfalso. apply U. right. repeat split; auto; lia.
    + apply good_ok; auto; [|lia]. cbn in T. eapply dcase_descr_good; eauto; lia.
Qed.
