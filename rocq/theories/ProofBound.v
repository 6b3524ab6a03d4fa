(** ProofBound.v: how far behind the packet wdns_parse_message can read: never 65536 octets or more from its end. *)
From Verif Require Import Base Lib SpecName SpecMessage SpecLoose ModelName ModelDescr ModelParse SpecParsed.
From Verif Require Import ProofUnpack ProofCopy ProofRdata ProofRdata2 ProofGroup ProofMessage ProofMono.

(** No fault, but possibly no end. *)
Definition sane {A} (o : outcome A) : Prop := match o with UB _ => False | _ => True end.
Lemma sane_bind : forall A B (o : outcome A) (k : A -> outcome B), sane o -> (forall a, o = Ok a -> sane (k a)) -> sane (bind o k).
Proof. intros A B [a| | |] k H K; cbn in *; auto. Qed.
Lemma sane_returns : forall A (o : outcome A), returns o -> sane o.
Proof. intros A [a| | |]; cbn; auto. Qed.

Section Bound.
Variables (m : bytes) (eop : Z).
Hypothesis Hm : bytes_ok m.
Hypothesis L : eop + 65535 <= zlen m.

Lemma b_copy : forall src sb u x, 0 <= src -> 0 <= x -> src + sb <= eop -> sane (copy_bytes m (src, sb, u) x).
Proof. intros. apply sane_returns, copy_bytes_returns; lia. Qed.
Lemma b_copy_at : forall src sb u x src' sb' u', 0 <= x -> copy_bytes m (src, sb, u) x = Ok (src', sb', u') -> src' = src + x /\ sb' = sb - x /\ x <= sb.
Proof. intros src sb u x src' sb' u' X C. apply copy_bytes_iff in C as (C0 & l & C1 & C2 & C3). injection C3 as -> -> ->. auto. Qed.
Lemma b_alpn : forall f val n o, 0 <= val <= eop -> 0 <= o -> n <= 65535 -> sane (alpn_loop f m val n o).
Proof.
  induction f as [|f IH]; intros val n o Hv Ho Hn; [exact I|]. cbn [alpn_loop]. destruct (o <? n) eqn:E; [|exact I].
  destruct (rd_in m (val + o)) as (c & R); [lia|]. rewrite R. cbn [bind]. pose proof (rd_byte _ _ _ Hm R). apply IH; lia.
Qed.
Lemma b_svc : forall f src sb u, 0 <= src -> 0 <= sb -> src + sb <= eop ->
  sane (svc_loop f m (src, sb, u)) /\ forall src' sb' u', svc_loop f m (src, sb, u) = Ok (src', sb', u') -> src <= src' /\ 0 <= sb' <= sb /\ src' + sb' = src + sb.
Proof.
  induction f as [|f IH]; intros src sb u H1 H2 H3; [split; [exact I|discriminate]|]. cbn [svc_loop].
  destruct (sb >? 0) eqn:E; [|split; [exact I|intros ? ? ? [= <- <- <-]; lia]].
  destruct (sb <? 4) eqn:E4; [split; [exact I|discriminate]|].
  destruct (rd_in m src) as (k0 & R0); [lia|]. destruct (rd_in m (src + 1)) as (k1 & R1); [lia|].
  destruct (rd_in m (src + 2)) as (v0 & R2); [lia|]. destruct (rd_in m (src + 3)) as (v1 & R3); [lia|].
  rewrite R0, R1, R2, R3. cbn [bind]. cbv zeta. pose proof (rd_byte _ _ _ Hm R2). pose proof (rd_byte _ _ _ Hm R3).
  assert (BV : 0 <= be16 v0 v1 < 65536) by (apply be16_range; lia). set (vl := be16 v0 v1) in *. clearbody vl.
  set (kv := (2 + 2 + vl) mod 2 ^ 16). assert (0 <= kv) by (apply Z.mod_pos_bound; lia).
  destruct (kv >? sb) eqn:K; [split; [exact I|discriminate]|].
  assert (V : sane (svcparam_key_validate m (be16 k0 k1) vl (src + 4))).
  { unfold svcparam_key_validate. repeat match goal with |- sane (if ?b then _ else _) => destruct b end; try exact I.
    apply sane_bind; [apply b_alpn; lia|]. intros a _. exact I. }
  destruct (svcparam_key_validate _ _ _ _) as [ok| | |]; cbn [bind]; try (split; [exact I|discriminate]); [|contradiction].
  destruct ok; cbn [negb]; [|split; [exact I|discriminate]].
  pose proof (b_copy src sb u kv H1 ltac:(lia) H3) as C. destruct (copy_bytes m (src, sb, u) kv) as [[[s' b'] u']| | |] eqn:CE; cbn [bind]; try (split; [exact I|discriminate]); [|contradiction].
  apply b_copy_at in CE as (-> & -> & Kb); [|lia]. destruct (IH (src + kv) (sb - kv) u') as (A & B); try lia. split; [exact A|].
  intros s2 b2 u2 E2. apply B in E2. lia.
Qed.
Lemma b_field : forall fuel t src sb u, 0 <= src -> 0 < sb -> src + sb <= eop ->
  sane (parse_field fuel m eop t (src, sb, u)) /\
  (forall src' sb' u', parse_field fuel m eop t (src, sb, u) = Ok (src', sb', u') -> src <= src' /\ 0 <= sb' <= sb /\ src' + sb' = src + sb).
Proof.
  intros fuel t src sb u H1 H2 H3.
  assert (K : forall x, 0 <= x -> sane (copy_bytes m (src, sb, u) x) /\
    (forall src' sb' u', copy_bytes m (src, sb, u) x = Ok (src', sb', u') -> src <= src' /\ 0 <= sb' <= sb /\ src' + sb' = src + sb)).
  { intros x X. split; [apply b_copy; lia|]. intros src' sb' u' C. apply b_copy_at in C; auto. lia. }
  assert (KN : sane (parse_field fuel m eop rdf_name (src, sb, u)) /\
    (forall src' sb' u', parse_field fuel m eop rdf_name (src, sb, u) = Ok (src', sb', u') -> src <= src' /\ 0 <= sb' <= sb /\ src' + sb' = src + sb)).
  { cbn [parse_field]. destruct (skip_total m eop src Hm) as [(s & S & Sb)|(S & Sb)]; try lia. rewrite S. split.
    - apply sane_bind; [apply sane_returns, unpack_returns; auto; lia|]. intros [w n] _. cbn [bind]. destruct (_ <? 0); exact I.
    - intros src' sb' u' E. rewrite bind_ok in E. destruct E as ([w n] & U & E). cbn [bind] in E.
      destruct (sb - (s - src) <? 0) eqn:B; [discriminate|]. injection E as <- <- <-. lia. }
  destruct t; try exact KN; cbn [parse_field]; try (apply K; lia);
  try (destruct (rd_in m src) as (c & R); [lia|]; rewrite R; cbn [bind]; pose proof (rd_byte _ _ _ Hm R); apply K; lia).
  - destruct (rd_in m src) as (c & R); [lia|]. rewrite R. cbn [bind]. pose proof (rd_byte _ _ _ Hm R).
    destruct (c >? 128) eqn:C; [split; [exact I|discriminate]|]. apply K.
    assert (0 <= (128 - c) / 8) by (apply Z.div_pos; lia). destruct (negb _); lia.
  - split; [apply sane_returns, repstring_returns; auto; lia|]. intros src' sb' u' E. apply repstring_sound in E; auto; try lia.
    destruct E as (? & l & _ & _ & _ & _ & E). injection E as -> -> ->. lia.
  - split; [apply sane_returns, bitmap_returns; auto; lia|]. intros src' sb' u' E. apply bitmap_sound in E; auto; try lia.
    destruct E as (? & l & _ & _ & _ & E & B). injection E as -> -> ->. pose proof (zlen_nonneg _ l). lia.
  - apply b_svc; lia.
Qed.
Lemma b_fields : forall ts fuel src sb u, 0 <= src -> 0 <= sb -> src + sb <= eop -> sane (parse_fields fuel m eop ts (src, sb, u)).
Proof.
  induction ts as [|t ts IH]; intros fuel src sb u H1 H2 H3; cbn [parse_fields]; [exact I|]. destruct (sb =? 0) eqn:E; [exact I|].
  destruct (b_field fuel t src sb u) as [R1 R2]; try lia. apply sane_bind; auto. intros [[s' b'] u'] P. apply R2 in P. apply IH; lia.
Qed.
Lemma b_rdata : forall fuel t c src n, 0 <= src -> 0 <= n -> src + n <= eop -> sane (parse_rdata fuel m eop t c src n).
Proof.
  intros fuel t c src n H1 H2 H3. unfold parse_rdata. destruct (descr_for t c) as [ts|].
  - apply sane_bind; [apply b_fields; auto|]. intros [[a sb] u] _. destruct (negb _); exact I.
  - apply sane_bind; [apply b_copy; auto|]. intros [[a sb] u] _. exact I.
Qed.
Lemma b_rr : forall fuel sec i, 0 <= i < eop -> sane (parse_message_rr fuel sec m eop i) /\
  (forall r n, parse_message_rr fuel sec m eop i = Ok (r, n) -> 0 < n /\ i + n <= eop /\ (sec <> 0 -> rr_rdata r <> None)).
Proof.
  intros fuel sec i Hi. unfold parse_message_rr.
  destruct (skip_total m eop i Hm) as [(s & S & Sb)|(S & Sb)]; try lia.
  pose proof (unpack_returns m eop i Hm ltac:(lia)) as U.
  destruct (unpack_name m eop i) as [[w k]|e|f|]; cbn [bind returns] in *; try contradiction; [|split; [exact I|discriminate]].
  rewrite S. cbn [bind].
  destruct ((s + 4 >? eop) || negb (sec =? 0) && (s + 10 >? eop)) eqn:C; [split; [exact I|discriminate]|].
  destruct (sec =? 0) eqn:Q.
  - destruct (octets_4 m s) as (t0 & t1 & c0 & c1 & O); try lia. destruct (fixed4 _ _ _ _ _ _ O) as (G1 & G2). rewrite G1, G2.
    cbn [bind]. split; [exact I|]. intros r n [= <- <-]. repeat split; lia.
  - cbn [negb andb] in C. destruct (octets_10 m s) as (t0 & t1 & c0 & c1 & x & y & z & v & l0 & l1 & O); try lia.
    destruct (fixed10 _ _ _ _ _ _ _ _ _ _ _ _ O) as (G1 & G2 & G3 & G4). rewrite G1, G2, G3. cbn [bind]. rewrite G4. cbn [bind].
    destruct (bytes10 _ _ _ _ _ _ _ _ _ _ _ _ Hm O) as (_ & _ & Bl).
    destruct (s + 2 + 2 + 4 + 2 + (l0 * 256 + l1) >? eop) eqn:C2; [split; [exact I|discriminate]|].
    pose proof (b_rdata fuel (t0 * 256 + t1) (c0 * 256 + c1) (s + 2 + 2 + 4 + 2) (l0 * 256 + l1) ltac:(lia) ltac:(lia) ltac:(lia)) as R.
    destruct (parse_rdata _ _ _ _ _ _ _) as [d|e|f|]; cbn [bind sane] in *; try contradiction; try (split; [exact I|discriminate]).
    split; [exact I|]. intros r n [= <- <-]. repeat split; try lia. discriminate.
Qed.
Lemma b_section : forall n fuel sec i M, 0 <= i <= eop ->
  match parse_section fuel n sec m eop i M with Ok (Continue p _) => 0 <= p <= eop | UB _ => False | _ => True end.
Proof.
  induction n as [|n IH]; intros fuel sec i M Hi; [cbn; lia|].
  destruct (Z.eq_dec i eop) as [->|Ne]. { cbn [parse_section]. rewrite Z.eqb_refl. exact I. }
  destruct (b_rr fuel sec i) as [R1 R2]; try lia.
  destruct (parse_message_rr fuel sec m eop i) as [[r k]|e|f|] eqn:P; cbn [sane] in *; try contradiction.
  - destruct (R2 r k eq_refl) as (B1 & B2 & B3). rewrite (parse_section_step _ _ _ _ _ _ _ r k) by auto.
    destruct (take_rr_total sec M r B3) as (M' & T). rewrite T. cbn [bind]. apply IH; auto. lia.
  - cbn [parse_section]. replace (i =? eop) with false by lia. rewrite P. exact I.
  - cbn [parse_section]. replace (i =? eop) with false by lia. rewrite P. exact I.
Qed.
Theorem b_message : forall fuel, 0 <= eop -> sane (parse_message fuel m eop).
Proof.
  intros fuel L0. destruct (Z_lt_ge_dec eop 12) as [L12|L12].
  - unfold parse_message. replace (eop <? 12) with true by lia. exact I.
  - destruct (octets_12 m) as (i0 & i1 & f0 & f1 & q0 & q1 & a0 & a1 & n0 & n1 & r0 & r1 & O); [lia|].
    rewrite (parse_message_unfold _ _ _ _ _ _ _ _ _ _ _ _ _ _ O) by lia.
    generalize ([(0, q0 * 256 + q1); (1, a0 * 256 + a1); (2, n0 * 256 + n1); (3, r0 * 256 + r1)]) as secs.
    generalize (parsed_entries (i0 * 256 + i1) (f0 * 256 + f1) []) as M. assert (0 <= 12 <= eop) as B by lia. revert B. generalize 12 as p.
    intros p B M secs. revert p B M. induction secs as [|[sec n] secs IH]; intros p B M; cbn [parse_sections]; [exact I|].
    pose proof (b_section (Z.to_nat n) fuel sec p M B) as Q. destruct (parse_section _ _ _ _ _ _ _) as [fl| | |]; cbn [bind sane]; try exact I; try contradiction.
    destruct fl; [apply IH; auto|exact I].
Qed.
End Bound.
