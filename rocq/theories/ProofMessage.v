(** ProofMessage.v: RRs, sections and whole messages against the grammar. *)
From Verif Require Import Base Lib SpecName ModelName ModelDescr ModelParse SpecMessage SpecParsed
  ProofUnpack ProofCopy ProofNameOps ProofRdata ProofRdata2 ProofGroup.

Lemma octets2 : forall m i a b, octets_at m i [a; b] <-> rd m i = Ok a /\ rd m (i + 1) = Ok b.
Proof. intros. rewrite !rd_ok, octets_at_cons. tauto. Qed.

Lemma get16_ok : forall m i a b, octets_at m i [a; b] -> get16 m i = Ok (a * 256 + b).
Proof. intros m i a b H. apply octets2 in H as [H1 H2]. unfold get16. rewrite H1, H2. reflexivity. Qed.
Lemma get32_ok : forall m i a b c d, octets_at m i [a; b; c; d] -> get32 m i = Ok (a * 16777216 + b * 65536 + c * 256 + d).
Proof.
  intros m i a b c d H. apply octets_at_cons in H as [H1 H]. apply octets_at_cons in H as [H2 H]. apply octets_at_cons in H as [H3 H4].
  replace (i + 1 + 1) with (i + 2) in * by lia. replace (i + 2 + 1) with (i + 3) in * by lia.
  apply rd_ok in H1, H2, H3, H4. unfold get32. rewrite H1, H2, H3, H4. cbn [bind]. unfold be32. f_equal. lia.
Qed.

(** Octets available at an offset can be listed. *)
Lemma octets_list : forall m i n, 0 <= i -> 0 <= n -> i + n <= zlen m -> exists l, octets_at m i l /\ zlen l = n.
Proof.
  intros m i n H1 H2 H3. exists (firstn (Z.to_nat n) (skipn (Z.to_nat i) m)). split; [apply octets_at_intro; auto|].
  apply zlen_firstn. rewrite zlen_skipn; lia.
Qed.
Lemma zlen_S : forall (l : bytes) n, zlen l = n -> 0 < n -> exists a l', l = a :: l' /\ zlen l' = n - 1.
Proof. intros [|a l] n H B; [rewrite zlen_nil in H; lia|]. exists a, l. rewrite zlen_cons in H. split; auto; lia. Qed.

Lemma octets_10 : forall m i, 0 <= i -> i + 10 <= zlen m ->
  exists a b c d e f g h k l, octets_at m i [a; b; c; d; e; f; g; h; k; l].
Proof.
  intros m i H1 H2. destruct (octets_list m i 10) as (l & O & L); try lia.
  do 10 (let x := fresh "x" in let l' := fresh "l" in let E := fresh in
         apply zlen_S in L; [|lia]; destruct L as (x & l' & E & L); subst; cbn in L).
  match goal with L : zlen ?q = _ |- _ => assert (q = []) by (apply zlen_zero; lia); subst end. eauto 12.
Qed.
Lemma octets_4 : forall m i, 0 <= i -> i + 4 <= zlen m -> exists a b c d, octets_at m i [a; b; c; d].
Proof.
  intros m i H1 H2. destruct (octets_list m i 4) as (l & O & L); try lia.
  do 4 (let x := fresh "x" in let l' := fresh "l" in let E := fresh in
         apply zlen_S in L; [|lia]; destruct L as (x & l' & E & L); subst; cbn in L).
  match goal with L : zlen ?q = _ |- _ => assert (q = []) by (apply zlen_zero; lia); subst end. eauto 12.
Qed.
Lemma octets_12 : forall m, 12 <= zlen m ->
  exists a b c d e f g h k l p q, octets_at m 0 [a; b; c; d; e; f; g; h; k; l; p; q].
Proof.
  intros m H2. destruct (octets_list m 0 12) as (l & O & L); try lia.
  do 12 (let x := fresh "x" in let l' := fresh "l" in let E := fresh in
         apply zlen_S in L; [|lia]; destruct L as (x & l' & E & L); subst; cbn in L).
  match goal with L : zlen ?q = _ |- _ => assert (q = []) by (apply zlen_zero; lia); subst end. eauto 14.
Qed.

(** Parts of the fixed RR part. *)
Lemma fixed10 : forall m i t0 t1 c0 c1 w x y z l0 l1, octets_at m i [t0; t1; c0; c1; w; x; y; z; l0; l1] ->
  get16 m i = Ok (t0 * 256 + t1) /\ get16 m (i + 2) = Ok (c0 * 256 + c1) /\
  get32 m (i + 2 + 2) = Ok (w * 16777216 + x * 65536 + y * 256 + z) /\ get16 m (i + 2 + 2 + 4) = Ok (l0 * 256 + l1).
Proof.
  intros m i t0 t1 c0 c1 w x y z l0 l1 O.
  change [t0; t1; c0; c1; w; x; y; z; l0; l1] with ([t0; t1] ++ [c0; c1] ++ [w; x; y; z] ++ [l0; l1]) in O.
  apply octets_at_app in O as [O1 O]. apply octets_at_app in O as [O2 O]. apply octets_at_app in O as [O3 O4].
  change (zlen [t0; t1]) with 2 in *. change (zlen [c0; c1]) with 2 in *. change (zlen [w; x; y; z]) with 4 in *.
  repeat split; auto using get16_ok, get32_ok.
Qed.
Lemma fixed4 : forall m i t0 t1 c0 c1, octets_at m i [t0; t1; c0; c1] ->
  get16 m i = Ok (t0 * 256 + t1) /\ get16 m (i + 2) = Ok (c0 * 256 + c1).
Proof.
  intros m i t0 t1 c0 c1 O. change [t0; t1; c0; c1] with ([t0; t1] ++ [c0; c1]) in O.
  apply octets_at_app in O as [O1 O2]. change (zlen [t0; t1]) with 2 in *. auto using get16_ok.
Qed.

Lemma bytes10 : forall m i a b c d e f g h k l, bytes_ok m -> octets_at m i [a; b; c; d; e; f; g; h; k; l] ->
  (0 <= a < 256 /\ 0 <= b < 256 /\ 0 <= c < 256 /\ 0 <= d < 256) /\ (0 <= e < 256 /\ 0 <= f < 256 /\ 0 <= g < 256 /\ 0 <= h < 256) /\
  (0 <= k < 256 /\ 0 <= l < 256).
Proof.
  intros m i a b c d e f g h k l Hm O. apply (octets_at_bytes _ _ _ Hm) in O. unfold bytes_ok, is_byte in O.
  repeat match goal with H : Forall _ (_ :: _) |- _ => inversion H; subst; clear H end. auto 12.
Qed.

Lemma owner_ok : forall m i ls e, bytes_ok m -> owner_at m i ls e ->
  unpack_name m (zlen m) i = Ok (wire ls, zlen (wire ls)) /\ skip_name m (zlen m) i = Ok (i + e) /\ 0 <= i /\ 1 <= e /\ i + e <= zlen m /\ valid_labels ls.
Proof.
  intros m i ls e Hm (D & L & X). pose proof (denotes_bound _ _ _ D). pose proof (extent_bound _ _ _ X). pose proof (extent_pos _ _ _ X).
  repeat split; try lia.
  - apply unpack_denotes; auto. eauto 10.
  - apply skip_extent; auto. lia.
  - eapply denotes_valid; eauto.
Qed.

Lemma owner_inv : forall m i w n, bytes_ok m -> 0 <= i < zlen m -> unpack_name m (zlen m) i = Ok (w, n) ->
  exists ls e, owner_at m i ls e /\ w = wire ls.
Proof.
  intros m i w n Hm Hi U. apply unpack_denotes in U; auto. destruct U as (ls & D & L & -> & ->).
  destruct (denotes_extent _ _ _ D) as (e & X). exists ls, e. repeat split; auto.
Qed.

Lemma rr_complete : forall fuel sec m i s n, bytes_ok m -> 65535 < Z.of_nat fuel ->
  entry_at sec m i s n -> parse_message_rr fuel sec m (zlen m) i = Ok (rr_of s, n) /\ 5 <= n /\ i + n <= zlen m /\ 0 <= i.
Proof.
  intros fuel sec m i s n Hm Hf E. unfold entry_at in E. unfold parse_message_rr. destruct (sec =? 0) eqn:S.
  - destruct E as (e & t0 & t1 & c0 & c1 & W & O & Et & Ec & El & Ed & ->).
    destruct (owner_ok _ _ _ _ Hm W) as (U & K & Bi & Be & B & V). rewrite U, K. cbn [bind].
    pose proof (octets_at_bound _ _ _ O) as Ob. change (zlen [t0; t1; c0; c1]) with 4 in Ob.
    replace (i + e + 4 >? zlen m) with false by lia. cbn [negb andb orb].
    destruct (fixed4 _ _ _ _ _ _ O) as (G1 & G2). rewrite G1, G2. cbn [bind]. split; [|lia].
    unfold rr_of. rewrite Et, Ec, El, Ed. cbn [option_map]. match goal with |- Ok (_, ?a) = Ok (_, ?b) => replace b with a by lia end. reflexivity.
  - destruct E as (e & t0 & t1 & c0 & c1 & w & x & y & z & l0 & l1 & vs & W & O & Et & Ec & El & Q).
    cbv zeta in Q. destruct Q as (B2 & R & Ed & ->).
    destruct (owner_ok _ _ _ _ Hm W) as (U & K & Bi & Be & B & V). rewrite U, K. cbn [bind].
    pose proof (octets_at_bound _ _ _ O) as Ob. change (zlen [t0; t1; c0; c1; w; x; y; z; l0; l1]) with 10 in Ob.
    replace (i + e + 4 >? zlen m) with false by lia. replace (i + e + 10 >? zlen m) with false by lia. cbn [negb andb orb].
    destruct (fixed10 _ _ _ _ _ _ _ _ _ _ _ _ O) as (G1 & G2 & G3 & G4). rewrite G1, G2, G3. cbn [bind]. rewrite G4. cbn [bind].
    destruct (bytes10 _ _ _ _ _ _ _ _ _ _ _ _ Hm O) as (_ & _ & Bl).
    replace (i + e + 2 + 2 + 4 + 2 + (l0 * 256 + l1) >? zlen m) with false by lia.
    replace (i + e + 2 + 2 + 4 + 2) with (i + e + 10) by lia.
    rewrite <- Et, <- Ec. rewrite (parse_rdata_complete fuel m _ _ _ _ vs) by (auto; lia). cbn [bind]. split; [|lia].
    unfold rr_of. rewrite El, Ed. cbn [option_map]. match goal with |- Ok (_, ?a) = Ok (_, ?b) => replace b with a by lia end. reflexivity.
Qed.

Lemma entry_valid_at : forall sec m i s n, bytes_ok m -> 0 <= sec <= 3 -> entry_at sec m i s n -> entry_valid (sec, s).
Proof.
  intros sec m i s n Hm Hs E. unfold entry_at in E. unfold entry_valid. cbn [fst snd]. destruct (sec =? 0) eqn:S.
  - destruct E as (e & t0 & t1 & c0 & c1 & W & O & Et & Ec & El & Ed & ->).
    destruct (owner_ok _ _ _ _ Hm W) as (U & K & Bi & Be & B & V). rewrite El, Ed. repeat split; auto; try lia.
  - destruct E as (e & t0 & t1 & c0 & c1 & w & x & y & z & l0 & l1 & vs & W & O & Et & Ec & El & Q).
    cbv zeta in Q. destruct Q as (B2 & R & Ed & ->).
    destruct (owner_ok _ _ _ _ Hm W) as (U & K & Bi & Be & B & V).
    destruct (bytes10 _ _ _ _ _ _ _ _ _ _ _ _ Hm O) as (_ & Bt & _). rewrite El, Ed. repeat split; auto; try lia. discriminate.
Qed.

Lemma svcb_header10 : forall m i t0 t1 c0 c1 x y z w l0 l1, bytes_ok m -> tame m -> octets_at m i [t0; t1; c0; c1; x; y; z; w; l0; l1] ->
  (t0 * 256 + t1 = 64 \/ t0 * 256 + t1 = 65) /\ c0 * 256 + c1 = 1 ->
  forall e, extent m (i + 10 + 2) e -> no_huge_param m (i + 10 + 2 + e) (i + 10 + (l0 * 256 + l1)).
Proof.
  intros m i t0 t1 c0 c1 x y z w l0 l1 Hm T O H e X. pose proof (octets_at_bytes _ _ _ Hm O) as B. unfold bytes_ok, is_byte in B.
  repeat match goal with H : Forall _ (_ :: _) |- _ => inversion H; subst; clear H end.
  assert (t0 = 0) by lia. assert (c0 = 0) by lia. assert (c1 = 1) by lia. subst. replace (i + 10 + 2) with (i + 12) in * by lia.
  apply (T i t1 x y z w l0 l1 e O); auto. lia.
Qed.

Lemma rr_sound : forall fuel sec m i r n, bytes_ok m -> tame m -> 0 <= i < zlen m ->
  parse_message_rr fuel sec m (zlen m) i = Ok (r, n) -> exists s, entry_at sec m i s n /\ r = rr_of s.
Proof.
  intros fuel sec m i r n Hm NH Hi E. unfold parse_message_rr in E. rewrite bind_ok in E. destruct E as ([w k] & U & E).
  destruct (owner_inv _ _ _ _ Hm Hi U) as (ls & e & W & ->). destruct (owner_ok _ _ _ _ Hm W) as (_ & K & Bi & Be & B & V).
  rewrite K in E. cbn [bind] in E.
  destruct ((i + e + 4 >? zlen m) || negb (sec =? 0) && (i + e + 10 >? zlen m)) eqn:C; [discriminate|].
  unfold entry_at. destruct (sec =? 0) eqn:S.
  - destruct (octets_4 m (i + e)) as (t0 & t1 & c0 & c1 & O); try lia.
    destruct (fixed4 _ _ _ _ _ _ O) as (G1 & G2). rewrite G1, G2 in E. cbn [bind] in E. injection E as <- <-.
    exists {| s_name := ls; s_type := t0 * 256 + t1; s_class := c0 * 256 + c1; s_ttl := 0; s_data := None |}.
    split; [|reflexivity]. exists e, t0, t1, c0, c1. cbn [s_name s_type s_class s_ttl s_data]. repeat split; auto; try lia; apply W.
  - cbn [negb andb] in C. destruct (octets_10 m (i + e)) as (t0 & t1 & c0 & c1 & x & y & z & v & l0 & l1 & O); try lia.
    destruct (fixed10 _ _ _ _ _ _ _ _ _ _ _ _ O) as (G1 & G2 & G3 & G4).
    rewrite G1, G2, G3 in E. cbn [bind] in E. rewrite G4 in E. cbn [bind] in E.
    destruct (bytes10 _ _ _ _ _ _ _ _ _ _ _ _ Hm O) as (_ & _ & Bl).
    destruct (i + e + 2 + 2 + 4 + 2 + (l0 * 256 + l1) >? zlen m) eqn:C2; [discriminate|].
    rewrite bind_ok in E. destruct E as (d & P & E). injection E as <- <-.
    apply parse_rdata_sound in P; auto; try lia; [|replace (i + e + 2 + 2 + 4 + 2) with (i + e + 10) by lia; eapply svcb_header10; eauto]. destruct P as (vs & R & ->).
    exists {| s_name := ls; s_type := t0 * 256 + t1; s_class := c0 * 256 + c1; s_ttl := x * 16777216 + y * 65536 + z * 256 + v; s_data := Some vs |}.
    split; [|reflexivity]. exists e, t0, t1, c0, c1, x, y, z, v, l0, l1, vs. cbn [s_name s_type s_class s_ttl s_data].
    replace (i + e + 2 + 2 + 4 + 2) with (i + e + 10) in * by lia. repeat split; auto; try lia; apply W.
Qed.

(** ** The error codes the parser of an RR can return. *)
Definition parse_codes : list res :=
  [res_invalid_compression_pointer; res_invalid_length_octet; res_name_overflow; res_out_of_bounds; res_overflow; res_parse_error].
Definition ne {A} (o : outcome A) : Prop := match o with Err e => In e parse_codes | _ => True end.
Ltac ne_leaf := intros; cbn [bind]; match goal with |- ne (Err _) => cbn; tauto | |- ne (Ok _) => exact I | |- ne (UB _) => exact I | |- ne NoFuel => exact I end.
Lemma ne_bind : forall A B (o : outcome A) (k : A -> outcome B), ne o -> (forall a, ne (k a)) -> ne (bind o k).
Proof. intros A B [a|e|f|] k H K; cbn in *; auto. Qed.
Lemma ne_rd : forall m i, ne (rd m i).
Proof. intros m i. destruct (rd_cases m i) as [(b & E & _)|(E & _)]; rewrite E; ne_leaf. Qed.
Lemma ne_copy_bytes : forall m st x, ne (copy_bytes m st x).
Proof.
  intros m [[src sb] u] x. unfold copy_bytes. destruct (sb <? x); [ne_leaf|].
  destruct (rds_cases m src x) as [(b & E & _)|(E & _)]; rewrite E; ne_leaf.
Qed.
Ltac ne_tac := repeat first [ apply ne_rd | apply ne_copy_bytes | ne_leaf | apply ne_bind; [|intros ?]
  | match goal with |- ne (if ?b then _ else _) => destruct b end
  | match goal with |- ne (match ?x with _ => _ end) => destruct x end ].
Lemma ne_unpack : forall f m eop i t o, ne (unpack_loop f m eop i t o).
Proof.
  induction f as [|f IH]; intros; [exact I|]. cbn [unpack_loop]. unfold push, rds. ne_tac; auto.
Qed.
Lemma ne_unpack_name : forall m eop i, ne (unpack_name m eop i).
Proof. intros. unfold unpack_name. ne_tac; apply ne_unpack. Qed.
Lemma ne_skip : forall m eop i, ne (skip_name m eop i).
Proof.
  intros. unfold skip_name. apply ne_bind; [|ne_leaf]. generalize (S (S (length m))) as f. intros f. revert i.
  induction f as [|f IH]; intros i; [exact I|]. cbn [skip_loop]. ne_tac; auto.
Qed.
Lemma ne_rep : forall f m st, ne (repstring_loop f m st).
Proof. induction f as [|f IH]; intros m [[src sb] u]; [exact I|]. cbn [repstring_loop]. ne_tac; auto. Qed.
Lemma ne_bitmap : forall f m st, ne (bitmap_loop f m st).
Proof. induction f as [|f IH]; intros m [[src sb] u]; [exact I|]. cbn [bitmap_loop]. ne_tac; auto. Qed.
Lemma ne_alpn : forall f m v n o, ne (alpn_loop f m v n o).
Proof. induction f as [|f IH]; intros; [exact I|]. cbn [alpn_loop]. ne_tac; auto. Qed.
Lemma ne_svc : forall f m st, ne (svc_loop f m st).
Proof.
  induction f as [|f IH]; intros m [[src sb] u]; [exact I|]. cbn [svc_loop]. unfold svcparam_key_validate. ne_tac; auto using ne_alpn.
Qed.
Lemma ne_field : forall fuel m eop t st, ne (parse_field fuel m eop t st).
Proof.
  intros fuel m eop t [[src sb] u]. destruct t; cbn [parse_field]; 
  repeat first [ apply ne_unpack_name | apply ne_skip | apply ne_rep | apply ne_bitmap | apply ne_svc | apply ne_rd | apply ne_copy_bytes
  | apply ne_bind; [|intros ?] | match goal with |- ne (if ?b then _ else _) => destruct b end
  | match goal with |- ne (match ?x with _ => _ end) => destruct x end | ne_leaf ].
Qed.
Lemma ne_fields : forall ts fuel m eop st, ne (parse_fields fuel m eop ts st).
Proof.
  induction ts as [|t ts IH]; intros fuel m eop [[src sb] u]; cbn [parse_fields]; [exact I|]. destruct (sb =? 0); [exact I|].
  apply ne_bind; auto using ne_field.
Qed.
Lemma ne_rr : forall fuel sec m eop i, ne (parse_message_rr fuel sec m eop i).
Proof.
  intros. unfold parse_message_rr, get16, get32, parse_rdata.
  
  repeat first [ apply ne_unpack_name | apply ne_skip | apply ne_fields | apply ne_rd | apply ne_copy_bytes
  | apply ne_bind; [|intros ?] | match goal with |- ne (if ?b then _ else _) => destruct b end
  | match goal with |- ne (match ?x with _ => _ end) => destruct x end | ne_leaf ].
Qed.

(** ** Sections *)
Definition tag (sec : Z) (rs : list srr) : list (Z * srr) := map (pair sec) rs.

Lemma parse_section_step : forall fuel n sec pkt len p m r k, p <> len -> parse_message_rr fuel sec pkt len p = Ok (r, k) ->
  parse_section fuel (S n) sec pkt len p m = (m' <- take_rr sec m r ;; parse_section fuel n sec pkt len (p + k) m').
Proof.
  intros fuel n sec pkt len p m r k Hp E. cbn [parse_section]. replace (p =? len) with false by lia. rewrite E.
  unfold take_rr. destruct ((rr_type r =? 41) && negb (e_present (m_edns m))); auto.
  destruct (insert_rr (get_sec m sec) r sec); reflexivity.
Qed.

Lemma section_complete : forall fuel sec pkt i n rs j, bytes_ok pkt -> 65535 < Z.of_nat fuel -> 0 <= sec <= 3 ->
  entries_at sec pkt i n rs j -> forall id flags l, Forall entry_valid l ->
  Forall entry_valid (l ++ tag sec rs) /\
  (parse_section fuel (Z.to_nat n) sec pkt (zlen pkt) i (parsed_entries id flags l) = Ok (Continue j (parsed_entries id flags (l ++ tag sec rs))) \/
   (j = zlen pkt /\ parse_section fuel (Z.to_nat n) sec pkt (zlen pkt) i (parsed_entries id flags l) = Ok (Return res_success (parsed_entries id flags (l ++ tag sec rs))))).
Proof.
  intros fuel sec pkt i n rs j Hm Hf Hs E. induction E as [i|n Hn|i n r k rs j Hn Hi R E IH]; intros id flags l F.
  - cbn [tag map]. rewrite app_nil_r. split; auto.
  - cbn [tag map]. rewrite app_nil_r. split; auto. right. split; auto.
    destruct (Z.to_nat n) as [|n'] eqn:Q; [lia|]. cbn [parse_section]. rewrite Z.eqb_refl. reflexivity.
  - pose proof (entry_valid_at _ _ _ _ _ Hm Hs R) as V. destruct (rr_complete fuel _ _ _ _ _ Hm Hf R) as (P & B & B2 & Bi).
    replace (Z.to_nat n) with (S (Z.to_nat (n - 1))) by lia.
    rewrite (parse_section_step _ _ _ _ _ _ _ (rr_of r) k) by (auto; lia). rewrite (take_step id flags l sec r F V). cbn [bind].
    cbn [tag map]. replace (l ++ (sec, r) :: map (pair sec) rs) with ((l ++ [(sec, r)]) ++ tag sec rs) by (rewrite <- app_assoc; reflexivity).
    apply IH. apply Forall_app. auto.
Qed.

Lemma section_sound : forall n fuel sec pkt i id flags l fl, bytes_ok pkt -> tame pkt -> 65535 < Z.of_nat fuel -> 0 <= sec <= 3 -> 0 <= i <= zlen pkt ->
  Forall entry_valid l ->
  parse_section fuel n sec pkt (zlen pkt) i (parsed_entries id flags l) = Ok fl ->
  (exists rs j, entries_at sec pkt i (Z.of_nat n) rs j /\ i <= j <= zlen pkt /\ Forall entry_valid (l ++ tag sec rs) /\
     (fl = Continue j (parsed_entries id flags (l ++ tag sec rs)) \/ j = zlen pkt /\ fl = Return res_success (parsed_entries id flags (l ++ tag sec rs)))) \/
  (exists e l', fl = Return e (clear_message (parsed_entries id flags (l ++ l'))) /\ In e parse_codes /\ Forall entry_valid (l ++ l')).
Proof.
  induction n as [|n IH]; intros fuel sec pkt i id flags l fl Hm NH Hf Hs Hi F E.
  - cbn [parse_section] in E. injection E as <-. left. exists [], i. cbn [tag map]. rewrite app_nil_r. repeat split; auto; try lia. constructor.
  - destruct (Z.eq_dec i (zlen pkt)) as [Eq|Ne].
    + cbn [parse_section] in E. rewrite Eq, Z.eqb_refl in E. injection E as <-. left. exists [], i. cbn [tag map]. rewrite app_nil_r.
      subst i. repeat split; auto; try lia. apply en_cut. lia.
    + destruct (parse_message_rr fuel sec pkt (zlen pkt) i) as [[r k]|e|f|] eqn:P.
      * assert (Hi' : 0 <= i < zlen pkt) by lia. destruct (rr_sound _ _ _ _ _ _ Hm NH Hi' P) as (s & R & ->).
        pose proof (entry_valid_at _ _ _ _ _ Hm Hs R) as V. destruct (rr_complete fuel _ _ _ _ _ Hm Hf R) as (_ & B & B2 & Bi).
        rewrite (parse_section_step _ _ _ _ _ _ _ (rr_of s) k) in E by auto. rewrite (take_step id flags l sec s F V) in E. cbn [bind] in E.
        apply IH in E; auto; try lia; [|apply Forall_app; auto].
        destruct E as [(rs & j & En & Bj & Fv & Q)|(e & l' & Q & Q2 & Q3)].
        -- left. exists (s :: rs), j. cbn [tag map]. replace (l ++ (sec, s) :: map (pair sec) rs) with ((l ++ [(sec, s)]) ++ tag sec rs) by (rewrite <- app_assoc; reflexivity).
           repeat split; auto; try lia. eapply en_more; eauto; try lia. replace (Z.of_nat (S n) - 1) with (Z.of_nat n) by lia. auto.
        -- right. exists e, ((sec, s) :: l'). rewrite <- app_assoc in Q, Q3. auto.
      * cbn [parse_section] in E. replace (i =? zlen pkt) with false in E by lia. rewrite P in E. injection E as <-.
        right. exists e, []. rewrite app_nil_r. repeat split; auto. pose proof (ne_rr fuel sec pkt (zlen pkt) i) as N. rewrite P in N. exact N.
      * cbn [parse_section] in E. replace (i =? zlen pkt) with false in E by lia. rewrite P in E. discriminate.
      * cbn [parse_section] in E. replace (i =? zlen pkt) with false in E by lia. rewrite P in E. discriminate.
Qed.

Lemma entries_at_end : forall sec m n, 0 <= n -> entries_at sec m (zlen m) n [] (zlen m).
Proof. intros sec m n H. destruct (Z.eq_dec n 0) as [->|]; [constructor|apply en_cut; lia]. Qed.
Lemma entries_end_inv : forall sec m n rs j, entries_at sec m (zlen m) n rs j -> rs = [] /\ j = zlen m.
Proof. intros sec m n rs j H. inversion H; subst; auto. lia. Qed.

(** Sections one after the other; [l]: entries before them. *)
Fixpoint all_entries (secs : list (Z * Z)) (pkt : bytes) (i : Z) (l : list (Z * srr)) : Prop :=
  match secs with
  | [] => l = []
  | (sec, n) :: secs' => exists rs j l', entries_at sec pkt i n rs j /\ l = tag sec rs ++ l' /\ all_entries secs' pkt j l'
  end.

Lemma all_entries_end : forall secs pkt l, all_entries secs pkt (zlen pkt) l -> l = [].
Proof.
  induction secs as [|[sec n] secs IH]; intros pkt l H; cbn [all_entries] in H; auto.
  destruct H as (rs & j & l' & E & -> & H). apply entries_end_inv in E as [-> ->]. apply IH in H. subst. reflexivity.
Qed.
Lemma all_entries_end_intro : forall secs pkt, Forall (fun e => 0 <= snd e) secs -> all_entries secs pkt (zlen pkt) [].
Proof.
  induction secs as [|[sec n] secs IH]; intros pkt F; cbn [all_entries]; auto. inversion F; subst. exists [], (zlen pkt), [].
  repeat split; auto. apply entries_at_end. auto.
Qed.

Lemma sections_complete : forall secs fuel pkt i l id flags l0, bytes_ok pkt -> 65535 < Z.of_nat fuel ->
  Forall (fun e => 0 <= fst e <= 3) secs -> all_entries secs pkt i l -> Forall entry_valid l0 ->
  parse_sections fuel secs pkt (zlen pkt) i (parsed_entries id flags l0) = Ok (res_success, parsed_entries id flags (l0 ++ l)).
Proof.
  induction secs as [|[sec n] secs IH]; intros fuel pkt i l id flags l0 Hm Hf Fs A F0; cbn [all_entries] in A; cbn [parse_sections].
  - subst. rewrite app_nil_r. reflexivity.
  - destruct A as (rs & j & l' & E & -> & A). inversion Fs; subst.
    destruct (section_complete fuel sec pkt i n rs j Hm Hf H1 E id flags l0 F0) as (Fv & [P|(-> & P)]); rewrite P; cbn [bind].
    + rewrite (IH fuel pkt j l' id flags (l0 ++ tag sec rs)); auto. rewrite app_assoc. reflexivity.
    + apply all_entries_end in A. subst. rewrite app_nil_r. reflexivity.
Qed.

Lemma sections_sound : forall secs fuel pkt i id flags l0 r M, bytes_ok pkt -> tame pkt -> 65535 < Z.of_nat fuel ->
  Forall (fun e => 0 <= fst e <= 3 /\ 0 <= snd e) secs -> 0 <= i <= zlen pkt -> Forall entry_valid l0 ->
  parse_sections fuel secs pkt (zlen pkt) i (parsed_entries id flags l0) = Ok (r, M) ->
  (r = res_success /\ exists l, all_entries secs pkt i l /\ M = parsed_entries id flags (l0 ++ l)) \/
  (In r parse_codes /\ exists l, M = clear_message (parsed_entries id flags (l0 ++ l)) /\ Forall entry_valid (l0 ++ l)).
Proof.
  induction secs as [|[sec n] secs IH]; intros fuel pkt i id flags l0 r M Hm NH Hf Fs Hi F0 E; cbn [parse_sections] in E.
  - injection E as <- <-. left. split; auto. exists []. rewrite app_nil_r. split; [reflexivity|auto].
  - rewrite bind_ok in E. destruct E as (fl & P & E). inversion Fs as [|? ? [Fa Fb] Fc]; subst. cbn [fst snd] in *.
    apply section_sound in P; auto. rewrite Z2Nat.id in P by lia.
    destruct P as [(rs & j & En & Bj & Fv & [-> | (Ej & ->)])|(e & l' & -> & Ne & Fv)].
    + apply IH in E; auto; try lia. destruct E as [(-> & l & A & ->)|(Ne & l & -> & Fl)].
      * left. split; auto. exists (tag sec rs ++ l). rewrite app_assoc. split; auto. cbn [all_entries]. exists rs, j, l. auto.
      * right. split; auto. exists (tag sec rs ++ l). rewrite app_assoc. auto.
    + injection E as <- <-. left. split; auto. exists (tag sec rs). split; auto. cbn [all_entries]. exists rs, j, []. rewrite app_nil_r.
      repeat split; auto. rewrite Ej. apply all_entries_end_intro. rewrite Forall_forall in *. intros x X. apply Fc; auto.
    + injection E as <- <-. right. split; auto. exists l'. auto.
Qed.

(** ** Whole messages *)
Lemma header_gets : forall m i0 i1 f0 f1 q0 q1 a0 a1 n0 n1 r0 r1,
  octets_at m 0 [i0; i1; f0; f1; q0; q1; a0; a1; n0; n1; r0; r1] ->
  get16 m 0 = Ok (i0 * 256 + i1) /\ get16 m 2 = Ok (f0 * 256 + f1) /\ get16 m 4 = Ok (q0 * 256 + q1) /\
  get16 m 6 = Ok (a0 * 256 + a1) /\ get16 m 8 = Ok (n0 * 256 + n1) /\ get16 m 10 = Ok (r0 * 256 + r1).
Proof.
  intros m i0 i1 f0 f1 q0 q1 a0 a1 n0 n1 r0 r1 O.
  change [i0; i1; f0; f1; q0; q1; a0; a1; n0; n1; r0; r1] with ([i0; i1] ++ [f0; f1] ++ [q0; q1] ++ [a0; a1] ++ [n0; n1] ++ [r0; r1]) in O.
  apply octets_at_app in O as [O1 O]. apply octets_at_app in O as [O2 O]. apply octets_at_app in O as [O3 O].
  apply octets_at_app in O as [O4 O]. apply octets_at_app in O as [O5 O6]. cbn in O2, O3, O4, O5, O6.
  repeat split; apply get16_ok; assumption.
Qed.

Lemma bytes12 : forall m i0 i1 f0 f1 q0 q1 a0 a1 n0 n1 r0 r1, bytes_ok m ->
  octets_at m 0 [i0; i1; f0; f1; q0; q1; a0; a1; n0; n1; r0; r1] ->
  (0 <= f0 < 256 /\ 0 <= f1 < 256) /\ (0 <= q0 < 256 /\ 0 <= q1 < 256) /\ (0 <= a0 < 256 /\ 0 <= a1 < 256) /\ (0 <= n0 < 256 /\ 0 <= n1 < 256) /\ (0 <= r0 < 256 /\ 0 <= r1 < 256).
Proof.
  intros m i0 i1 f0 f1 q0 q1 a0 a1 n0 n1 r0 r1 Hm O. apply (octets_at_bytes _ _ _ Hm) in O. unfold bytes_ok, is_byte in O.
  repeat match goal with H : Forall _ (_ :: _) |- _ => inversion H; subst; clear H end. auto 12.
Qed.

Lemma parse_message_unfold : forall fuel pkt i0 i1 f0 f1 q0 q1 a0 a1 n0 n1 r0 r1,
  octets_at pkt 0 [i0; i1; f0; f1; q0; q1; a0; a1; n0; n1; r0; r1] -> forall len, 12 <= len ->
  parse_message fuel pkt len =
  parse_sections fuel [(0, q0 * 256 + q1); (1, a0 * 256 + a1); (2, n0 * 256 + n1); (3, r0 * 256 + r1)] pkt len 12
    (parsed_entries (i0 * 256 + i1) (f0 * 256 + f1) []).
Proof.
  intros fuel pkt i0 i1 f0 f1 q0 q1 a0 a1 n0 n1 r0 r1 O len Hl. unfold parse_message. replace (len <? 12) with false by lia.
  destruct (header_gets _ _ _ _ _ _ _ _ _ _ _ _ _ O) as (G0 & G2 & G4 & G6 & G8 & G10).
  rewrite G0, G2. cbn [bind]. rewrite G4, G6. cbn [bind]. rewrite G8, G10. cbn [bind].
  rewrite land_15. unfold parsed_entries. cbn [first_opt without_first_opt edns_of]. unfold rcode_of. rewrite Z.add_0_r. reflexivity.
Qed.

Theorem message_complete : forall fuel pkt s, bytes_ok pkt -> 65535 < Z.of_nat fuel -> message_at pkt s ->
  parse_message fuel pkt (zlen pkt) = Ok (res_success, parsed s).
Proof.
  intros fuel pkt s Hm Hf (i0 & i1 & f0 & f1 & q0 & q1 & a0 & a1 & n0 & n1 & r0 & r1 & j1 & j2 & j3 & j4 & O & Ei & Ef & E1 & E2 & E3 & E4).
  rewrite (parse_message_unfold _ _ _ _ _ _ _ _ _ _ _ _ _ _ O) by (apply octets_at_bound in O; cbn in O; lia).
  rewrite (sections_complete _ fuel pkt 12 (entries s) _ _ []); auto.
  - unfold parsed. rewrite Ei, Ef. reflexivity.
  - repeat constructor; cbn; lia.
  - cbn [all_entries]. exists (sm_qd s), j1. eexists. split; [exact E1|]. split; [unfold entries; reflexivity|].
    exists (sm_an s), j2. eexists. split; [exact E2|]. split; [reflexivity|].
    exists (sm_ns s), j3. eexists. split; [exact E3|]. split; [reflexivity|].
    exists (sm_ar s), j4, []. split; [exact E4|]. rewrite app_nil_r. split; reflexivity.
Qed.

Theorem message_sound : forall fuel pkt r M, bytes_ok pkt -> tame pkt -> 65535 < Z.of_nat fuel ->
  parse_message fuel pkt (zlen pkt) = Ok (r, M) ->
  (r = res_success /\ exists s, message_at pkt s /\ M = parsed s) \/
  (zlen pkt < 12 /\ r = res_len /\ M = empty_message) \/
  (12 <= zlen pkt /\ In r parse_codes /\ (
    exists l i0 i1 f0 f1, octets_at pkt 0 [i0; i1; f0; f1] /\ M = clear_message (parsed_entries (i0 * 256 + i1) (f0 * 256 + f1) l) /\ Forall entry_valid l)).
Proof.
  intros fuel pkt r M Hm NH Hf E. destruct (Z_lt_ge_dec (zlen pkt) 12) as [L|L].
  - unfold parse_message in E. replace (zlen pkt <? 12) with true in E by lia. injection E as <- <-. right. left. auto.
  - destruct (octets_12 pkt) as (i0 & i1 & f0 & f1 & q0 & q1 & a0 & a1 & n0 & n1 & r0 & r1 & O); [lia|].
    rewrite (parse_message_unfold _ _ _ _ _ _ _ _ _ _ _ _ _ _ O) in E by lia.
    destruct (bytes12 _ _ _ _ _ _ _ _ _ _ _ _ _ Hm O) as (_ & B1 & B2 & B3 & B4).
    apply sections_sound in E; auto; [|repeat constructor; cbn; lia|lia].
    destruct E as [(-> & l & A & ->)|(Ne & l & -> & Fl)].
    + left. split; auto. cbn [all_entries] in A.
      destruct A as (qd & j1 & l1 & E1 & -> & an & j2 & l2 & E2 & -> & ns & j3 & l3 & E3 & -> & ar & j4 & l4 & E4 & -> & ->).
      exists {| sm_id := i0 * 256 + i1; sm_flags := f0 * 256 + f1; sm_qd := qd; sm_an := an; sm_ns := ns; sm_ar := ar |}.
      split; [|cbn [app]; rewrite app_nil_r; reflexivity].
      exists i0, i1, f0, f1, q0, q1, a0, a1, n0, n1, r0, r1, j1, j2, j3, j4. cbn [sm_id sm_flags sm_qd sm_an sm_ns sm_ar]. auto 10.
    + right. right. split; [lia|]. split; auto. exists l, i0, i1, f0, f1. split; [|auto].
      change [i0; i1; f0; f1; q0; q1; a0; a1; n0; n1; r0; r1] with ([i0; i1; f0; f1] ++ [q0; q1; a0; a1; n0; n1; r0; r1]) in O.
      apply octets_at_app in O. tauto.
Qed.

(** ** One octet beyond the packet is enough for safety. *)
Lemma rr_returns : forall fuel sec m eop i, bytes_ok m -> zlen m = eop + 1 -> tame m -> 0 <= i < eop -> 65535 < Z.of_nat fuel ->
  returns (parse_message_rr fuel sec m eop i) /\
  (forall r n, parse_message_rr fuel sec m eop i = Ok (r, n) -> 0 < n /\ i + n <= eop /\ (sec <> 0 -> rr_rdata r <> None)).
Proof.
  intros fuel sec m eop i Hm L NH Hi Hf. unfold parse_message_rr.
  destruct (skip_total m eop i Hm) as [(s & S & Sb)|(S & Sb)]; try lia.
  pose proof (unpack_returns m eop i Hm ltac:(lia)) as U.
  destruct (unpack_name m eop i) as [[w k]|e|f|]; cbn [bind returns] in *; try contradiction; [|split; [exact I|discriminate]].
  rewrite S. cbn [bind].
  destruct ((s + 4 >? eop) || negb (sec =? 0) && (s + 10 >? eop)) eqn:C; [split; [exact I|discriminate]|].
  destruct (sec =? 0) eqn:Q.
  - destruct (octets_4 m s) as (t0 & t1 & c0 & c1 & O); try lia. destruct (fixed4 _ _ _ _ _ _ O) as (G1 & G2). rewrite G1, G2.
    cbn [bind returns]. split; [exact I|]. intros r n [= <- <-]. repeat split; lia.
  - cbn [negb andb] in C. destruct (octets_10 m s) as (t0 & t1 & c0 & c1 & x & y & z & v & l0 & l1 & O); try lia.
    destruct (fixed10 _ _ _ _ _ _ _ _ _ _ _ _ O) as (G1 & G2 & G3 & G4). rewrite G1, G2, G3. cbn [bind]. rewrite G4. cbn [bind].
    destruct (bytes10 _ _ _ _ _ _ _ _ _ _ _ _ Hm O) as (_ & _ & Bl).
    destruct (s + 2 + 2 + 4 + 2 + (l0 * 256 + l1) >? eop) eqn:C2; [split; [exact I|discriminate]|].
    pose proof (rdata_returns fuel m eop (t0 * 256 + t1) (c0 * 256 + c1) (s + 2 + 2 + 4 + 2) (l0 * 256 + l1) Hm L) as R.
    replace (s + 2 + 2 + 4 + 2) with (s + 10) in * by lia. specialize (R ltac:(lia) ltac:(lia) ltac:(lia) (svcb_header10 _ _ _ _ _ _ _ _ _ _ _ _ Hm NH O) ltac:(lia)).
    destruct (parse_rdata _ _ _ _ _ _ _) as [d|e|f|]; cbn [bind returns] in *; try contradiction; [|split; [exact I|discriminate]].
    split; [exact I|]. intros r n [= <- <-]. repeat split; try lia. discriminate.
Qed.

Lemma take_rr_total : forall sec m r, (sec <> 0 -> rr_rdata r <> None) -> exists m', take_rr sec m r = Ok m'.
Proof.
  intros sec m r H. unfold take_rr. destruct (_ && _); [eauto|]. unfold insert_rr. destruct (sec =? 0) eqn:E; [eexists; reflexivity|].
  destruct (rr_rdata r); [eexists; reflexivity|]. exfalso. apply H; auto. lia.
Qed.

Lemma section_returns : forall n fuel sec m eop i M, bytes_ok m -> zlen m = eop + 1 -> tame m -> 0 <= i <= eop -> 65535 < Z.of_nat fuel ->
  exists fl, parse_section fuel n sec m eop i M = Ok fl /\ match fl with Continue p _ => 0 <= p <= eop | Return _ _ => True end.
Proof.
  induction n as [|n IH]; intros fuel sec m eop i M Hm L NH Hi Hf. { eexists; split; [reflexivity|]. cbn. lia. }
  destruct (Z.eq_dec i eop) as [->|Ne]. { cbn [parse_section]. rewrite Z.eqb_refl. eexists; split; [reflexivity|exact I]. }
  destruct (rr_returns fuel sec m eop i) as [R1 R2]; auto; try lia.
  destruct (parse_message_rr fuel sec m eop i) as [[r k]|e|f|] eqn:P; cbn [returns] in *; try contradiction.
  - destruct (R2 r k eq_refl) as (B1 & B2 & B3). rewrite (parse_section_step _ _ _ _ _ _ _ r k) by auto.
    destruct (take_rr_total sec M r B3) as (M' & T). rewrite T. cbn [bind]. apply IH; auto. lia.
  - cbn [parse_section]. replace (i =? eop) with false by lia. rewrite P. eexists; split; [reflexivity|exact I].
Qed.

Theorem message_returns : forall fuel m len, bytes_ok m -> 0 <= len -> zlen m = len + 1 -> tame m -> 65535 < Z.of_nat fuel ->
  exists r M, parse_message fuel m len = Ok (r, M).
Proof.
  intros fuel m len Hm L0 L NH Hf. destruct (Z_lt_ge_dec len 12) as [L12|L12].
  - unfold parse_message. replace (len <? 12) with true by lia. eauto.
  - destruct (octets_12 m) as (i0 & i1 & f0 & f1 & q0 & q1 & a0 & a1 & n0 & n1 & r0 & r1 & O); [lia|].
    rewrite (parse_message_unfold _ _ _ _ _ _ _ _ _ _ _ _ _ _ O) by lia.
    generalize ([(0, q0 * 256 + q1); (1, a0 * 256 + a1); (2, n0 * 256 + n1); (3, r0 * 256 + r1)]) as secs.
    generalize (parsed_entries (i0 * 256 + i1) (f0 * 256 + f1) []) as M. assert (0 <= 12 <= len) as B by lia. revert B. generalize 12 as p.
    intros p B M secs. revert p B M. induction secs as [|[sec n] secs IH]; intros p B M; cbn [parse_sections]; [eauto|].
    destruct (section_returns (Z.to_nat n) fuel sec m len p M) as (fl & E & F); auto; try lia. rewrite E. cbn [bind].
    destruct fl; [apply IH; auto|eauto].
Qed.

(** ** What a failed call leaves behind, for every memory and every packet. *)
Definition keeps (a b : message) : Prop := m_id b = m_id a /\ m_flags b = m_flags a /\ m_rcode b mod 16 = m_rcode a mod 16.
Lemma keeps_refl : forall a, keeps a a. Proof. repeat split. Qed.
Lemma keeps_trans : forall a b c, keeps a b -> keeps b c -> keeps a c.
Proof. intros a b c (A & B & C) (D & E & F). repeat split; congruence. Qed.

Lemma section_flow : forall n fuel sec pkt len p M fl, parse_section fuel n sec pkt len p M = Ok fl ->
  (exists p' M', fl = Continue p' M' /\ keeps M M') \/ (exists M', fl = Return res_success M' /\ keeps M M') \/
  (exists e M', fl = Return e (clear_message M') /\ In e parse_codes /\ keeps M M').
Proof.
  induction n as [|n IH]; intros fuel sec pkt len p M fl E; cbn [parse_section] in E.
  - injection E as <-. left. eauto using keeps_refl.
  - destruct (p =? len); [injection E as <-; right; left; eauto using keeps_refl|].
    pose proof (ne_rr fuel sec pkt len p) as N. destruct (parse_message_rr fuel sec pkt len p) as [[r k]|e|f|]; try discriminate.
    + destruct ((rr_type r =? 41) && negb (e_present (m_edns M))).
      * apply IH in E. assert (keeps M (parse_edns M r)) as K.
        { repeat split. cbn [parse_edns m_rcode]. change 16 with (2 ^ 4). rewrite <- !Z.land_ones by lia. rewrite Z.land_lor_distr_l.
          rewrite <- (Z.land_assoc _ 65280). replace (Z.land 65280 (Z.ones 4)) with 0 by reflexivity. rewrite Z.land_0_r, Z.lor_0_r. reflexivity. }
        destruct E as [(p' & M' & -> & K')|[(M' & -> & K')|(e & M' & -> & C & K')]]; eauto 10 using keeps_trans.
      * rewrite bind_ok in E. destruct E as (a & I & E). apply IH in E.
        assert (keeps M (set_sec M sec a)) as K by (repeat split).
        destruct E as [(p' & M' & -> & K')|[(M' & -> & K')|(e & M' & -> & C & K')]]; eauto 10 using keeps_trans.
    + injection E as <-. right. right. exists e, M. auto using keeps_refl.
Qed.

Lemma sections_flow : forall secs fuel pkt len p M r M', parse_sections fuel secs pkt len p M = Ok (r, M') ->
  (r = res_success /\ keeps M M') \/ (In r parse_codes /\ exists M1, keeps M M1 /\ M' = clear_message M1).
Proof.
  induction secs as [|[sec n] secs IH]; intros fuel pkt len p M r M' E; cbn [parse_sections] in E.
  - injection E as <- <-. auto using keeps_refl.
  - rewrite bind_ok in E. destruct E as (fl & P & E). apply section_flow in P.
    destruct P as [(p1 & M1 & -> & K)|[(M1 & -> & K)|(e & M1 & -> & C & K)]].
    + apply IH in E. destruct E as [(-> & K')|(C & M2 & K' & ->)]; eauto 10 using keeps_trans.
    + injection E as <- <-. auto.
    + injection E as <- <-. right. eauto.
Qed.

Theorem message_flow : forall fuel pkt len r M, parse_message fuel pkt len = Ok (r, M) ->
  (len < 12 /\ r = res_len /\ M = empty_message) \/
  (12 <= len /\ exists i0 i1 f0 f1, octets_at pkt 0 [i0; i1; f0; f1] /\ exists M1,
     m_id M1 = i0 * 256 + i1 /\ m_flags M1 = f0 * 256 + f1 /\ m_rcode M1 mod 16 = m_flags M1 mod 16 /\
     ((r = res_success /\ M = M1) \/ (In r parse_codes /\ M = clear_message M1))).
Proof.
  intros fuel pkt len r M E. unfold parse_message in E. destruct (len <? 12) eqn:L.
  - injection E as <- <-. left. split; [lia|auto].
  - right. split; [lia|]. rewrite bind_ok in E. destruct E as (id & G1 & E). rewrite bind_ok in E. destruct E as (fl & G2 & E).
    do 4 (rewrite bind_ok in E; destruct E as (? & _ & E)). cbv zeta in E.
    unfold get16 in G1, G2. rewrite bind_ok in G1, G2. destruct G1 as (i0 & R0 & G1). rewrite bind_ok in G1. destruct G1 as (i1 & R1 & G1).
    destruct G2 as (f0 & R2 & G2). rewrite bind_ok in G2. destruct G2 as (f1 & R3 & G2). injection G1 as <-. injection G2 as <-.
    exists i0, i1, f0, f1. split.
    { apply rd_ok in R0, R1, R2, R3. change (2 + 1) with (1 + 1 + 1) in R3. change 2 with (1 + 1) in R2.
      apply octets_at_cons. split; auto. apply octets_at_cons. split; auto. apply octets_at_cons. split; auto. }
    apply sections_flow in E. destruct E as [(-> & K)|(C & M1 & K & ->)].
    + exists M. destruct K as (K1 & K2 & K3). cbn [m_id m_flags m_rcode] in *. split; auto. split; auto. split; auto.
      rewrite K3, K2, land_15. apply Z.mod_mod. lia.
    + exists M1. destruct K as (K1 & K2 & K3). cbn [m_id m_flags m_rcode] in *. split; auto. split; auto. split; auto.
      rewrite K3, K2, land_15. apply Z.mod_mod. lia.
Qed.
