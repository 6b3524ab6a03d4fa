(** PropFormat.v: C38-C45 and C59, text codecs and mnemonics. Spec: SpecFormat.v, SpecTables.v. *)
From Verif Require Import Base Lib ModelName SpecName SpecFormat SpecTables Libc ModelFormat ModelTables.
From Verif Require Import ProofFormat ProofInet ProofInet6 ProofB64 ProofB32 ProofTables.

(** ** C38: decimal and hexadecimal text *)

(** The text of a number is its decimal form, and strtol, strtoul and sscanf read it back whatever non-digit follows. *)
Theorem C38_decimal : forall size num, 2 <= size -> 0 <= num < 10 ^ (size - 1) ->
  exists s, u64_text size num = Ok s /\ decimal num s /\ zlen s + 1 <= size.
Proof.
  intros size num H N. destruct (u64_text_spec size num H N) as (s & A & B). exists s. split; [exact A|]. split; [exact B|].
  pose proof (decimal_zlen s num (size - 1) ltac:(lia) B ltac:(lia)). lia.
Qed.
Print Assumptions C38_decimal.

(** Whatever the number and however short the buffer: the call writes the last digits of the number, as many as fit, right
    before the terminator, leaves the rest of the buffer alone, and reports where they start and how many they are. *)
Theorem C38_short_buffer : forall num buf, 0 <= num -> 2 <= zlen buf ->
  exists pre old ds last, buf = pre ++ old ++ [last] /\ zlen old = zlen ds /\
    uint64_to_str num buf = Ok (pre ++ ds ++ [0], zlen pre, zlen ds) /\ Forall digit ds /\ dec_value ds = num mod 10 ^ (zlen buf - 1).
Proof.
  intros num buf H L. destruct buf as [|z buf] using rev_ind; [change (zlen (@nil Z)) with 0 in L; lia|clear IHbuf].
  destruct buf as [|x buf] using rev_ind; [change (zlen ([] ++ [z])) with 1 in L; lia|clear IHbuf].
  replace ((buf ++ [x]) ++ [z]) with (buf ++ [x; z]) in * by (rewrite <- app_assoc; reflexivity).
  destruct (uint64_to_str_low num buf x z H) as (p1 & p2 & ds & E & S & LL & F & D).
  exists p1, p2, ds, z. split; [rewrite app_assoc, <- S, <- app_assoc; reflexivity|]. split; [exact LL|]. split; [exact E|]. split; [exact F|].
  rewrite D. f_equal. f_equal. rewrite zlen_app. change (zlen [x; z]) with 2. lia.
Qed.
Print Assumptions C38_short_buffer.
Example C38_short_ex : uint64_to_str 65535 (lit "abcd") = Ok (lit "535" ++ [0], 0, 3) /\ uint64_to_str 7 (lit "abcd") = Ok (lit "ab7" ++ [0], 2, 1).
Proof. split; vm_compute; reflexivity. Qed.
(** The buffers the library uses: sizeof("65535") for 8 and 16 bit values, sizeof("4294967295") for 32 bit values. *)
Theorem C38_decimal_fits : forall num,
  (0 <= num < 65536 -> exists s, u64_text 6 num = Ok s /\ decimal num s) /\
  (0 <= num < 4294967296 -> exists s, u64_text 11 num = Ok s /\ decimal num s).
Proof.
  intros num. split; intros H.
  - destruct (u64_text_spec 6 num) as (s & A & B); [lia|lia|eauto].
  - destruct (u64_text_spec 11 num) as (s & A & B); [lia|lia|eauto].
Qed.
Print Assumptions C38_decimal_fits.
Theorem C38_decimal_parses : forall num s rest, decimal num s -> num < 2 ^ 63 -> (match rest with c :: _ => ~ digit c | [] => True end) ->
  strtol (s ++ rest) = (num, rest) /\ strtoul (s ++ rest) = (num, rest) /\ scan_u (s ++ rest) = ScanVal num rest.
Proof.
  intros num s rest D H R. assert (N : no_digit_head rest) by (destruct rest; exact R).
  split; [|split]; [apply strtol_decimal|apply strtoul_decimal|apply scan_u_decimal]; auto; lia.
Qed.
Print Assumptions C38_decimal_parses.
Theorem C38_decimal_unique : forall num s t, decimal num s -> decimal num t -> s = t.
Proof. intros. eapply decimal_unique; eauto. Qed.
Print Assumptions C38_decimal_unique.
Theorem C38_hex : forall upper b rest size, is_byte b -> 3 <= size ->
  exists s, bytes_to_hex_str (b :: rest) 1 upper size = Ok (s, 2) /\ hex_octet upper b s /\ (forall r, scan_hh (s ++ r) = ScanVal b r).
Proof. intros up b rest size H S. exists (hex2 up b). split; [apply bytes_to_hex_one; auto|]. split; [apply hex2_spec; auto|intros; apply scan_hh_hex2; auto]. Qed.
Print Assumptions C38_hex.
(** The three-digit escape of an octet. *)
Theorem C38_escape : forall c, is_byte c -> exists a b d, octal_like c = Ok [92; a; b; d] /\ digit a /\ digit b /\ digit d /\ (a - 48) * 100 + (b - 48) * 10 + (d - 48) = c.
Proof.
  intros c H. rewrite octal_like_spec by auto. unfold is_byte, digit in *. unfold ddd.
  exists (48 + c / 100), (48 + c / 10 mod 10), (48 + c mod 10). split; [reflexivity|]. zdm.
Qed.
Print Assumptions C38_escape.
Example C38_ex : u64_text 6 65535 = Ok (lit "65535") /\ u64_text 11 4294967295 = Ok (lit "4294967295") /\ u64_text 6 0 = Ok (lit "0") /\
  bytes_to_hex_str [175] 1 true 3 = Ok (lit "AF", 2) /\ octal_like 7 = Ok (lit "\007").
Proof. repeat split; vm_compute; reflexivity. Qed.

(** ** C39: addresses *)
Theorem C39_ipv4 : forall a rest size, bytes_ok a -> zlen a = 4 -> 16 <= size ->
  exists s, inet4_ntop (a ++ rest) size = Ok (Some s) /\ zlen s + 1 <= 16 /\ ipv4_text a s /\ inet_pton4 s = Some a.
Proof.
  intros a rest size H L S. destruct a as [|w [|x [|y [|z [|]]]]]; try (unfold zlen in L; cbn [length] in L; lia).
  pose proof H as H'. apply bytes_ok_cons in H as [Hw H]. apply bytes_ok_cons in H as [Hx H]. apply bytes_ok_cons in H as [Hy H]. apply bytes_ok_cons in H as [Hz _].
  exists (text4 w x y z). cbn [app]. destruct (inet4_ntop_spec w x y z rest size Hw Hx Hy Hz S) as [A B]. split; [exact A|]. split; [lia|].
  pose proof (text4_spec w x y z Hw Hx Hy Hz) as T. split; [exact T|]. apply inet_pton4_text; auto.
Qed.
Print Assumptions C39_ipv4.
Theorem C39_ipv6 : forall a rest, bytes_ok a -> zlen a = 16 ->
  exists s, inet6_ntop (a ++ rest) 46 = Ok (Some s) /\ zlen s + 1 <= 46 /\ inet_pton6 s = Some a.
Proof. intros a rest H L. destruct (inet6_ntop_spec a rest H L) as (s & A & B & C & D). exists s. repeat split; auto; lia. Qed.
Print Assumptions C39_ipv6.
(** Distinct addresses have distinct texts. *)
Theorem C39_injective : forall a b s, bytes_ok a -> bytes_ok b -> zlen a = 16 -> zlen b = 16 ->
  inet6_ntop a 46 = Ok (Some s) -> inet6_ntop b 46 = Ok (Some s) -> a = b.
Proof.
  intros a b s Ha Hb La Lb Ea Eb. destruct (C39_ipv6 a [] Ha La) as (s1 & A1 & _ & A2). destruct (C39_ipv6 b [] Hb Lb) as (s2 & B1 & _ & B2).
  rewrite app_nil_r in *. congruence.
Qed.
Print Assumptions C39_injective.
Example C39_ex : inet6_ntop (repeat 0 10 ++ [255; 255; 192; 0; 2; 1]) 46 = Ok (Some (lit "::ffff:192.0.2.1")) /\
  inet6_ntop [32; 1; 13; 184; 0; 0; 0; 0; 0; 1; 0; 0; 0; 0; 0; 1] 46 = Ok (Some (lit "2001:db8::1:0:0:1")) /\
  inet4_ntop [255; 10; 0; 199] 16 = Ok (Some (lit "255.10.0.199")).
Proof. repeat split; vm_compute; reflexivity. Qed.

(** ** C59: the IPv6 text is the canonical one of RFC 5952 (see SpecFormat.ipv6_text). *)
Theorem C59_rfc5952 : forall a rest, bytes_ok a -> zlen a = 16 -> exists s, inet6_ntop (a ++ rest) 46 = Ok (Some s) /\ ipv6_text a s.
Proof. intros a rest H L. destruct (inet6_ntop_spec a rest H L) as (s & A & B & C & D). exists s. auto. Qed.
Print Assumptions C59_rfc5952.
(** There is exactly one such text for an address, and inet_pton reads it back. *)
Theorem C59_unique : forall a s t, bytes_ok a -> ipv6_text a s -> ipv6_text a t -> s = t.
Proof. exact ipv6_unique. Qed.
Print Assumptions C59_unique.
Theorem C59_parses : forall a s, bytes_ok a -> ipv6_text a s -> inet_pton6 s = Some a.
Proof. intros a s B T. apply inet_pton6_text; auto. Qed.
Print Assumptions C59_parses.
Example C59_ex : exists s, inet6_ntop [0; 1; 0; 0; 0; 0; 0; 1; 0; 0; 0; 0; 0; 0; 0; 1] 46 = Ok (Some s) /\ s = lit "1:0:0:1::1".
Proof. eexists. split; vm_compute; reflexivity. Qed.

(** ** C40: base64 *)
Theorem C40_encode : forall l rest, bytes_ok l -> 1 <= zlen l < 65536 -> bytes_to_base64 (l ++ rest) (zlen l) = Ok (base64 l).
Proof. exact bytes_to_base64_spec. Qed.
Print Assumptions C40_encode.
Theorem C40_roundtrip : forall l rest, bytes_ok l -> zlen l < 65536 ->
  exists s, bytes_to_base64 (l ++ rest) (zlen l) = Ok s /\ base64_str_to_bytes s = Ok l.
Proof.
  intros l rest F L. destruct l as [|a l].
  - exists []. split; [apply bytes_to_base64_nil|reflexivity].
  - exists (base64 (a :: l)). split; [apply bytes_to_base64_spec; auto; rewrite zlen_cons in *; pose proof (zlen_nonneg _ l); lia|apply base64_roundtrip; auto].
Qed.
Print Assumptions C40_roundtrip.
Example C40_ex : bytes_to_base64 (lit "foob" ++ [99]) 4 = Ok (lit "Zm9vYg==") /\ base64_str_to_bytes (lit "Zm9v Yg==") = Ok (lit "foob").
Proof. split; vm_compute; reflexivity. Qed.

(** ** C41: the decoding table. The property fails: '{' indexes one past its end. *)
Theorem C41_table_refuted : base64_decode_value 123 = UB OobRead.
Proof. reflexivity. Qed.
Print Assumptions C41_table_refuted.
(** It is the only such character; all others are skipped or give a 6-bit value. *)
Theorem C41_table_partial : forall c, is_byte c -> c <> 123 -> exists v, base64_decode_value c = Ok v /\ -2 <= v < 64.
Proof. intros c H N. destruct (decode_value_cases c H) as [[_ E]|(v & E & B & _)]; [congruence|exists v; auto]. Qed.
Print Assumptions C41_table_partial.
(** Decoding a text is free of faults exactly if '{' does not occur in it. *)
Theorem C41_decode_exact : forall s, bytes_ok s -> (exists o, base64_str_to_bytes s = Ok o) <-> ~ In 123 s.
Proof.
  intros s F. split; [|apply base64_decode_safe; auto].
  intros (o & E) I. unfold base64_str_to_bytes in E. rewrite decode_brace in E; auto; [discriminate|]. cbn [dec_slack]. change (zlen (@nil Z)) with 0. lia.
Qed.
Print Assumptions C41_decode_exact.

(** ** C42: base32hex *)
Theorem C42_encode : forall l, bytes_ok l -> l <> [] -> base32_encode (2 * zlen l + 1) l = Ok (base32hex l).
Proof. intros l F N. apply base32_encode_spec; auto. lia. Qed.
Print Assumptions C42_encode.
Theorem C42_roundtrip : forall l s t size, bytes_ok l -> l <> [] -> zlen l <= size -> base32_encode (2 * zlen l + 1) l = Ok s -> same_letters t s ->
  base32_decode size t = Ok (Some l).
Proof.
  intros l s t size F N L E S. rewrite C42_encode in E by auto. injection E as <-. unfold base32_decode.
  rewrite (b32_case t (base32hex l)).
  - apply base32_roundtrip; auto.
  - induction S as [|x y a b H _ IH]; [reflexivity|]. cbn [map]. f_equal; [|exact IH]. unfold toupper.
    destruct H as [-> |[[H ->]|[H ->]]]; [reflexivity| |].
    + replace ((97 <=? x) && (x <=? 122)) with false by lia. replace ((97 <=? x + 32) && (x + 32 <=? 122)) with true by lia. lia.
    + replace ((97 <=? y) && (y <=? 122)) with false by lia. replace ((97 <=? y + 32) && (y + 32 <=? 122)) with true by lia. lia.
Qed.
Print Assumptions C42_roundtrip.
Theorem C42_reject : forall t size, zlen t <= size -> Exists (fun c => c <> 61 /\ ~ (48 <= c <= 57 \/ 65 <= c <= 86 \/ 97 <= c <= 118)) t ->
  base32_decode size t = Ok None.
Proof. intros t size L E. apply b32_reject; [change (zlen (@nil Z)) with 0; lia|change (zlen (@nil Z)) with 0; lia|exact E]. Qed.
Print Assumptions C42_reject.
Theorem C42_safe : forall t size, 0 <= size -> exists r, base32_decode size t = Ok r /\ (forall o, r = Some o -> zlen o <= size).
Proof.
  intros t size S. destruct (b32_dloop_safe t size [] false [] ltac:(cbn; lia)) as (r & E). exists r. split; [exact E|].
  intros o ->. eapply b32_dloop_size; [|exact E]. change (zlen (@nil Z)) with 0. lia.
Qed.
Print Assumptions C42_safe.
Example C42_ex : base32_encode 13 (lit "foobar") = Ok (lit "CPNMUOJ1E8") /\ base32_decode 6 (lit "cpnmuOJ1e8") = Ok (Some (lit "foobar")) /\
  base32_decode 6 (lit "CPNWUOJ1E8") = Ok None.
Proof. repeat split; vm_compute; reflexivity. Qed.

(** ** C43: RR types *)
Theorem C43_registry : forall n s, rrtype_to_str n = Some s <-> mnemonic iana_types n s.
Proof. exact (table_registry _ _ _ types_ok). Qed.
Print Assumptions C43_registry.
Theorem C43_roundtrip : forall n s t, rrtype_to_str n = Some s -> same_letters t s -> str_to_rrtype t = n.
Proof. intros n s t E S. unfold str_to_rrtype, str_to_generic. rewrite (table_lookup _ _ _ types_ok n s t E S). reflexivity. Qed.
Print Assumptions C43_roundtrip.
Theorem C43_generic : forall n p d, 0 <= n < 65536 -> decimal n d -> same_letters p (lit "TYPE") -> str_to_rrtype (p ++ d) = n.
Proof.
  intros n p d H D S. unfold str_to_rrtype, str_to_generic.
  rewrite (generic_not_found _ _ _ types_ok).
  - rewrite (convert_generic_ok _ _ n) by (auto; lia). reflexivity.
  - apply Forall_app. split; [|eapply decimal_c_string; eauto].
    apply same_letters_length in S as L. destruct p as [|a [|b [|c [|e [|]]]]]; try discriminate. 
    repeat match goal with H : same_letters _ _ |- _ => inversion H; clear H; subst | H : Forall2 _ _ _ |- _ => inversion H; clear H; subst end.
    repeat (apply Forall_cons || apply Forall_nil); lia.
  - apply prefix_caseeq_app; auto.
Qed.
Print Assumptions C43_generic.
Theorem C43_unknown : forall t, c_string t -> (forall n s, rrtype_to_str n = Some s -> ~ same_letters t s) -> prefix_caseeq (lit "TYPE") t = false ->
  str_to_rrtype t = 0.
Proof.
  intros t C N P. unfold str_to_rrtype, str_to_generic. destruct (lookup hdr_types t) as [v|] eqn:E.
  - destruct (table_lookup_inv _ _ _ types_ok v t C E) as (s & E1 & E2). exfalso. eapply N; eauto.
  - unfold convert_generic. rewrite P. destruct (zlen t <=? zlen (lit "TYPE")); reflexivity.
Qed.
Print Assumptions C43_unknown.
Theorem C43_injective : forall n m s, rrtype_to_str n = Some s -> rrtype_to_str m = Some s -> n = m.
Proof.
  intros n m s A B. assert (R : same_letters s s) by (apply lower_same_letters; reflexivity).
  rewrite <- (C43_roundtrip n s s A R). apply (C43_roundtrip m s s B R).
Qed.
Print Assumptions C43_injective.
Example C43_ex : rrtype_to_str 23 = Some (lit "NSAP-PTR") /\ str_to_rrtype (lit "nsap-PTR") = 23 /\ str_to_rrtype (lit "tYpE65280") = 65280 /\
  str_to_rrtype (lit "TYPE65536") = 0 /\ str_to_rrtype (lit "bogus") = 0.
Proof. repeat split; vm_compute; reflexivity. Qed.

(** ** C44: classes, rcodes and opcodes *)
Theorem C44_class_registry : forall n s, rrclass_to_str n = Some s <-> mnemonic iana_classes n s.
Proof. exact (table_registry _ _ _ classes_ok). Qed.
Print Assumptions C44_class_registry.
Theorem C44_class_roundtrip : forall n s t, rrclass_to_str n = Some s -> same_letters t s -> str_to_rrclass t = n.
Proof. intros n s t E S. unfold str_to_rrclass, str_to_generic. rewrite (table_lookup _ _ _ classes_ok n s t E S). reflexivity. Qed.
Print Assumptions C44_class_roundtrip.
Theorem C44_class_generic : forall n p d, 0 <= n < 65536 -> decimal n d -> same_letters p (lit "CLASS") -> str_to_rrclass (p ++ d) = n.
Proof.
  intros n p d H D S. unfold str_to_rrclass, str_to_generic.
  rewrite (generic_not_found _ _ _ classes_ok).
  - rewrite (convert_generic_ok _ _ n) by (auto; lia). reflexivity.
  - apply Forall_app. split; [|eapply decimal_c_string; eauto].
    apply same_letters_length in S as L. destruct p as [|a [|b [|c [|e [|g [|]]]]]]; try discriminate.
    repeat match goal with H : same_letters _ _ |- _ => inversion H; clear H; subst | H : Forall2 _ _ _ |- _ => inversion H; clear H; subst end.
    repeat (apply Forall_cons || apply Forall_nil); lia.
  - apply prefix_caseeq_app; auto.
Qed.
Print Assumptions C44_class_generic.
Theorem C44_rcode_registry : forall n s, rcode_to_str n = Some s <-> mnemonic iana_rcodes n s.
Proof. exact (table_registry _ _ _ rcodes_ok). Qed.
Print Assumptions C44_rcode_registry.
(** wdns_str_to_rcode succeeds exactly on the known mnemonics, in any letter case. *)
Theorem C44_rcode_exact : forall t n, c_string t -> (str_to_rcode t = Some n <-> exists s, rcode_to_str n = Some s /\ same_letters t s).
Proof.
  intros t n C. split.
  - intros E. apply (table_lookup_inv _ _ _ rcodes_ok); auto.
  - intros (s & E & S). apply (table_lookup _ _ _ rcodes_ok n s t E S).
Qed.
Print Assumptions C44_rcode_exact.
Theorem C44_opcode : forall n s, opcode_to_str n = Some s <-> mnemonic iana_opcodes n s.
Proof.
  intros n s. split.
  - intros E. unfold opcode_to_str in E. unfold mnemonic, iana_opcodes.
    destruct n as [|[[p|[p|p|]|]|[p|[p|p|]|]|]|p]; try discriminate; injection E as <-; eexists; (split; [|reflexivity]); cbn; tauto.
  - intros (m & I & ->). unfold iana_opcodes in I. cbn [In] in I.
    destruct I as [I|[I|[I|[I|[I|I]]]]]; [inversion I; subst; reflexivity ..|destruct I].
Qed.
Print Assumptions C44_opcode.
Example C44_ex : str_to_rrclass (lit "class3") = 3 /\ str_to_rrclass (lit "ch") = 3 /\ str_to_rcode (lit "NxDomain") = Some 3 /\ str_to_rcode (lit "NX") = None.
Proof. repeat split; vm_compute; reflexivity. Qed.

(** ** C45: SvcParamKeys *)
Theorem C45_roundtrip : forall k, 0 <= k < 65536 -> zlen (svckey_to_str k) < 16 /\ str_to_svckey (svckey_to_str k) = k.
Proof. intros k H. split; [pose proof (svc_fits k H); lia|apply svc_roundtrip; auto]. Qed.
Print Assumptions C45_roundtrip.
Theorem C45_text : forall k, 0 <= k < 65535 ->
  (exists m, In (k, m) iana_svckeys /\ svckey_to_str k = lit m) \/ (7 <= k /\ exists d, decimal k d /\ svckey_to_str k = lit "key" ++ d).
Proof.
  intros k H. destruct (Z.lt_ge_cases k 7) as [L|L].
  - left. assert (K : k = 0 \/ k = 1 \/ k = 2 \/ k = 3 \/ k = 4 \/ k = 5 \/ k = 6) by lia.
    repeat (destruct K as [-> |K]; [eexists; split; [|reflexivity]; cbn; tauto|]). subst. eexists; split; [|reflexivity]; cbn; tauto.
  - right. split; [auto|]. exists (fmt_u k). split; [apply fmt_u_decimal; lia|]. unfold svckey_to_str, spr_mandatory, spr_alpn, spr_nd_alpn, spr_port, spr_ech, spr_ipv4hint, spr_ipv6hint, spr_invalid.
    repeat match goal with |- context [if k =? ?c then _ else _] => replace (k =? c) with false by lia end. reflexivity.
Qed.
Print Assumptions C45_text.
(** keyN is accepted for every N below 65535, known keys included; 65535 and above, and trailing characters, are not. *)
Theorem C45_generic : forall n d, decimal n d -> n < 65535 -> str_to_svckey (lit "key" ++ d) = n.
Proof. intros n d D H. apply svc_generic; auto. pose proof (decimal_nonneg _ _ D). lia. Qed.
Print Assumptions C45_generic.
Theorem C45_invalid : forall n d c r, decimal n d -> n < 2 ^ 64 -> ~ digit c ->
  str_to_svckey (lit "key" ++ d ++ c :: r) = 65535 /\ (65535 <= n -> str_to_svckey (lit "key" ++ d) = 65535).
Proof.
  intros n d c r D B C. pose proof (decimal_nonempty _ _ D).
  assert (1 <= zlen d) by (destruct d; [congruence|rewrite zlen_cons; pose proof (zlen_nonneg _ d); lia]).
  assert (G : forall e, 1 <= zlen e -> str_to_svckey (lit "key" ++ e) = let '(v, rest) := strtoul e in match rest with [] => if v >=? 65535 then 65535 else v | _ :: _ => 65535 end).
  { intros e He. unfold str_to_svckey. change (lit "key" ++ e) with (107 :: 101 :: 121 :: e).
    change (streq (107 :: 101 :: 121 :: e) (lit "mandatory")) with false.
    change (streq (107 :: 101 :: 121 :: e) (lit "alpn")) with false.
    change (streq (107 :: 101 :: 121 :: e) (lit "no-default-alpn")) with false.
    change (streq (107 :: 101 :: 121 :: e) (lit "port")) with false.
    change (streq (107 :: 101 :: 121 :: e) (lit "ech")) with false.
    change (streq (107 :: 101 :: 121 :: e) (lit "ipv4hint")) with false.
    change (streq (107 :: 101 :: 121 :: e) (lit "ipv6hint")) with false.
    change (prefix_eq (lit "key") (107 :: 101 :: 121 :: e)) with true. cbn [andb].
    rewrite !zlen_cons. replace (zlen e + 1 + 1 + 1 >? 3) with true by lia. cbn [skipn]. destruct (strtoul e) as [v [|]]; reflexivity. }
  split.
  - rewrite G by (rewrite zlen_app; pose proof (zlen_nonneg _ (c :: r)); lia). rewrite (strtoul_decimal n d (c :: r)); auto.
  - intros N. rewrite G by auto. rewrite <- (app_nil_r d), (strtoul_decimal n d []); [|auto|lia|exact I]. replace (n >=? 65535) with true by lia. reflexivity.
Qed.
Print Assumptions C45_invalid.
Example C45_ex : svckey_to_str 2 = lit "no-default-alpn" /\ str_to_svckey (lit "key65534") = 65534 /\ str_to_svckey (lit "key65535") = 65535 /\
  str_to_svckey (lit "key7x") = 65535 /\ str_to_svckey (lit "ALPN") = 65535.
Proof. repeat split; vm_compute; reflexivity. Qed.
