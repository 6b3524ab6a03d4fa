(** PropText.v: C46-C49, C53, C60, C61, presentation format of rdata and back. Spec: SpecText.v (the text), SpecMessage.v
    and SpecEncode.v (well-formed rdata). *)
From Coq Require Strings.String.
From Coq Require Import Sorting.Sorted.
From Verif Require Import Base Lib ModelName SpecName SpecMessage SpecEncode SpecFormat SpecTables SpecText Libc ModelFormat ModelTables ModelDescr ModelToStr ModelFromStr.
From Verif Require Import ProofRdata ProofEncode ProofFormat ProofTables ProofPrint ProofField ProofVisible ProofRdataText ProofFromStr ProofBitmap ProofSvc ProofRoundTrip ProofRoundTrip2.

(** ** C60: the text of rdata *)

(** The text printed for well-formed rdata (memory may go on behind it) is its fields in presentation form, one blank
    between tokens. *)
Theorem C60_fields : forall t c vs after, t <> 41 -> has_fields t c = true -> wf_values (format_of t c) vs -> (t = 64 \/ t = 65 -> plain_values vs) ->
  zlen (canon vs) < 65536 -> bytes_ok after ->
  exists s, rdata_to_str (canon vs ++ after) (zlen (canon vs)) t c = Ok s /\ rdata_text t vs s.
Proof.
  intros t c vs after N H W P L B. destruct (rdata_print [] t c vs after N H W P L B) as (toks & F & _ & E). exists (join_by 32 toks). split; [|exists toks; auto].
  unfold rdata_to_str. rewrite E. destruct toks; reflexivity.
Qed.
Print Assumptions C60_fields.
(** Rdata of a type without a known format: RFC 3597. *)
Theorem C60_generic : forall t c l after, find (fun e => fst e =? t) rr_formats = None -> bytes_ok l -> zlen l < 65536 ->
  exists s, rdata_to_str (l ++ after) (zlen l) t c = Ok s /\ generic_text l s.
Proof. intros t c l after F B L. apply (generic_print [] t c l after F B L). Qed.
Print Assumptions C60_generic.
(** Rdata of a type defined for class IN only, in another class: nothing is printed. *)
Theorem C60_other_class : forall t c l n, find (fun e => fst e =? t) rr_formats <> None -> has_fields t c = false -> rdata_to_str l n t c = Ok [].
Proof.
  intros t c l n F H. assert (I : In t (map fst rr_formats)) by (destruct (in_dec Z.eq_dec t (map fst rr_formats)) as [I|I]; auto; elim F; apply find_none_key; auto).
  assert (G : exists d, lookup_descr t = Some d /\ (d_class d =? class_un) || (d_class d =? c) = false).
  { cbn in I. repeat (destruct I as [<-|I]; [eexists; split; [unfold lookup_descr; cbn; reflexivity|]; unfold has_fields in H; cbn in H |- *; first [discriminate|destruct c as [|[]|]; first [discriminate|reflexivity]]|]). contradiction. }
  destruct G as (d & E1 & E2). unfold rdata_to_str, rdata_to_ubuf. rewrite E1, E2. reflexivity.
Qed.
Print Assumptions C60_other_class.
(** MX, SVCB; an empty mandatory list runs into the next key (excluded by [plain_values]). *)
Example C60_ex :
  rdata_to_str ([0; 10] ++ wire [[109; 120]; [99; 111; 109]]) 10 15 1 = Ok (lit "10 mx.com.") /\
  rdata_text 15 [VOctets [0; 10]; VName [[109; 120]; [99; 111; 109]]] (lit "10 mx.com.") /\
  rdata_to_str ([0; 1; 0] ++ param (1, char_string (lit "h2")) ++ param (3, u16 443)) 16 64 1 = Ok (lit "1 . alpn=""h2"" port=443") /\
  rdata_to_str ([0; 1; 0] ++ param (0, []) ++ param (1, char_string (lit "h2"))) 14 64 1 = Ok (lit "1 . mandatory=alpn=""h2""") /\
  rdata_to_str [1; 2; 255] 3 65400 1 = Ok (lit "\# 3 01 02 ff ") /\ rdata_to_str [1; 2; 3; 4] 4 1 3 = Ok [].
Proof.
  split; [vm_compute; reflexivity|]. split; [|repeat split; vm_compute; reflexivity].
  exists [lit "10"; lit "mx.com."]. split; [|reflexivity]. change [lit "10"; lit "mx.com."] with ([lit "10"] ++ [lit "mx.com."] ++ []). apply fs_field; [apply ft_dec; apply (fmt_u_decimal 10); lia|].
  apply fs_field; [|apply fs_end]. change (lit "mx.com.") with (pres_name [[109; 120]; [99; 111; 109]]). apply ft_name.
Qed.

(** ** C61: reading rdata text *)

(** Text in presentation form gives the rdata whose fields it shows, in every class the type is defined for. *)
Theorem C61_fields : forall t c vs s, t <> 41 -> has_fields t c = true -> wf_values (format_of t c) vs -> all_readable (presentation_of t) vs -> rdata_text t vs s ->
  str_to_rdata s t c = Ok (canon vs).
Proof. exact rdata_parse. Qed.
Print Assumptions C61_fields.
Theorem C61_generic : forall t c n d l h, find (fun e => fst e =? t) rr_formats = None -> decimal n d -> n < 65536 -> spaced_hex l h ->
  str_to_rdata (lit "\# " ++ d ++ [32] ++ h) t c = if zlen l =? n then Ok l else Err res_parse_error.
Proof. intros t c n d l h F D B H. pose proof (decimal_nonneg _ _ D). rewrite (generic_parse t c n d l h F D ltac:(lia) H). rewrite Z.mod_small by lia. reflexivity. Qed.
Print Assumptions C61_generic.
Example C61_ex :
  str_to_rdata (lit "ns.example. host.example. 1 7200 900 1209600 86400") 6 1 =
    Ok (wire [lit "ns"; lit "example"] ++ wire [lit "host"; lit "example"] ++ [0; 0; 0; 1; 0; 0; 28; 32; 0; 0; 3; 132; 0; 18; 117; 0; 0; 1; 81; 128]) /\
  str_to_rdata (lit "1 . alpn=""h2,h3"" port=443") 64 1 = Ok ([0; 1; 0] ++ param (1, char_string (lit "h2") ++ char_string (lit "h3")) ++ param (3, u16 443)).
Proof. split; vm_compute; reflexivity. Qed.

(** ** C46: character-strings *)
Theorem C46_printable : forall l, bytes_ok l -> printable (quoted l).
Proof.
  intros l B. unfold quoted, printable. apply Forall_app. split; [constructor; [lia|constructor]|]. apply Forall_app. split; [|constructor; [lia|constructor]].
  induction B as [|c l Hc _ IH]; [constructor|]. cbn [map concat]. apply Forall_app. split; [|exact IH]. unfold is_byte in Hc. unfold quote_octet.
  destruct ((c =? 34) || (c =? 92)) eqn:E1; [repeat constructor; lia|]. destruct ((32 <=? c) && (c <=? 126)) eqn:E2; [repeat constructor; lia|].
  assert (0 <= c / 100 < 10 /\ 0 <= c / 10 mod 10 < 10 /\ 0 <= c mod 10 < 10) by (split; [split; [apply Z.div_pos; lia|apply Z.div_lt_upper_bound; lia]|split; apply Z.mod_pos_bound; lia]).
  repeat (apply Forall_cons; [lia|]). constructor.
Qed.
Print Assumptions C46_printable.
(** TXT: any list of strings is printed as quoted strings and read back. *)
Theorem C46_strings : forall c ss, ss <> [] -> Forall (fun s => bytes_ok s /\ zlen s <= 255) ss -> zlen (concat (map char_string ss)) < 65536 ->
  rdata_to_str (concat (map char_string ss)) (zlen (concat (map char_string ss))) 16 c = Ok (join_by 32 (map quoted ss)) /\
  str_to_rdata (join_by 32 (map quoted ss)) 16 c = Ok (concat (map char_string ss)).
Proof.
  intros c ss N F L. assert (W : wf_values (format_of 16 c) [VOctets (concat (map char_string ss))]).
  { change (format_of 16 c) with [FStrings]. apply wv_octets.
    - exists ss. split; [|reflexivity]. eapply Forall_impl; [|exact F]. cbn beta. tauto.
    - clear - F. induction F as [|s ss [B1 L1] F IH]; [constructor|]. cbn [map concat]. apply bytes_ok_app. split; [|exact IH]. unfold char_string. apply bytes_ok_cons. split; [unfold is_byte; pose proof (zlen_nonneg _ s); lia|auto].
    - destruct ss; [congruence|discriminate].
    - auto.
    - constructor. }
  assert (E : canon [VOctets (concat (map char_string ss))] = concat (map char_string ss)) by (unfold canon; cbn [map concat canon1]; apply app_nil_r).
  split.
  - destruct (rdata_print [] 16 c _ [] ltac:(lia) eq_refl W ltac:(lia) ltac:(rewrite E; exact L) ltac:(constructor)) as (toks & FT & _ & P). rewrite E, app_nil_r in P. unfold rdata_to_str. rewrite P.
    change (presentation_of 16) with [PStrings] in FT. inversion FT as [|p ps v vs tk tk' F1 F2]; subst. inversion F2; subst. inversion F1 as [| | | | | | | | | | | | | | |ss' ES| | |]; subst.
    assert (ss' = ss) as ->.
    { clear - H. revert ss H. induction ss' as [|a x IH]; intros [|b y] H; auto; try discriminate. cbn [map concat] in H. change (zlen a :: a ++ concat (map char_string x) = zlen b :: b ++ concat (map char_string y)) in H. injection H as L H. destruct (app_zlen_inj a _ b _ L H) as [-> H']. f_equal. auto. }
    rewrite app_nil_r. destruct ss; [congruence|reflexivity].
  - rewrite <- E at 1. apply rdata_parse with (t := 16) (c := c); auto; [lia|cbn; auto|]. exists (map quoted ss). split; [|reflexivity]. change (presentation_of 16) with [PStrings]. rewrite <- (app_nil_r (map quoted ss)). apply fs_field; [apply ft_strings|constructor].
Qed.
Print Assumptions C46_strings.
(** Whatever text follows the closing quote. *)
Theorem C46_followed : forall l rest, bytes_ok l -> zlen l <= 255 -> str_to_cs (quoted l ++ rest) = Ok (char_string l, rest).
Proof. exact str_to_cs_quoted. Qed.
Print Assumptions C46_followed.
Example C46_ex : rdata_to_str (char_string [34; 92; 0; 200; 97; 32] ++ char_string []) 8 16 1 = Ok (lit """\""\\\000\200a "" """"") /\
  str_to_rdata (lit """\""\\\000\200a "" """"") 16 1 = Ok (char_string [34; 92; 0; 200; 97; 32] ++ char_string []).
Proof. split; vm_compute; reflexivity. Qed.

(** ** C47: type bit maps (NSEC: next name, types) *)

(** Canonical form and the same set, for any types in any order and with repetitions. *)
Theorem C47_set : forall c ls ns ts, valid_name ls -> ns <> [] -> Forall (fun n => 0 <= n < 65536) ns -> Forall2 type_text ns ts ->
  exists ws, str_to_rdata (pres_name ls ++ 32 :: join_by 32 ts) 47 c = Ok (wire ls ++ concat (map window ws)) /\
    canonical ws /\ (forall x, In x (bitmap_types ws) <-> In x ns).
Proof. exact nsec_parse. Qed.
Print Assumptions C47_set.
Theorem C47_order : forall c ls ns ts ms us, valid_name ls -> ns <> [] -> Forall (fun n => 0 <= n < 65536) ns -> Forall2 type_text ns ts -> Forall2 type_text ms us ->
  (forall x, In x ns <-> In x ms) -> str_to_rdata (pres_name ls ++ 32 :: join_by 32 ts) 47 c = str_to_rdata (pres_name ls ++ 32 :: join_by 32 us) 47 c.
Proof.
  intros c ls ns ts ms us V N B F G X. assert (NM : ms <> []) by (intros ->; destruct ns as [|n ns]; [congruence|]; destruct (proj1 (X n) (or_introl eq_refl))).
  assert (BM : Forall (fun n => 0 <= n < 65536) ms) by (rewrite Forall_forall in *; intros x H; apply B, X, H).
  destruct (nsec_parse c ls ns ts V N B F) as (ws & -> & C1 & X1). destruct (nsec_parse c ls ms us V NM BM G) as (ws' & -> & C2 & X2).
  rewrite (canonical_unique ws ws'); auto. intros x. rewrite X1, X2. apply X.
Qed.
Print Assumptions C47_order.
(** A canonical map is determined by its types; they are printed in ascending order and read back. *)
Theorem C47_canonical : forall ws ws', canonical ws -> canonical ws' -> (forall x, In x (bitmap_types ws) <-> In x (bitmap_types ws')) -> ws = ws'.
Proof. exact canonical_unique. Qed.
Print Assumptions C47_canonical.
Theorem C47_print : forall c ls ws, valid_name ls -> canonical ws -> ws <> [] -> zlen (wire ls ++ concat (map window ws)) < 65536 ->
  StronglySorted Z.lt (bitmap_types ws) /\
  exists ts, Forall2 type_text (bitmap_types ws) ts /\
    rdata_to_str (wire ls ++ concat (map window ws)) (zlen (wire ls ++ concat (map window ws))) 47 c = Ok (pres_name ls ++ 32 :: join_by 32 ts) /\
    str_to_rdata (pres_name ls ++ 32 :: join_by 32 ts) 47 c = Ok (wire ls ++ concat (map window ws)).
Proof.
  intros c ls ws V C N L. split; [eapply canonical_sorted; exact C|].
  assert (WB : Forall (fun w => 1 <= zlen (snd w) <= 32) ws) by (apply Forall_forall; intros [w l] I; destruct (canonical_ge ws 0 w l C I) as (_ & _ & K & _); exact K).
  assert (BW : bytes_ok (concat (map window ws))).
  { assert (G : Forall (fun w => 0 <= fst w < 256 /\ bytes_ok (snd w) /\ zlen (snd w) <= 32) ws) by (apply Forall_forall; intros [w l] I; destruct (canonical_ge ws 0 w l C I) as (K1 & K2 & K3 & _); cbn; tauto).
    clear - G. induction G as [|[w l] ws (A1 & A2 & A3) G IH]; [constructor|]. cbn [map concat fst snd] in *. apply bytes_ok_app. split; [|exact IH]. unfold window. cbn [fst snd]. apply bytes_ok_cons. split; [unfold is_byte; lia|]. apply bytes_ok_cons. split; [unfold is_byte; pose proof (zlen_nonneg _ l); lia|auto]. }
  assert (NW : concat (map window ws) <> []) by (destruct ws; [congruence|discriminate]).
  set (vs := [VName ls; VOctets (concat (map window ws))]).
  assert (W : wf_values (format_of 47 c) vs).
  { change (format_of 47 c) with [FName; FTypes]. apply wv_name; auto. apply wv_octets; auto; [|constructor]. exists ws. auto. }
  assert (E : canon vs = wire ls ++ concat (map window ws)) by (unfold canon, vs; cbn [map concat canon1]; rewrite app_nil_r; reflexivity).
  destruct (rdata_print [] 47 c vs [] ltac:(lia) eq_refl W ltac:(lia) ltac:(rewrite E; exact L) ltac:(constructor)) as (toks & FT & _ & P).
  assert (R : all_readable (presentation_of 47) vs). { cbn. split; [auto|]. split; [|auto]. exists ws. auto. }
  change (presentation_of 47) with [PName; PTypes] in FT. inversion FT as [|p ps v vs' tk tk' F1 F2]; subst. inversion F2 as [|p1 ps1 v1 vs1 tk1 tk2 F3 F4]; subst. inversion F4; subst.
  inversion F1; subst. inversion F3 as [| | | | | | | | | | | | | | | | |ws' ts T EW|]; subst. match goal with K : concat (map window ws') = _ |- _ => apply windows_unique in K; subst ws' end. exists tk1. split; [exact T|].
  assert (NT : tk1 <> []). { destruct ws as [|[w l] ws]; [congruence|]. destruct C as (_ & B & LL & NL & _). destruct (window_has w l B LL NL) as (x & X & _). intros ->. inversion T as [EQ|]. unfold bitmap_types in EQ. cbn [map concat] in EQ. symmetry in EQ. apply app_eq_nil in EQ as [EQ _]. rewrite EQ in X. contradiction. }
  rewrite app_nil_r in *. assert (J : join_by 32 ([pres_name ls] ++ tk1) = pres_name ls ++ 32 :: join_by 32 tk1) by (cbn [app]; apply join_cons; auto).
  split.
  - unfold rdata_to_str. rewrite E, app_nil_r in P. rewrite P. cbn [app] in *. rewrite J. reflexivity.
  - rewrite <- E, <- J. apply rdata_parse with (t := 47) (c := c); auto; [lia|]. exists ([pres_name ls] ++ tk1). split; [exact FT|reflexivity].
Qed.
Print Assumptions C47_print.
Example C47_ex : str_to_rdata (lit ". TYPE1234 A MX RRSIG NSEC A") 47 1 =
  Ok ([0] ++ concat (map window [(0, [64; 1; 0; 0; 0; 3]); (4, repeat 0 26 ++ [32])])) /\
  canonical [(0, [64; 1; 0; 0; 0; 3]); (4, repeat 0 26 ++ [32])].
Proof. split; [vm_compute; reflexivity|]. cbn. repeat split; try lia; repeat constructor; cbn; lia. Qed.

(** ** C48: round trip *)
Lemma readable_plain : forall t c vs, (t = 64 \/ t = 65) -> wf_values (format_of t c) vs -> has_fields t c = true -> all_readable (presentation_of t) vs -> plain_values vs.
Proof.
  intros t c vs T W H R l ps I EL PO.
  assert (EF : format_of t c = [FFixed 2; FName; FParams] /\ presentation_of t = [PDec; PName; PParams]).
  { destruct T as [-> | ->]; (split; [|reflexivity]); unfold has_fields, format_of in *; cbn in *; destruct c as [|[]|]; first [discriminate|reflexivity]. }
  destruct EF as [E1 E2]. rewrite E1 in W. rewrite E2 in R.
  inversion W as [| |f fs l1 vs1 F1 B1 N1 T1 W1]; subst; [contradiction|]. destruct I as [I|I].
  { injection I as ->. exfalso. cbn [field_octets] in F1. destruct ps as [|[k v] ps]; [apply N1; reflexivity|]. cbn [map concat] in F1. unfold param, u16 in F1. cbn [fst snd app] in F1. rewrite !zlen_cons in F1. match type of F1 with zlen ?q + _ + _ + _ + _ = _ => pose proof (zlen_nonneg _ q) end. lia. }
  inversion W1 as [|? ls vs2 V2 W2|f2 fs2 l2 vs2 F2 B2 N2 T2 W2]; subst; [contradiction| |cbn in F2; contradiction]. destruct I as [I|I]; [discriminate|].
  inversion W2 as [| |f fs l3 vs3 F3 B3 N3 T3 W3]; subst; [contradiction|]. destruct I as [I|I].
  - injection I as ->. cbn [all_readable readable] in R. destruct R as (_ & _ & R & _). specialize (R ps eq_refl PO). eapply Forall_impl; [|exact R]. intros kv [K _]. exact K.
  - inversion W3; subst. contradiction.
Qed.
(** Every supported type, every well-formed rdata, apart from those named by [all_readable] in SpecText.v: type covered 0
    (RRSIG), bit maps that are not canonical, A6 prefixes that contradict the presence of the prefix name, SvcParams with an
    empty list or alpn-id at the end or more than 189 octets of ech. *)
Theorem C48_roundtrip_partial : forall t c vs, t <> 41 -> has_fields t c = true -> wf_values (format_of t c) vs -> all_readable (presentation_of t) vs -> zlen (canon vs) < 65536 ->
  exists s, rdata_to_str (canon vs) (zlen (canon vs)) t c = Ok s /\ str_to_rdata s t c = Ok (canon vs).
Proof.
  intros t c vs N H W R L. destruct (C60_fields t c vs [] N H W ltac:(intros T; eapply readable_plain; eauto) L ltac:(constructor)) as (s & P & T). rewrite app_nil_r in P.
  exists s. split; [exact P|]. eapply C61_fields; eauto.
Qed.
Print Assumptions C48_roundtrip_partial.
(** Of the types that have neither of these fields, every well-formed rdata makes the round trip. *)
Theorem C48_all : forall t c vs, has_fields t c = true -> wf_values (format_of t c) vs -> zlen (canon vs) < 65536 ->
  ~ In t [38; 41; 46; 47; 50; 62; 64; 65] ->
  exists s, rdata_to_str (canon vs) (zlen (canon vs)) t c = Ok s /\ str_to_rdata s t c = Ok (canon vs).
Proof.
  intros t c vs H W L N. apply C48_roundtrip_partial; auto; [intros ->; apply N; cbn; tauto|].
  assert (K : forallb (fun e : Z * list pres => existsb (Z.eqb (fst e)) [38; 41; 46; 47; 50; 62; 64; 65] || forallb (fun p => match p with PType | PTypes | PPrefix6 | PParams => false | _ => true end) (snd e)) rr_presentation = true) by (vm_compute; reflexivity).
  assert (G : forallb (fun p => match p with PType | PTypes | PPrefix6 | PParams => false | _ => true end) (presentation_of t) = true).
  { unfold presentation_of. destruct (find (fun e => fst e =? t) rr_presentation) as [[i ps]|] eqn:F; [|reflexivity]. apply find_some in F as [F E]. cbn [fst] in E. apply Z.eqb_eq in E. subst i. rewrite forallb_forall in K. specialize (K _ F). cbn [fst snd] in K.
    apply orb_true_iff in K as [K|K]; [|exact K]. exfalso. apply existsb_exists in K as (x & X & E). apply Z.eqb_eq in E. subst x. auto. }
  revert G. clear. revert vs. induction (presentation_of t) as [|p ps IH]; intros vs G; [cbn; auto|]. destruct vs as [|v vs]; [cbn; auto|]. cbn [forallb all_readable] in *. apply andb_true_iff in G as [G1 G2]. split; [|apply IH; auto].
  destruct p, v; try discriminate; cbn [readable]; auto.
Qed.
Print Assumptions C48_all.
(** The full claim fails: RRSIG covering type 0; A6 with prefix length 0 and a name, or 128 and none; an alpn list ending in
    an empty id; 192 octets of ech; a bit map with a trailing zero octet; an address in class CH. *)
Theorem C48_roundtrip_refuted :
  (exists s, rdata_to_str [0; 0] 2 46 1 = Ok s /\ str_to_rdata s 46 1 = Err res_parse_error) /\
  (exists s, rdata_to_str ([0] ++ repeat 1 16 ++ wire [lit "a"]) 20 38 1 = Ok s /\ str_to_rdata s 38 1 = Err res_parse_error) /\
  (exists s, rdata_to_str [128] 1 38 1 = Ok s /\ str_to_rdata s 38 1 = Err res_parse_error) /\
  (exists s, rdata_to_str ([0; 1; 0] ++ param (1, char_string (lit "h2") ++ char_string [])) 11 64 1 = Ok s /\
             str_to_rdata s 64 1 = Ok ([0; 1; 0] ++ param (1, char_string (lit "h2")) ++ [0])) /\
  (exists s, rdata_to_str ([0; 1; 0] ++ param (5, repeat 7 192)) 199 64 1 = Ok s /\ str_to_rdata s 64 1 = Err res_parse_error) /\
  (exists s, rdata_to_str ([0] ++ [0; 2; 64; 0]) 5 47 1 = Ok s /\ str_to_rdata s 47 1 = Ok ([0] ++ [0; 1; 64])) /\
  (exists s, rdata_to_str [1; 2; 3; 4] 4 1 3 = Ok s /\ str_to_rdata s 1 3 = Ok []).
Proof. repeat split; (eexists; split; [vm_compute; reflexivity|vm_compute; reflexivity]). Qed.
Print Assumptions C48_roundtrip_refuted.
Example C48_ex : wf_values (format_of 33 1) [VOctets [0; 1]; VOctets [0; 2]; VOctets [1; 187]; VName [lit "Srv"; [46; 92; 200]]] /\
  rdata_to_str ([0; 1; 0; 2; 1; 187] ++ wire [lit "Srv"; [46; 92; 200]]) 15 33 1 = Ok (lit "1 2 443 Srv.\.\\\200.").
Proof.
  split; [|vm_compute; reflexivity]. change (format_of 33 1) with [FFixed 2; FFixed 2; FFixed 2; FName].
  repeat (apply wv_octets; [reflexivity|repeat (constructor; try (unfold is_byte; lia))|discriminate|discriminate|]). apply wv_name; [|constructor]. split; [|vm_compute; discriminate].
  repeat constructor; vm_compute; try discriminate; auto.
Qed.

(** ** C49: generic encoding *)
Theorem C49_roundtrip : forall t c l, find (fun e => fst e =? t) rr_formats = None -> bytes_ok l -> zlen l < 65536 ->
  exists s, rdata_to_str l (zlen l) t c = Ok s /\ generic_text l s /\ str_to_rdata s t c = Ok l.
Proof.
  intros t c l F B L. destruct (C60_generic t c l [] F B L) as (s & P & G). rewrite app_nil_r in P. exists s. split; [exact P|]. split; [exact G|]. destruct G as (d & h & D & H & ->).
  rewrite (C61_generic t c (zlen l) d l h F D L) by (apply generic_spaced; exact H). rewrite Z.eqb_refl. reflexivity.
Qed.
Print Assumptions C49_roundtrip.
(** A declared length below 65536 that differs from the number of octets is rejected. *)
Theorem C49_mismatch_partial : forall t c n d l h, find (fun e => fst e =? t) rr_formats = None -> decimal n d -> n < 65536 -> spaced_hex l h -> zlen l <> n ->
  str_to_rdata (lit "\# " ++ d ++ [32] ++ h) t c = Err res_parse_error.
Proof. intros t c n d l h F D B H N. rewrite (C61_generic t c n d l h F D B H). replace (zlen l =? n) with false by lia. reflexivity. Qed.
Print Assumptions C49_mismatch_partial.
(** Larger ones are taken modulo 65536. *)
Theorem C49_mismatch_refuted : forall t c n d l h, find (fun e => fst e =? t) rr_formats = None -> decimal n d -> n < 2 ^ 64 -> spaced_hex l h ->
  str_to_rdata (lit "\# " ++ d ++ [32] ++ h) t c = if zlen l =? n mod 65536 then Ok l else Err res_parse_error.
Proof. exact generic_parse. Qed.
Print Assumptions C49_mismatch_refuted.
(** The octets are written as pairs of digits: one left over at the end of the text makes the parser reject the text. *)
Theorem C49_odd_digits : forall t c n d l h x, find (fun e => fst e =? t) rr_formats = None -> decimal n d -> n < 2 ^ 64 -> spaced_hex l h -> ~ white x ->
  str_to_rdata (lit "\# " ++ d ++ [32] ++ h ++ [x]) t c = Err res_parse_error.
Proof. intros t c n d l h x F D B H W. apply (generic_odd t c n d l h x F D B H). unfold isspace. unfold white in W. lia. Qed.
Print Assumptions C49_odd_digits.
Example C49_ex : str_to_rdata (lit "\# 65538 AB cd") 65400 1 = Ok [171; 205] /\ str_to_rdata (lit "\# 3 abcd") 65400 1 = Err res_parse_error /\
  find (fun e : Z * (bool * list fmt) => fst e =? 65400) rr_formats = None /\ spaced_hex [171; 205] (lit "AB cd").
Proof.
  repeat split; try (vm_compute; reflexivity). change (lit "AB cd") with [65; 66; 32; 99; 100]. apply (sh_octet 65 66 10 11 [205]); [apply (hd_upp 65); lia|apply (hd_upp 66); lia|]. apply sh_white; [left; reflexivity|].
  apply (sh_octet 99 100 12 13 []); [apply (hd_low 99); lia|apply (hd_low 100); lia|constructor].
Qed.
Example C49_odd_ex : spaced_hex [171; 205] (lit "AB cd") /\ ~ white 101 /\ str_to_rdata (lit "\# 2 AB cde") 65400 1 = Err res_parse_error /\ str_to_rdata (lit "\# 3 AB cde ") 65400 1 = Ok [171; 205; 14].
Proof. split; [apply C49_ex|]. split; [unfold white; lia|]. split; vm_compute; reflexivity. Qed.

(** ** C53: integer fields *)

(** For every type with an integer field of [n] octets: the text of the fields before it and then the token [x]. *)
Theorem C53_accepted : forall t c fs1 n fs2 ps1 ps2 vs toks x, t <> 41 -> has_fields t c = true -> format_of t c = fs1 ++ FFixed n :: fs2 -> presentation_of t = ps1 ++ PDec :: ps2 ->
  length fs1 = length ps1 -> length vs = length fs1 -> wf_values fs1 vs -> fields_tokens ps1 vs toks -> all_readable ps1 vs ->
  Forall digit x -> x <> [] -> dec_value x < 256 ^ n ->
  exists l, zlen l = n /\ bytes_ok l /\ be_value l = dec_value x /\ str_to_rdata (join_by 32 (toks ++ [x])) t c = Ok (canon vs ++ l).
Proof.
  intros t c fs1 n fs2 ps1 ps2 vs toks x N H EF EP L1 L2 W F R D NX V. exists (be_octets (Z.to_nat n) (dec_value x)).
  assert (P : 0 <= n) by (destruct (Z.lt_ge_cases n 0) as [K|K]; [|lia]; rewrite Z.pow_neg_r in V by lia; pose proof (dec_value_nonneg x D); lia).
  pose proof (dec_value_nonneg x D). destruct (be_octets_spec (Z.to_nat n) (dec_value x)) as (B & L & E); [rewrite Z2Nat.id by lia; lia|]. rewrite Z2Nat.id in L by lia. split; [auto|]. split; [auto|]. split; [auto|].
  rewrite (integer_parse t c fs1 n fs2 ps1 ps2 vs toks x N H EF EP L1 L2 W F R (digit_visible x D) NX). rewrite digits_forallb by auto. replace (dec_value x <? 256 ^ n) with true by lia. reflexivity.
Qed.
Print Assumptions C53_accepted.
Theorem C53_rejected : forall t c fs1 n fs2 ps1 ps2 vs toks x, t <> 41 -> has_fields t c = true -> format_of t c = fs1 ++ FFixed n :: fs2 -> presentation_of t = ps1 ++ PDec :: ps2 ->
  length fs1 = length ps1 -> length vs = length fs1 -> wf_values fs1 vs -> fields_tokens ps1 vs toks -> all_readable ps1 vs ->
  Forall (fun c => 33 <= c <= 126) x -> x <> [] -> ~ (Forall digit x /\ dec_value x < 256 ^ n) ->
  str_to_rdata (join_by 32 (toks ++ [x])) t c = Err res_parse_error.
Proof.
  intros t c fs1 n fs2 ps1 ps2 vs toks x N H EF EP L1 L2 W F R D NX V.
  rewrite (integer_parse t c fs1 n fs2 ps1 ps2 vs toks x N H EF EP L1 L2 W F R D NX). destruct (forallb is_digit x) eqn:E; [|reflexivity]. destruct (Z.ltb_spec (dec_value x) (256 ^ n)); [|reflexivity]. exfalso. apply V. split; [|auto].
  apply Forall_forall. intros y Y. rewrite forallb_forall in E. apply is_digit_spec. auto.
Qed.
Print Assumptions C53_rejected.
Example C53_ex : format_of 33 1 = [FFixed 2; FFixed 2] ++ FFixed 2 :: [FName] /\ presentation_of 33 = [PDec; PDec] ++ PDec :: [PName] /\
  str_to_rdata (lit "1 2 65535") 33 1 = Ok [0; 1; 0; 2; 255; 255] /\ str_to_rdata (lit "1 2 65536") 33 1 = Err res_parse_error /\
  str_to_rdata (lit "1 2 0000000000000000000000000012") 33 1 = Ok [0; 1; 0; 2; 0; 12] /\ str_to_rdata (lit "1 2 18446744073709551617") 33 1 = Err res_parse_error /\
  str_to_rdata (lit "1 256 0 ab") 43 1 = Err res_parse_error /\ str_to_rdata (lit "-1 x.") 15 1 = Err res_parse_error.
Proof. repeat split; vm_compute; reflexivity. Qed.
