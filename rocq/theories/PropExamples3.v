(** PropExamples3.v: C116, C117, C118: wdns-dump-file and wdns-dump-pcap; examples for C111..C115. *)
From Coq Require Strings.String.
From Verif Require Import Base Lib SpecName SpecMessage SpecFormat SpecText SpecParsed SpecSane SpecLoose SpecFault SpecRRset SpecFold SpecDeliver SpecLibmyText SpecPrint SpecPrintMsg SpecExamples.
From Verif Require Import Libc ModelName ModelParse ModelRRset ModelToStr ModelFromStr ModelLibmyText ModelExamples.
From Verif Require Import ProofMono ProofSane ProofLibmyText ProofShow5 PropParse PropLoose PropSane PropCompose PropDeliver PropRRset PropFold PropPrintMsg PropRawText PropExamples PropExamples2.
From Verif Require Import SpecLibmyText SpecPrint SpecPrintMsg SpecExamples ModelExamples.

(** ** C116: wdns-dump-file *)
Lemma printed : forall fuel l M t, bytes_ok l -> 65535 < Z.of_nat fuel -> parse_message fuel l (zlen l) = Ok (res_success, M) -> message_to_str M = Ok t -> fputs t = t /\ message_shown M t.
Proof.
  intros fuel l M t B F P T. destruct (C52_message fuel l (zlen l) _ M t B P T) as (PL & _). split; [apply no_nul; auto|]. apply (proj1 (C106_packet fuel l M B F P) t). auto.
Qed.
Lemma zeros_ok : forall n, bytes_ok (repeat 0 n). Proof. induction n; constructor; auto. red; lia. Qed.
(** Files below 4096 octets: *)
Theorem C116_prints : forall fuel fs a0 path f o, 65535 < Z.of_nat fuel -> fs path = contents f -> bytes_ok f -> zlen f < 4096 -> ~ overreads f -> ~ hangs f ->
  (prog_dump_file fuel fs [a0; path] = Ok (says (line o) [] 0) <-> exists m, loose_message f m /\ message_shown (parsed m) o).
Proof.
  intros fuel fs a0 path f o F FS B L NO NH. unfold prog_dump_file. rewrite FS. replace (zlen f <? 4096) with true by lia. unfold process_data.
  destruct (C95_otherwise_returns fuel f B F NH NO) as (r & M & P). rewrite (message_memory _ _ (repeat 0 (Z.to_nat (4096 - zlen f))) _ _ P). cbn [bind]. split.
  - intros E. destruct r; try discriminate. destruct (message_to_str M) as [t| | |] eqn:T; try discriminate. cbn [bind] in E. destruct (printed _ _ _ _ B F P T) as (FP & SH). rewrite FP in E.
    unfold says, line in E. assert (X : t ++ [10] = o ++ [10]) by congruence. apply app_inv_tail in X. subst. apply C93_accepts_exactly in P as (m & LM & ->); auto. eauto.
  - intros (m & LM & SH). assert (P' : parse_message fuel f (zlen f) = Ok (res_success, parsed m)) by (apply C93_accepts_exactly; eauto). rewrite P' in P. assert (r = res_success) by congruence. assert (M = parsed m) by congruence. subst r M.
    apply (proj1 (C106_packet fuel f _ B F P') o) in SH. rewrite SH. cbn [bind]. destruct (printed _ _ _ _ B F P' SH) as (FP & _). rewrite FP. reflexivity.
Qed.
Print Assumptions C116_prints.
(** Every message is printed; *)
Theorem C116_message : forall fuel fs a0 path f m, 65535 < Z.of_nat fuel -> fs path = contents f -> bytes_ok f -> zlen f < 4096 -> loose_message f m ->
  exists o, prog_dump_file fuel fs [a0; path] = Ok (says (line o) [] 0) /\ message_shown (parsed m) o.
Proof.
  intros fuel fs a0 path f m F FS B L LM. assert (P : parse_message fuel f (zlen f) = Ok (res_success, parsed m)) by (apply C93_accepts_exactly; eauto).
  destruct (proj2 (C106_packet fuel f _ B F P) ltac:(lia)) as (t & T & SH). exists t. split; [|auto]. apply (C116_prints fuel fs a0 path f t); auto; [| |eauto].
  - intros H. apply (C95_overreads_exactly fuel) in H; auto. congruence.
  - intros H. pose proof (proj2 (C94_hangs_exactly f B) H fuel F). congruence.
Qed.
Print Assumptions C116_message.
(** anything else is refused without a word, *)
Theorem C116_refuses : forall fuel fs a0 path f, 65535 < Z.of_nat fuel -> fs path = contents f -> bytes_ok f -> zlen f < 4096 -> ~ overreads f -> ~ hangs f ->
  (prog_dump_file fuel fs [a0; path] = Ok (says [] [] 1) <-> forall m, ~ loose_message f m).
Proof.
  intros fuel fs a0 path f F FS B L NO NH. split.
  - intros E m LM. destruct (C116_message fuel fs a0 path f m F FS B L LM) as (o & E' & _). rewrite E in E'. discriminate.
  - intros N. unfold prog_dump_file. rewrite FS. replace (zlen f <? 4096) with true by lia. unfold process_data.
    destruct (C95_otherwise_returns fuel f B F NH NO) as (r & M & P). rewrite (message_memory _ _ (repeat 0 (Z.to_nat (4096 - zlen f))) _ _ P). cbn [bind]. destruct r; try reflexivity.
    exfalso. apply C93_accepts_exactly in P as (m & LM & _); auto. eapply N; eauto.
Qed.
Print Assumptions C116_refuses.
(** files from 4096 octets on with a message, whatever they contain. *)
Theorem C116_long : forall fuel fs a0 path f, fs path = contents f -> 4096 <= zlen f ->
  prog_dump_file fuel fs [a0; path] = Ok (says [] (line (lit "Error: did not make a complete read of " ++ path)) 1).
Proof. intros fuel fs a0 path f FS L. unfold prog_dump_file. rewrite FS. replace (zlen f <? 4096) with false by lia. unfold says, line. rewrite <- app_assoc. reflexivity. Qed.
Print Assumptions C116_long.
Theorem C116_no_file : forall fuel fs a0 path,
  (forall e, fs path = no_file e -> prog_dump_file fuel fs [a0; path] = Ok (says [] (line (lit "Error: unable to open " ++ path ++ lit ": " ++ e)) 1)) /\
  (fs path = read_error -> prog_dump_file fuel fs [a0; path] = Ok (says [] (line (lit "Error: fread() returned an error on " ++ path)) 1)).
Proof. intros fuel fs a0 path. split; [intros e FS|intros FS]; unfold prog_dump_file, says, line; rewrite FS, <- !app_assoc; reflexivity. Qed.
Print Assumptions C116_no_file.
Theorem C116_usage : forall fuel fs a0 args, length args <> 1%nat -> prog_dump_file fuel fs (a0 :: args) = Ok (says [] (line (lit "Usage: " ++ a0 ++ lit " <INFILE>")) 1).
Proof. intros fuel fs a0 args N. destruct args as [|b [|c args]]; [| exfalso; apply N; reflexivity |]; cbn [prog_dump_file]; unfold says, line; rewrite <- !app_assoc; reflexivity. Qed.
Print Assumptions C116_usage.
(** A file that ends inside a name is completed with the zeros behind it: it is printed although it is not a message. *)
Definition stray_text : bytes := lit ";; ->>HEADER<<- opcode: QUERY, rcode: NOERROR, id: 0
;; flags: qr rd ra; QUERY: 0, ANSWER: 1, AUTHORITY: 0, ADDITIONAL: 0

;; QUESTION SECTION:

;; ANSWER SECTION:
. 0 IN NS a.

;; AUTHORITY SECTION:

;; ADDITIONAL SECTION:
".
Theorem C116_zeros_complete : bytes_ok stray_pkt /\ overreads stray_pkt /\ (forall m, ~ loose_message stray_pkt m) /\
  forall fs a0 path, fs path = contents stray_pkt -> prog_dump_file ex_fuel fs [a0; path] = Ok (says (line stray_text) [] 0).
Proof.
  destruct C95_ex as (B & O & _). split; [exact B|]. split; [exact O|]. split.
  - intros m LM. assert (P : parse_message ex_fuel stray_pkt (zlen stray_pkt) = Ok (res_success, parsed m)) by (apply C93_accepts_exactly; eauto using ex_fuel_ok).
    apply (C95_overreads_exactly ex_fuel) in O; auto using ex_fuel_ok. congruence.
  - intros fs a0 path FS. unfold prog_dump_file. rewrite FS. vm_compute. reflexivity.
Qed.
Print Assumptions C116_zeros_complete.
Example C116_ex : forall fs a0 path, fs path = contents odd_pkt -> exists o, prog_dump_file odd_fuel fs [a0; path] = Ok (says (line o) [] 0).
Proof.
  intros fs a0 path FS. assert (F : 65535 < Z.of_nat odd_fuel) by (unfold odd_fuel; rewrite Z2Nat.id by discriminate; reflexivity). assert (B : bytes_ok odd_pkt) by (apply bytes_okb_ok; vm_compute; reflexivity).
  assert (P : exists M, parse_message odd_fuel odd_pkt (zlen odd_pkt) = Ok (res_success, M)) by (eexists; vm_compute; reflexivity). destruct P as (M & P). apply C93_accepts_exactly in P as (m & LM & _); auto.
  destruct (C116_message odd_fuel fs a0 path odd_pkt m F FS B ltac:(reflexivity) LM) as (o & E & _). eauto.
Qed.

(** ** C117: wdns-dump-pcap on frames that are what they say *)
Lemma u16_app : forall a b r, getu16 (a :: b :: r) 0 = Ok (256 * a + b). Proof. reflexivity. Qed.
Lemma adv_eq : forall (a b : bytes) n, zlen a = n -> adv (a ++ b) n = b.
Proof. intros a b n <-. unfold adv. rewrite zlen_to_nat, skipn_app, skipn_all, Nat.sub_diag. reflexivity. Qed.
Lemma handler_frame : forall fuel f dns behind, bytes_ok f -> udp_frame f dns behind ->
  packet_handler fuel f = if zlen dns <? 12 then Ok ([], false) else
    (x <- parse_message fuel (dns ++ behind) (zlen dns) ;; match fst x with res_success => t <- message_to_str (snd x) ;; Ok (fputs t, false) | _ => Ok ([], true) end).
Proof.
  intros fuel f dns behind B (addrs & h & ihl & u & LA & (b0 & b1 & t0 & t1 & r & EH & LH & MB & TT) & LU & ->).
  apply bytes_ok_app in B as (_ & B). apply bytes_ok_app in B as (_ & B). apply bytes_ok_app in B as (BH & _). subst h. inversion BH as [|? ? R0 BH1]; subst. inversion BH1 as [|? ? R1 BH2]; subst. inversion BH2 as [|? ? R2 BH3]; subst. inversion BH3 as [|? ? R3 _]; subst.
  set (h := b0 :: b1 :: t0 :: t1 :: r) in *. set (ihl := b0 mod 16) in *. unfold is_byte in *. pose proof (Z.mod_pos_bound b0 16 ltac:(lia)) as RI. fold ihl in RI. pose proof (zlen_nonneg _ dns). pose proof (zlen_nonneg _ behind).
  unfold packet_handler. cbv zeta. assert (LF : zlen (addrs ++ [8; 0] ++ h ++ u ++ dns ++ behind) = 22 + 4 * ihl + zlen dns + zlen behind) by (rewrite !zlen_app; change (zlen [8; 0]) with 2; lia). rewrite LF.
  replace (22 + 4 * ihl + zlen dns + zlen behind <? 14) with false by lia. rewrite (adv_eq addrs _ 12 LA). change ([8; 0] ++ h ++ u ++ dns ++ behind) with (8 :: 0 :: h ++ u ++ dns ++ behind). rewrite u16_app. cbn [bind].
  change (adv (8 :: 0 :: h ++ u ++ dns ++ behind) 2) with (h ++ u ++ dns ++ behind). change (negb (256 * 8 + 0 =? 2048)) with false. cbv iota.
  change (hd_rd (h ++ u ++ dns ++ behind)) with (Ok b0). cbn [bind]. replace (Z.land b0 15) with ihl by (change 15 with (Z.ones 4); rewrite Z.land_ones by lia; reflexivity).
  replace (22 + 4 * ihl + zlen dns + zlen behind - 12 - 2 <? ihl * 4) with false by lia. change (getu16 (h ++ u ++ dns ++ behind) 2) with (Ok (256 * t0 + t1)). cbn [bind]. rewrite <- TT.
  replace (if 4 * ihl + 8 + zlen dns <? 22 + 4 * ihl + zlen dns + zlen behind - 12 - 2 then 4 * ihl + 8 + zlen dns else 22 + 4 * ihl + zlen dns + zlen behind - 12 - 2) with (4 * ihl + 8 + zlen dns) by (destruct (_ <? _) eqn:E; lia).
  rewrite (adv_eq h _ (ihl * 4)) by lia. replace (4 * ihl + 8 + zlen dns - ihl * 4) with (8 + zlen dns) by lia. rewrite Z.mod_small by (change (2 ^ 32) with 4294967296; lia).
  replace (8 + zlen dns <? 8) with false by lia. rewrite (adv_eq u _ 8 LU). replace (8 + zlen dns - 8) with (zlen dns) by lia. destruct (zlen dns <? 12); [reflexivity|].
  destruct (parse_message fuel (dns ++ behind) (zlen dns)) as [[r1 M]| | |]; reflexivity.
Qed.
Lemma frame_octets : forall f dns behind, bytes_ok f -> udp_frame f dns behind -> bytes_ok dns /\ zlen dns <= 65000 \/ bytes_ok dns /\ 65000 < zlen dns.
Proof.
  intros f dns behind B (addrs & h & ihl & u & _ & _ & _ & ->). rewrite !(fun a b : bytes => bytes_ok_app a b) in B. destruct (Z.le_gt_cases (zlen dns) 65000); tauto.
Qed.
(** A frame with a message: the text is printed. *)
Theorem C117_prints : forall fuel f dns behind m, 65535 < Z.of_nat fuel -> bytes_ok f -> udp_frame f dns behind -> zlen dns <= 65000 -> loose_message dns m ->
  exists o, packet_handler fuel f = Ok (o, false) /\ message_shown (parsed m) o.
Proof.
  intros fuel f dns behind m F B U L LM. rewrite (handler_frame _ _ _ _ B U). assert (BD : bytes_ok dns) by (destruct (frame_octets _ _ _ B U); tauto).
  assert (P : parse_message fuel dns (zlen dns) = Ok (res_success, parsed m)) by (apply C93_accepts_exactly; eauto).
  assert (L12 : 12 <= zlen dns). { destruct LM as (i0 & i1 & f0 & f1 & q0 & q1 & a0 & a1 & n0 & n1 & r0 & r1 & j1 & j2 & j3 & j4 & O & _). apply octets_at_bound in O. cbn in O. lia. }
  replace (zlen dns <? 12) with false by lia. rewrite (message_memory _ _ behind _ _ P). cbn [bind fst snd]. destruct (proj2 (C106_packet fuel dns _ BD F P) L) as (t & T & SH). rewrite T. cbn [bind].
  destruct (printed _ _ _ _ BD F P T) as (FP & _). rewrite FP. eauto.
Qed.
Print Assumptions C117_prints.
(** Otherwise it is written to the output file, unless the datagram is shorter than a DNS header. *)
Theorem C117_dumps : forall fuel f dns behind, 65535 < Z.of_nat fuel -> bytes_ok f -> udp_frame f dns behind -> ~ overreads dns -> ~ hangs dns -> (forall m, ~ loose_message dns m) ->
  packet_handler fuel f = Ok ([], 12 <=? zlen dns).
Proof.
  intros fuel f dns behind F B U NO NH N. rewrite (handler_frame _ _ _ _ B U). assert (BD : bytes_ok dns) by (destruct (frame_octets _ _ _ B U); tauto).
  destruct (zlen dns <? 12) eqn:L; [replace (12 <=? zlen dns) with false by lia; reflexivity|]. replace (12 <=? zlen dns) with true by lia.
  destruct (C95_otherwise_returns fuel dns BD F NH NO) as (r & M & P). rewrite (message_memory _ _ behind _ _ P). cbn [bind fst snd]. destruct r; try reflexivity.
  exfalso. apply C93_accepts_exactly in P as (m & LM & _); auto. eapply N; eauto.
Qed.
Print Assumptions C117_dumps.
(** Nothing captured behind the datagram: the parser decides alone whether the handler ends and stays inside. *)
Theorem C117_alone : forall fuel f dns, 65535 < Z.of_nat fuel -> bytes_ok f -> udp_frame f dns [] -> 12 <= zlen dns -> zlen dns <= 65000 ->
  (packet_handler fuel f = NoFuel <-> hangs dns) /\ (packet_handler fuel f = UB OobRead <-> overreads dns).
Proof.
  intros fuel f dns F B U L12 L. rewrite (handler_frame _ _ _ _ B U). assert (BD : bytes_ok dns) by (destruct (frame_octets _ _ _ B U); tauto). replace (zlen dns <? 12) with false by lia. rewrite app_nil_r.
  assert (H1 : hangs dns <-> parse_message fuel dns (zlen dns) = NoFuel) by (split; [intros H; exact (proj2 (C94_hangs_exactly dns BD) H fuel F)|apply C94_bound_decides; auto]).
  pose proof (C95_overreads_exactly fuel dns BD F) as H2. rewrite H1, <- H2.
  destruct (parse_message fuel dns (zlen dns)) as [[r M]|x|u|] eqn:P; cbn [bind fst snd].
  - destruct r; try (split; split; discriminate). destruct (proj2 (C106_packet fuel dns _ BD F P) L) as (t & T & SH). rewrite T. split; split; discriminate.
  - exfalso. eapply ProofFault.message_not_err; eauto.
  - split; split; try discriminate; congruence.
  - split; split; try discriminate; auto.
Qed.
Print Assumptions C117_alone.
(** Frames of another type, and frames too short for an Ethernet header, are passed over. *)
Theorem C117_not_ip : forall fuel f, zlen f < 14 \/ (exists addrs a b r, zlen addrs = 12 /\ f = addrs ++ a :: b :: r /\ is_byte a /\ is_byte b /\ (a, b) <> (8, 0)) -> packet_handler fuel f = Ok ([], false).
Proof.
  intros fuel f [L|(addrs & a & b & r & LA & -> & RA & RB & N)]; unfold packet_handler; cbv zeta.
  - replace (zlen f <? 14) with true by lia. reflexivity.
  - destruct (_ <? 14); [reflexivity|]. rewrite (adv_eq addrs _ 12 LA), u16_app. cbn [bind]. unfold is_byte in *. replace (256 * a + b =? 2048) with false; [reflexivity|]. symmetry. apply Z.eqb_neq. intros E. apply N. f_equal; lia.
Qed.
Print Assumptions C117_not_ip.
(** A capture: what is printed, in order, and the packets written, in order and unchanged. *)
Theorem C117_capture : forall fuel pkts rs, Forall2 (fun p r => packet_handler fuel p = Ok r) pkts rs ->
  pcap_loop fuel pkts = Ok (concat (map fst rs), map fst (filter (fun pr => snd (snd pr)) (combine pkts rs))).
Proof.
  intros fuel pkts rs H. induction H as [|p [o d] pkts rs E H IH]; [reflexivity|]. cbn [pcap_loop]. rewrite E. cbn [bind]. rewrite IH. cbn [bind map fst snd concat combine filter]. destruct d; reflexivity.
Qed.
Print Assumptions C117_capture.

(** ** C118: the handler stays inside the captured octets: false *)
(** Missing, and false in general: frames of type 0x0800 with a damaged IP header. Safe are those that are what they say. *)
Theorem C118_inside_partial : forall fuel f dns behind, 65535 < Z.of_nat fuel -> bytes_ok f -> udp_frame f dns behind -> zlen dns <= 65000 -> ~ overreads dns -> ~ hangs dns ->
  exists r, packet_handler fuel f = Ok r.
Proof.
  intros fuel f dns behind F B U L NO NH. rewrite (handler_frame _ _ _ _ B U). assert (BD : bytes_ok dns) by (destruct (frame_octets _ _ _ B U); tauto). destruct (zlen dns <? 12) eqn:L12; [eauto|].
  destruct (C95_otherwise_returns fuel dns BD F NH NO) as (r & M & P). rewrite (message_memory _ _ behind _ _ P). cbn [bind fst snd]. destruct r; eauto.
  destruct (proj2 (C106_packet fuel dns _ BD F P) L) as (t & T & SH). rewrite T. cbn [bind]. eauto.
Qed.
Print Assumptions C118_inside_partial.
(** A frame that ends behind the type: the IP header is read although there is none. *)
Theorem C118_short_refuted : forall fuel addrs, zlen addrs = 12 -> packet_handler fuel (addrs ++ [8; 0]) = UB OobRead.
Proof.
  intros fuel addrs L. unfold packet_handler. cbv zeta. rewrite zlen_app, L. change (12 + zlen [8; 0] <? 14) with false. cbv iota. rewrite (adv_eq addrs _ 12 L), u16_app. reflexivity.
Qed.
Print Assumptions C118_short_refuted.
(** A total length below the header length: the length left wraps to almost 2^32, whatever was captured. *)
Theorem C118_wrap_refuted : forall fuel addrs h ihl total u dns, zlen addrs = 12 -> bytes_ok h -> ip_header h ihl total -> total < 4 * ihl -> zlen u = 8 ->
  packet_handler fuel (addrs ++ [8; 0] ++ h ++ u ++ dns) =
    (x <- parse_message fuel dns (2 ^ 32 + total - 4 * ihl - 8) ;; match fst x with res_success => t <- message_to_str (snd x) ;; Ok (fputs t, false) | _ => Ok ([], true) end).
Proof.
  intros fuel addrs h ihl total u dns LA BH (b0 & b1 & t0 & t1 & r & EH & LH & MB & TT) LT LU. subst h. inversion BH as [|? ? R0 BH1]; subst. inversion BH1 as [|? ? R1 BH2]; subst. inversion BH2 as [|? ? R2 BH3]; subst. inversion BH3 as [|? ? R3 _]; subst.
  set (h := b0 :: b1 :: t0 :: t1 :: r) in *. set (ihl := b0 mod 16) in *. unfold is_byte in *. pose proof (Z.mod_pos_bound b0 16 ltac:(lia)) as RI. fold ihl in RI. pose proof (zlen_nonneg _ dns).
  unfold packet_handler. cbv zeta. assert (LF : zlen (addrs ++ [8; 0] ++ h ++ u ++ dns) = 22 + 4 * ihl + zlen dns) by (rewrite !zlen_app; change (zlen [8; 0]) with 2; lia). rewrite LF.
  replace (22 + 4 * ihl + zlen dns <? 14) with false by lia. rewrite (adv_eq addrs _ 12 LA). change ([8; 0] ++ h ++ u ++ dns) with (8 :: 0 :: h ++ u ++ dns). rewrite u16_app. cbn [bind].
  change (adv (8 :: 0 :: h ++ u ++ dns) 2) with (h ++ u ++ dns). change (negb (256 * 8 + 0 =? 2048)) with false. cbv iota.
  change (hd_rd (h ++ u ++ dns)) with (Ok b0). cbn [bind]. replace (Z.land b0 15) with ihl by (change 15 with (Z.ones 4); rewrite Z.land_ones by lia; reflexivity).
  replace (22 + 4 * ihl + zlen dns - 12 - 2 <? ihl * 4) with false by lia. change (getu16 (h ++ u ++ dns) 2) with (Ok (256 * t0 + t1)). cbn [bind].
  replace (256 * t0 + t1 <? 22 + 4 * ihl + zlen dns - 12 - 2) with true by lia. rewrite (adv_eq h _ (ihl * 4)) by lia.
  replace ((256 * t0 + t1 - ihl * 4) mod 2 ^ 32) with (2 ^ 32 + (256 * t0 + t1) - 4 * ihl) by (change (2 ^ 32) with 4294967296; apply (Z.mod_unique _ _ (-1)); lia).
  change (2 ^ 32) with 4294967296 in *. replace (4294967296 + (256 * t0 + t1) - 4 * ihl <? 8) with false by lia. rewrite (adv_eq u _ 8 LU). replace (4294967296 + (256 * t0 + t1) - 4 * ihl - 8 <? 12) with false by lia.
  destruct (parse_message fuel dns _) as [[r1 M]| | |]; reflexivity.
Qed.
Print Assumptions C118_wrap_refuted.
(** Such a frame, with an ordinary query cut inside its name: read beyond the capture; with its length right it would be dumped. *)
Definition eth : bytes := [2;0;0;0;0;1; 2;0;0;0;0;2].
Definition ip20 (total : Z) : bytes := [69;0;total / 256;total mod 256; 0;0;0;0;64;17;0;0; 192;0;2;1; 192;0;2;2].
Definition udp8 : bytes := [0;53;0;53;0;0;0;0].
Definition cut_query : bytes := [0;1;1;0;0;1;0;0;0;0;0;0; 3;97].
Example C118_ex : ip_header (ip20 10) 5 10 /\ packet_handler ex_fuel (eth ++ [8; 0] ++ ip20 10 ++ udp8 ++ cut_query) = UB OobRead /\
  udp_frame (eth ++ [8; 0] ++ ip20 42 ++ udp8 ++ cut_query) cut_query [] /\ packet_handler ex_fuel (eth ++ [8; 0] ++ ip20 42 ++ udp8 ++ cut_query) = Ok ([], true).
Proof.
  assert (H : forall n, 0 <= n < 256 -> ip_header (ip20 n) 5 n). { intros n R. unfold ip_header, ip20. do 5 eexists. split; [reflexivity|]. split; [reflexivity|]. split; [reflexivity|]. pose proof (Z.div_mod n 256 ltac:(lia)). lia. }
  split; [apply H; lia|]. split; [vm_compute; reflexivity|]. split; [|vm_compute; reflexivity]. exists eth, (ip20 42), 5, udp8. split; [reflexivity|]. split; [exact (H 42 ltac:(lia))|]. split; reflexivity.
Qed.
Example C117_ex : udp_frame (eth ++ [8; 0] ++ ip20 (28 + zlen odd_pkt) ++ udp8 ++ odd_pkt ++ [0; 0]) odd_pkt [0; 0] /\
  exists o, packet_handler odd_fuel (eth ++ [8; 0] ++ ip20 (28 + zlen odd_pkt) ++ udp8 ++ odd_pkt ++ [0; 0]) = Ok (o, false) /\ zlen o = 359.
Proof.
  split; [exists eth, (ip20 (28 + zlen odd_pkt)), 5, udp8; split; [reflexivity|]; split; [unfold ip_header, ip20; do 5 eexists; split; [reflexivity|]; repeat split; reflexivity|]; split; reflexivity|].
  eexists. split; vm_compute; reflexivity.
Qed.

(** ** Examples for C111..C115 *)
Example C111_ex : spells (lit "00fFa9") [0; 255; 169] /\ (forall l, ~ spells (lit "00f") l) /\ (forall l, ~ spells (lit "0g") l) /\ (forall l, ~ spells [] l).
Proof.
  assert (K : forall s, zlen s < 2 ^ 63 -> hex_decode s = Ok None -> forall l, ~ spells s l). { intros s L E l S. pose proof (decode_spelt _ _ S) as D. unfold driver_decode in D. rewrite E in D. discriminate. }
  split; [|split; [apply K; reflexivity|split; apply K; reflexivity]]. split; [discriminate|]. split; [reflexivity|]. destruct (PropLibmyText.C78_hex_decode (lit "00fFa9") ltac:(reflexivity)) as (r & E & R). apply R. vm_compute in E. congruence.
Qed.
(** The sample message through three programs: printed; serialised; each line printed again. *)
Definition arg : bytes := concat (map (fun c => [hex_char (c / 16); hex_char (c mod 16)]) odd_pkt).
Example C112_ex : spells arg odd_pkt /\ exists o, prog_print_message odd_fuel [[]; arg] = Ok (says o [] 0) /\ zlen o = 359.
Proof.
  split; [|eexists; split; vm_compute; reflexivity]. destruct (PropLibmyText.C78_hex_decode arg ltac:(reflexivity)) as (r & E & R). assert (X : hex_decode arg = Ok (Some odd_pkt)) by (vm_compute; reflexivity). assert (H : r = Some odd_pkt) by congruence. apply R in H as (N & H). split; [auto|]. split; [reflexivity|auto].
Qed.
Example C115_ex : prog_serialize false odd_fuel [[]; arg] = Ok (says [] (line (lit "03016100010001003c00000001000400c0000201")) 0) /\
  prog_deserialize false [[]; lit "03016100010001003c00000001000400c0000201"] = Ok (says (line (lit "a. 60 IN A 192.0.2.1")) [] 0) /\
  prog_downcase false [[]; lit "0301410002000100000000000100040002415A00"] = Ok (says (line (lit "a. 0 IN NS az.")) [] 0).
Proof. repeat split; vm_compute; reflexivity. Qed.
(** An NS rdata with an octet behind its name: the downcase program prints nothing and exits with 0; with too few octets it is refused. *)
Example C114_ex : prog_downcase false [[]; lit "03014100020001000000000001000500024241005a"] = Ok (says [] [] 0) /\
  prog_downcase false [[]; lit "03014100020001000000000001000500024241"] = Ok (says [] (line (lit "Error: load function failed")) 1) /\
  exists o, prog_deserialize false [[]; lit "03014100020001000000000001000500024241005a"] = Ok (says o [] 0) /\ o <> [].
Proof. split; [vm_compute; reflexivity|]. split; [vm_compute; reflexivity|]. eexists. split; [vm_compute; reflexivity|discriminate]. Qed.
