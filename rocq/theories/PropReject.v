(** PropReject.v: C101, the return code of wdns_parse_message on every packet it rejects.  Specification: SpecReject.v. *)
From Verif Require Import Base Lib SpecName ModelName ModelParse SpecMessage SpecParsed SpecLoose SpecFault SpecReject
  ProofRdata ProofGroup ProofMessage ProofLoose2 ProofFault ProofReject PropParse PropLoose.

(** C101.  A code other than success is returned exactly for the packets that are wrong in the way of that code. *)
Theorem C101_code_exactly : forall fuel pkt e, bytes_ok pkt -> 65535 < Z.of_nat fuel ->
  ((e <> res_success /\ exists M, parse_message fuel pkt (zlen pkt) = Ok (e, M)) <-> message_wrong pkt e).
Proof. exact message_err. Qed.
Print Assumptions C101_code_exactly.

(** C101.  A packet is wrong in at most one way. *)
Theorem C101_one_code : forall pkt e e', bytes_ok pkt -> message_wrong pkt e -> message_wrong pkt e' -> e = e'.
Proof.
  intros pkt e e' Hm W W'. apply (message_err ex_fuel) in W as (_ & M & E); auto using ex_fuel_ok. apply (message_err ex_fuel) in W' as (_ & M' & E'); auto using ex_fuel_ok. congruence.
Qed.
Print Assumptions C101_one_code.

(** C101.  Every packet is in exactly one of four classes: it has a content, it is wrong, the call does not return, or it reads
    outside the packet. *)
Theorem C101_four_classes : forall pkt, bytes_ok pkt ->
  let good := exists s, loose_message pkt s in let bad := exists e, message_wrong pkt e in
  (good \/ bad \/ hangs pkt \/ overreads pkt) /\
  ~ (good /\ bad) /\ ~ (good /\ hangs pkt) /\ ~ (good /\ overreads pkt) /\ ~ (bad /\ hangs pkt) /\ ~ (bad /\ overreads pkt) /\ ~ (hangs pkt /\ overreads pkt).
Proof.
  intros pkt Hm good bad.
  assert (G : good <-> exists M, parse_message ex_fuel pkt (zlen pkt) = Ok (res_success, M)).
  { split; [intros (s & L); exists (parsed s); apply (C93_accepts_exactly ex_fuel); eauto using ex_fuel_ok|]. intros (M & E). apply C93_accepts_exactly in E as (s & L & _); auto using ex_fuel_ok. exists s. auto. }
  assert (B : bad <-> exists e M, e <> res_success /\ parse_message ex_fuel pkt (zlen pkt) = Ok (e, M)).
  { split; [intros (e & W); apply (message_err ex_fuel) in W as (N & M & E); auto using ex_fuel_ok; exists e, M; auto|]. intros (e & M & N & E). exists e. apply (message_err ex_fuel); eauto using ex_fuel_ok. }
  assert (H : hangs pkt <-> parse_message ex_fuel pkt (zlen pkt) = NoFuel).
  { split; [intros X; apply (C94_hangs_exactly pkt Hm); auto using ex_fuel_ok|]. intros E. eapply C94_bound_decides; eauto using ex_fuel_ok. }
  assert (O : overreads pkt <-> parse_message ex_fuel pkt (zlen pkt) = UB OobRead) by (symmetry; apply C95_overreads_exactly; auto using ex_fuel_ok).
  rewrite G, B, H, O. clear G B H O good bad. split.
  - destruct (parse_message ex_fuel pkt (zlen pkt)) as [[r M]|e|f|] eqn:E; auto.
    + destruct r; try (right; left; eexists _, _; split; [|reflexivity]; discriminate). left. eauto.
    + exfalso. eapply message_not_err; eauto using ex_fuel_ok.
    + right. right. right. f_equal. eapply message_oo; eauto using ex_fuel_ok.
  - split; [intros ((M & E) & e & M' & N & E'); congruence|]. split; [intros ((M & E) & E'); congruence|]. split; [intros ((M & E) & E'); congruence|].
    split; [intros ((e & M & _ & E) & E'); congruence|]. split; [intros ((e & M & _ & E) & E'); congruence|]. intros (E & E'). congruence.
Qed.
Print Assumptions C101_four_classes.

(** C101.  The seven codes. *)
Theorem C101_codes : forall pkt e, bytes_ok pkt -> message_wrong pkt e ->
  In e [res_len; res_parse_error; res_overflow; res_out_of_bounds; res_name_overflow; res_invalid_length_octet; res_invalid_compression_pointer].
Proof.
  intros pkt e Hm W. pose proof W as W0. apply (message_err ex_fuel) in W as (N & M & E); auto using ex_fuel_ok.
  destruct (loose_message_sound _ _ _ _ Hm ex_fuel_ok E) as [(-> & _)|[(_ & -> & _)|(_ & R & _)]]; [congruence|left; auto|]. cbn in R |- *. intuition.
Qed.
Print Assumptions C101_codes.

(** C101.  What is left in the message structure then: no RRs, no RRsets, no EDNS data; the identifier and the flags are those
    of the header, or zero if there is no complete header. *)
Theorem C101_left_behind : forall fuel pkt e M, bytes_ok pkt -> 65535 < Z.of_nat fuel -> e <> res_success -> parse_message fuel pkt (zlen pkt) = Ok (e, M) ->
  (forall sec, a_rrs (get_sec M sec) = [] /\ a_rrsets (get_sec M sec) = []) /\ e_present (m_edns M) = false /\ e_options (m_edns M) = None /\
  (zlen pkt < 12 /\ m_id M = 0 /\ m_flags M = 0 \/
   exists i0 i1 f0 f1, octets_at pkt 0 [i0; i1; f0; f1] /\ m_id M = i0 * 256 + i1 /\ m_flags M = f0 * 256 + f1).
Proof.
  intros fuel pkt e M Hm Hf N E. destruct (loose_message_sound _ _ _ _ Hm Hf E) as [(-> & _)|[(L & _ & ->)|(L & R & l & i0 & i1 & f0 & f1 & O & -> & F)]]; [congruence| |].
  - split; [intros sec; unfold get_sec; destruct (sec =? 0), (sec =? 1), (sec =? 2); split; reflexivity|]. split; [reflexivity|]. split; [reflexivity|]. left. auto.
  - split; [intros sec; unfold get_sec; destruct (sec =? 0), (sec =? 1), (sec =? 2); split; reflexivity|]. split; [reflexivity|]. split; [reflexivity|]. right. exists i0, i1, f0, f1. split; [auto|]. split; reflexivity.
Qed.
Print Assumptions C101_left_behind.

(** One packet for each code, and packets of the other classes. *)
Definition bad_header (q a : Z) : bytes := [171; 205; 129; 128; 0; q; 0; a; 0; 0; 0; 0].
Definition code_of (pkt : bytes) : option res := match parse_message ex_fuel pkt (zlen pkt) with Ok (r, _) => Some r | _ => None end.
Lemma code_wrong : forall pkt e, bytes_ok pkt -> code_of pkt = Some e -> e <> res_success -> message_wrong pkt e.
Proof.
  intros pkt e Hm E N. unfold code_of in E. destruct (parse_message ex_fuel pkt (zlen pkt)) as [[r M]|x|f|] eqn:P; try discriminate. apply (message_err ex_fuel); auto using ex_fuel_ok. split; [auto|]. exists M. congruence.
Qed.
Ltac wrong := apply code_wrong; [apply bytes_okb_ok; reflexivity|vm_compute; reflexivity|discriminate].
Example C101_ex_len : message_wrong [171; 205] res_len. Proof. wrong. Qed.
(** A question without type and class. *)
Example C101_ex_parse : message_wrong (bad_header 1 0 ++ [1; 97; 0; 0; 1]) res_parse_error. Proof. wrong. Qed.
(** An A record that announces 4 octets of rdata and has 3; an A record with 3, and one with 5 octets of rdata. *)
Example C101_ex_overflow : message_wrong (bad_header 0 1 ++ [0; 0; 1; 0; 1; 0; 0; 0; 0; 0; 4; 1; 2; 3]) res_overflow. Proof. wrong. Qed.
Example C101_ex_short : message_wrong (bad_header 0 1 ++ [0; 0; 1; 0; 1; 0; 0; 0; 0; 0; 3; 1; 2; 3]) res_parse_error. Proof. wrong. Qed.
Example C101_ex_left : message_wrong (bad_header 0 1 ++ [0; 0; 1; 0; 1; 0; 0; 0; 0; 0; 5; 1; 2; 3; 4; 5]) res_out_of_bounds. Proof. wrong. Qed.
(** A label that does not fit, an unknown label type, a pointer to itself, names that are too long by pointing back. *)
Example C101_ex_label : message_wrong (bad_header 1 0 ++ [9; 97; 0; 0; 1; 0; 1]) res_out_of_bounds. Proof. wrong. Qed.
Example C101_ex_type : message_wrong (bad_header 1 0 ++ [64; 97; 0; 0; 1; 0; 1]) res_invalid_length_octet. Proof. wrong. Qed.
Example C101_ex_pointer : message_wrong (bad_header 1 0 ++ [192; 12; 0; 0; 1; 0; 1]) res_invalid_compression_pointer. Proof. wrong. Qed.
Example C101_ex_name : message_wrong (bad_header 1 0 ++ flat_map (fun _ => 63 :: repeat 97 63) [1; 2; 3; 4] ++ [0; 0; 1; 0; 1]) res_name_overflow. Proof. wrong. Qed.
(** A SVCB record whose port is 3 octets long, after a good parameter; a bit map window of length 0. *)
Example C101_ex_param : message_wrong (bad_header 0 1 ++ [0; 0; 64; 0; 1; 0; 0; 0; 0; 0; 14; 0; 1; 0; 0; 2; 0; 0; 0; 3; 0; 3; 1; 2; 3]) res_parse_error. Proof. wrong. Qed.
Example C101_ex_window : message_wrong (bad_header 0 1 ++ [0; 0; 47; 0; 1; 0; 0; 0; 0; 0; 3; 0; 0; 0]) res_out_of_bounds. Proof. wrong. Qed.
Example C101_ex_classes : (exists s, loose_message ex_pkt s) /\ hangs loop_pkt.
Proof. split; [destruct C93_wrapped_ex as (_ & _ & _ & s & L & _); eauto|apply C94_ex]. Qed.
