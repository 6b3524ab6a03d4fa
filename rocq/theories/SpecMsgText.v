(** SpecMsgText.v: the text form of EDNS options, RRs and messages (dig-like), independently of the C code. *)
From Coq Require Strings.String.
From Verif Require Import Base Lib SpecName SpecMessage SpecEncode SpecParsed SpecFormat SpecTables SpecText Libc.

(** ** Mnemonics, or the number if there is none. *)
Definition class_text (n : Z) (s : bytes) : Prop :=
  mnemonic iana_classes n s \/ ((forall m, ~ mnemonic iana_classes n m) /\ exists d, decimal n d /\ s = lit "CLASS" ++ d).
Definition code_text (table : list (Z * String.string)) (n : Z) (s : bytes) : Prop :=
  mnemonic table n s \/ ((forall m, ~ mnemonic table n m) /\ decimal n s).

(** ** EDNS options *)

(** RFC 8914 section 5.2: extended DNS error codes. *)
Definition ede_codes : list (Z * String.string) := [
  (0, "Other Error"); (1, "Unsupported DNSKEY Algorithm"); (2, "Unsupported DS Digest Type"); (3, "Stale Answer");
  (4, "Forged Answer"); (5, "DNSSEC Indeterminate"); (6, "DNSSEC Bogus"); (7, "Signature Expired");
  (8, "Signature Not Yet Valid"); (9, "DNSKEY Missing"); (10, "RRSIGs Missing"); (11, "No Zone Key Bit Set");
  (12, "NSEC Missing"); (13, "Cached Error"); (14, "Not Ready"); (15, "Blocked"); (16, "Censored"); (17, "Filtered");
  (18, "Prohibited"); (19, "Stale NXDomain Answer"); (20, "Not Authoritative"); (21, "Not Supported");
  (22, "No Reachable Authority"); (23, "Network Error"); (24, "Invalid Data")]%string.
Definition ede_purpose_text (info : Z) (s : bytes) : Prop :=
  (exists m, In (info, m) ede_codes /\ s = lit " (" ++ lit m ++ [41]) \/ (~ In info (map fst ede_codes) /\ s = []).

(** Octets as characters, '.' for those that are not printable. *)
Definition shown (l : bytes) : bytes := map (fun c => if (32 <=? c) && (c <=? 126) then c else 46) l.
(** An address given by its leading octets. *)
Definition zero_pad (n : Z) (a : bytes) : bytes := a ++ repeat 0 (Z.to_nat (n - zlen a)).

(** [option_text (code, data) s]: RFC 7871 client subnet, RFC 8914 extended errors, others in hexadecimal. *)
Inductive option_text : Z * bytes -> bytes -> Prop :=
| ot_subnet4 : forall source scope a t d e, zlen a <= 4 -> ipv4_text (zero_pad 4 a) t -> decimal source d -> decimal scope e ->
    option_text (8, [0; 1; source; scope] ++ a) (lit "CLIENT-SUBNET: " ++ t ++ [47] ++ d ++ [47] ++ e)
| ot_subnet6 : forall source scope a t d e, zlen a <= 16 -> ipv6_text (zero_pad 16 a) t -> decimal source d -> decimal scope e ->
    option_text (8, [0; 2; source; scope] ++ a) (lit "CLIENT-SUBNET: " ++ t ++ [47] ++ d ++ [47] ++ e)
| ot_ede : forall info msg d p, 0 <= info < 65536 -> decimal info d -> ede_purpose_text info p ->
    option_text (15, u16 info ++ msg) (lit "EDE: " ++ d ++ p ++ lit ": (" ++ shown msg ++ [41])
| ot_other : forall code data d h, 0 <= code < 65536 -> code <> 8 -> code <> 15 -> decimal code d -> generic_hex data h ->
    option_text (code, data) (lit "OPT=" ++ d ++ lit ": " ++ h ++ lit "(""" ++ shown data ++ lit """)").

(** Options in wire form: code, length, data. *)
Definition options_text (l : bytes) (opts : list (Z * bytes)) (ts : list bytes) : Prop :=
  l = concat (map param opts) /\ Forall (fun o => zlen (snd o) < 65536) opts /\ Forall2 option_text opts ts.

(** ** RRs *)

(** The rdata of an RR with the blank in front of it; no blank if there is no text. *)
Definition blank_before (d : bytes) : bytes := match d with [] => [] | _ => 32 :: d end.
Definition data_text (t c : Z) (vs : list fval) (s : bytes) : Prop :=
  if t =? 41 then exists opts ts, options_text (canon vs) opts ts /\ s = blank_before (join_by 10 ts)
  else if has_fields t c then exists d, rdata_text t vs d /\ s = blank_before d
  else match find (fun e => fst e =? t) rr_formats with
       | None => exists d, generic_text (canon vs) d /\ s = 32 :: d
       | Some _ => s = [32]
       end.

Definition question_line (r : srr) (s : bytes) : Prop :=
  exists c t, class_text (s_class r) c /\ type_text (s_type r) t /\ s = [59] ++ pres_name (s_name r) ++ [32] ++ c ++ [32] ++ t ++ [10].
Definition record_line (r : srr) (s : bytes) : Prop :=
  exists ttl c t vs d, decimal (s_ttl r) ttl /\ class_text (s_class r) c /\ type_text (s_type r) t /\
    s_data r = Some vs /\ data_text (s_type r) (s_class r) vs d /\
    s = pres_name (s_name r) ++ [32] ++ ttl ++ [32] ++ c ++ [32] ++ t ++ d ++ [10].

(** ** Messages *)

(** RFC 1035 section 4.1.1, RFC 4035: header flags and their bit numbers, from the top. *)
Definition header_flags : list (Z * String.string) :=
  [(15, " qr"); (10, " aa"); (9, " tc"); (8, " rd"); (7, " ra"); (5, " ad"); (4, " cd")]%string.
Definition flags_text (flags : Z) : bytes :=
  concat (map (fun e => if Z.testbit flags (fst e) then lit (snd e) else []) header_flags).

(** The two header lines, given id, flags, rcode and the number of RRs in each section. *)
Definition header_lines (id flags rcode qd an ns ar : Z) (s : bytes) : Prop :=
  exists op rc i q a n r, code_text iana_opcodes (flags / 2048 mod 16) op /\ code_text iana_rcodes rcode rc /\ decimal id i /\
    decimal qd q /\ decimal an a /\ decimal ns n /\ decimal ar r /\
    s = lit ";; ->>HEADER<<- opcode: " ++ op ++ lit ", rcode: " ++ rc ++ lit ", id: " ++ i ++ [10] ++
        lit ";; flags:" ++ flags_text flags ++ lit "; QUERY: " ++ q ++ lit ", ANSWER: " ++ a ++ lit ", AUTHORITY: " ++ n ++
        lit ", ADDITIONAL: " ++ r ++ [10].

(** The pseudo section of the OPT record, if there is one. *)
Definition opt_lines_text (o : option srr) (s : bytes) : Prop :=
  match o with
  | None => s = []
  | Some r =>
    exists v u opts ts, decimal (s_ttl r / 65536 mod 256) v /\ decimal (s_class r) u /\
      options_text (match s_data r with Some vs => canon vs | None => [] end) opts ts /\
      s = [10] ++ lit ";; OPT PSEUDOSECTION:" ++ [10] ++ lit "; EDNS: version: " ++ v ++ lit ", flags:" ++
          (if Z.testbit (s_ttl r) 15 then lit " do" else []) ++ lit "; udp: " ++ u ++
          concat (map (fun t => [10] ++ lit "; " ++ t) ts)
  end.

(** The whole message: header, OPT pseudo section, one line per RR in each section. *)
Definition message_text (s : smsg) (t : bytes) : Prop :=
  let o := first_opt (entries s) in
  let sec k := in_section k (without_first_opt (entries s)) in
  exists h e q a n r,
    header_lines (sm_id s) (sm_flags s) (rcode_of (sm_flags s) o) (zlen (sec 0)) (zlen (sec 1)) (zlen (sec 2)) (zlen (sec 3)) h /\
    opt_lines_text o e /\
    Forall2 question_line (sec 0) q /\ Forall2 record_line (sec 1) a /\ Forall2 record_line (sec 2) n /\ Forall2 record_line (sec 3) r /\
    t = h ++ e ++ [10] ++ lit ";; QUESTION SECTION:" ++ [10] ++ concat q ++ [10] ++ lit ";; ANSWER SECTION:" ++ [10] ++ concat a ++
        [10] ++ lit ";; AUTHORITY SECTION:" ++ [10] ++ concat n ++ [10] ++ lit ";; ADDITIONAL SECTION:" ++ [10] ++ concat r.
