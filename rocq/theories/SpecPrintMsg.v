(** SpecPrintMsg.v: the text of RRs, RRsets and messages held in memory, whatever their rdata is; independently of the C code
    that prints. The records [rr], [rrset], [message] are those of the API (wdns_rr_t, wdns_rrset_t, wdns_message_t). *)
From Coq Require Strings.String.
From Verif Require Import Base Lib SpecName SpecMessage SpecFormat SpecTables SpecText SpecMsgText SpecPrint SpecRawName Libc ModelParse.

(** The name held by a wdns_name_t: labels of any length up to a zero octet; octets behind that do not count. *)
Definition name_is (d : bytes) (ls : lname) : Prop := zlen d <= 255 /\ exists r, ended d ls r.

(** RRs that can be held: a name that ends, numbers of the right size, octets. *)
Definition numbers_fit (t c : Z) : Prop := 0 <= t < 65536 /\ 0 <= c < 65536.
Definition octets_fit (d : bytes) : Prop := bytes_ok d /\ zlen d < 65536.
Definition question_fits (r : rr) : Prop := (exists ls, name_is (rr_name r) ls) /\ numbers_fit (rr_type r) (rr_class r).
Definition record_fits (r : rr) : Prop :=
  question_fits r /\ 0 <= rr_ttl r < 2 ^ 32 /\ exists d, rr_rdata r = Some d /\ octets_fit d.
Definition rrset_fits (s : rrset) : Prop :=
  (exists ls, name_is (rs_name s) ls) /\ numbers_fit (rs_type s) (rs_class s) /\ 0 <= rs_ttl s < 2 ^ 32 /\ Forall octets_fit (rs_rdatas s).

(** The rdata of an RR with the blank in front of it. When there is no text there is no blank either, except for a type
    whose format belongs to another class. *)
Definition data_shown (t c : Z) (l s : bytes) : Prop :=
  exists d, rdata_shown t c l d /\ s = if (t =? 41) || has_fields t c then blank_before d else 32 :: d.

Definition question_shown (r : rr) (s : bytes) : Prop :=
  exists ls c t, name_is (rr_name r) ls /\ class_text (rr_class r) c /\ type_text (rr_type r) t /\
    s = [59] ++ pres_name ls ++ [32] ++ c ++ [32] ++ t ++ [10].
Definition record_shown (r : rr) (s : bytes) : Prop :=
  exists ls ttl c t l d, name_is (rr_name r) ls /\ decimal (rr_ttl r) ttl /\ class_text (rr_class r) c /\ type_text (rr_type r) t /\
    rr_rdata r = Some l /\ data_shown (rr_type r) (rr_class r) l d /\
    s = pres_name ls ++ [32] ++ ttl ++ [32] ++ c ++ [32] ++ t ++ d ++ [10].

(** An RRset: one line for each rdata, in order. *)
Definition member (s : rrset) (d : bytes) : rr :=
  {| rr_name := rs_name s; rr_type := rs_type s; rr_class := rs_class s; rr_ttl := rs_ttl s; rr_rdata := Some d |}.
Definition rrset_shown (s : rrset) (t : bytes) : Prop :=
  exists lines, Forall2 (fun d l => record_shown (member s d) l) (rs_rdatas s) lines /\ t = concat lines.

(** The lines of a text. *)
Definition lines_of (s : bytes) (ts : list bytes) : Prop := s = join_by 10 ts /\ Forall (fun t => t <> [] /\ Forall (fun c => c <> 10) t) ts.

(** The OPT pseudo section: each line of the text of the options, good or bad, behind "; ". *)
Definition edns_shown (e : edns) (s : bytes) : Prop :=
  if e_present e then
    exists v u o ts, decimal (e_version e) v /\ decimal (e_size e) u /\
      (match e_options e with None => o = [] | Some d => rdata_shown 41 1 d o end) /\ lines_of o ts /\
      s = [10] ++ lit ";; OPT PSEUDOSECTION:" ++ [10] ++ lit "; EDNS: version: " ++ v ++ lit ", flags:" ++
          (if Z.testbit (e_flags e) 15 then lit " do" else []) ++ lit "; udp: " ++ u ++
          concat (map (fun t => [10] ++ lit "; " ++ t) ts)
  else s = [].
Definition edns_fits (e : edns) : Prop :=
  0 <= e_version e < 256 /\ 0 <= e_size e < 65536 /\ match e_options e with None => True | Some d => octets_fit d end.

Definition message_fits (M : message) : Prop :=
  0 <= m_id M < 65536 /\ 0 <= m_flags M < 65536 /\ 0 <= m_rcode M < 65536 /\
  Forall question_fits (a_rrs (m_qd M)) /\ Forall record_fits (a_rrs (m_an M)) /\ Forall record_fits (a_rrs (m_ns M)) /\
  Forall record_fits (a_rrs (m_ar M)) /\ edns_fits (m_edns M) /\
  zlen (a_rrs (m_qd M)) < 65536 /\ zlen (a_rrs (m_an M)) < 65536 /\ zlen (a_rrs (m_ns M)) < 65536 /\ zlen (a_rrs (m_ar M)) < 65536.

Definition message_shown (M : message) (t : bytes) : Prop :=
  exists h e q a n r,
    header_lines (m_id M) (m_flags M) (m_rcode M) (zlen (a_rrs (m_qd M))) (zlen (a_rrs (m_an M))) (zlen (a_rrs (m_ns M))) (zlen (a_rrs (m_ar M))) h /\
    edns_shown (m_edns M) e /\
    Forall2 question_shown (a_rrs (m_qd M)) q /\ Forall2 record_shown (a_rrs (m_an M)) a /\
    Forall2 record_shown (a_rrs (m_ns M)) n /\ Forall2 record_shown (a_rrs (m_ar M)) r /\
    t = h ++ e ++ [10] ++ lit ";; QUESTION SECTION:" ++ [10] ++ concat q ++ [10] ++ lit ";; ANSWER SECTION:" ++ [10] ++ concat a ++
        [10] ++ lit ";; AUTHORITY SECTION:" ++ [10] ++ concat n ++ [10] ++ lit ";; ADDITIONAL SECTION:" ++ [10] ++ concat r.
