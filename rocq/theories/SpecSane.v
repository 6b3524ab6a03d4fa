(** SpecSane.v: what the C types of the API structures allow: octets, 8, 16 and 32 bit integers, 16 bit counters. *)
From Verif Require Import Base ModelParse.

Definition sane_data (d : bytes) : Prop := bytes_ok d /\ zlen d < 65536.
(** wdns_name_t; len has 8 bits. *)
Definition sane_name (w : bytes) : Prop := bytes_ok w /\ zlen w < 256.
(** wdns_rr_t. *)
Definition sane_rr (r : rr) : Prop :=
  sane_name (rr_name r) /\ 0 <= rr_ttl r < 2 ^ 32 /\ 0 <= rr_type r < 65536 /\ 0 <= rr_class r < 65536 /\
  forall d, rr_rdata r = Some d -> sane_data d.
(** wdns_rrset_t; n_rdatas has 16 bits. *)
Definition sane_set (s : rrset) : Prop :=
  sane_name (rs_name s) /\ 0 <= rs_ttl s < 2 ^ 32 /\ 0 <= rs_type s < 65536 /\ 0 <= rs_class s < 65536 /\
  Forall sane_data (rs_rdatas s) /\ zlen (rs_rdatas s) < 65536.
(** wdns_rrset_array_t; n_rrs and n_rrsets have 16 bits. *)
Definition sane_arr (a : rrset_array) : Prop :=
  Forall sane_rr (a_rrs a) /\ Forall sane_set (a_rrsets a) /\ zlen (a_rrs a) < 65536 /\ zlen (a_rrsets a) < 65536.
(** wdns_message_t. *)
Definition sane_msg (m : message) : Prop :=
  0 <= m_id m < 65536 /\ 0 <= m_flags m < 65536 /\ 0 <= m_rcode m < 65536 /\
  0 <= e_version (m_edns m) < 256 /\ 0 <= e_flags (m_edns m) < 65536 /\ 0 <= e_size (m_edns m) < 65536 /\
  (forall d, e_options (m_edns m) = Some d -> sane_data d) /\
  sane_arr (m_qd m) /\ sane_arr (m_an m) /\ sane_arr (m_ns m) /\ sane_arr (m_ar m).
