(** SpecExamples.v: what the example programs say, independently of the C code. *)
From Coq Require Strings.String.
From Verif Require Import Base Lib SpecName SpecMessage SpecFormat SpecRRset SpecFold SpecLibmyText Libc ModelParse ModelExamples.

(** A run that writes [o] to stdout, [e] to stderr and exits with [st]. *)
Definition says (o e : bytes) (st : Z) : run := {| r_out := o; r_err := e; r_status := st |}.
Definition line (s : bytes) : bytes := s ++ [10].

(** An argument that spells the octets [l] in hexadecimal; the length of a C string is below 2^63. *)
Definition spells (s l : bytes) : Prop := s <> [] /\ zlen s < 2 ^ 63 /\ hex_text s l.

(** An RRset in lower case: the owner name, and the names in the rdata of the types of RFC 4034 6.2; [ok]: whether all rdatas
    were accepted. *)
Definition lower_set (x : rrset) (ok : bool) (y : rrset) : Prop :=
  exists rds, y = {| rs_name := lower_label (rs_name x); rs_type := rs_type x; rs_class := rs_class x; rs_ttl := rs_ttl x; rs_rdatas := rds |} /\
  (In (rs_type x) rfc4034_types -> all_fold (format_of (rs_type x) (rs_class x)) (rs_rdatas x) ok rds) /\
  (~ In (rs_type x) rfc4034_types -> ok = true /\ rds = rs_rdatas x).

(** Octets as small hexadecimal digits. *)
Definition small_hex (l s : bytes) : Prop := exists ps, Forall2 (hex_octet false) l ps /\ s = concat ps.

(** The RRsets of the answer, authority and additional sections, in order. *)
Definition answer_sets (M : message) : list rrset := a_rrsets (m_an M) ++ a_rrsets (m_ns M) ++ a_rrsets (m_ar M).

(** An Ethernet frame with a UDP datagram in an IPv4 packet: 12 octets of addresses, type 0x0800, a header of [4 * ihl] octets that
    contains the total length, 8 octets of UDP header, the DNS message, and what was captured behind it. *)
Definition ip_header (h : bytes) (ihl total : Z) : Prop :=
  exists b0 b1 t0 t1 r, h = b0 :: b1 :: t0 :: t1 :: r /\ zlen h = 4 * ihl /\ b0 mod 16 = ihl /\ total = 256 * t0 + t1.
Definition udp_frame (f dns behind : bytes) : Prop :=
  exists addrs h ihl u, zlen addrs = 12 /\ ip_header h ihl (4 * ihl + 8 + zlen dns) /\ zlen u = 8 /\ f = addrs ++ [8; 0] ++ h ++ u ++ dns ++ behind.
