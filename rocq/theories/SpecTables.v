(** SpecTables.v: the mnemonics of the IANA DNS parameter registries (the ones wdns knows), and case-insensitivity. *)
From Coq Require Strings.String.
From Verif Require Import Base Libc.

(** Equal up to ASCII letter case. *)
Definition same_letters (a b : bytes) : Prop :=
  Forall2 (fun x y => x = y \/ (65 <= x <= 90 /\ y = x + 32) \/ (65 <= y <= 90 /\ x = y + 32)) a b.

(** A C string: no NUL inside. *)
Definition c_string (s : bytes) : Prop := Forall (fun c => 0 < c < 256) s.

Definition iana_types : list (Z * String.string) :=
  [(1, "A"%string); (2, "NS"%string); (3, "MD"%string); (4, "MF"%string); (5, "CNAME"%string); (6, "SOA"%string);
   (7, "MB"%string); (8, "MG"%string); (9, "MR"%string); (10, "NULL"%string); (11, "WKS"%string); (12, "PTR"%string);
   (13, "HINFO"%string); (14, "MINFO"%string); (15, "MX"%string); (16, "TXT"%string); (17, "RP"%string); (18, "AFSDB"%string);
   (19, "X25"%string); (20, "ISDN"%string); (21, "RT"%string); (22, "NSAP"%string); (23, "NSAP-PTR"%string); (24, "SIG"%string);
   (25, "KEY"%string); (26, "PX"%string); (27, "GPOS"%string); (28, "AAAA"%string); (29, "LOC"%string); (30, "NXT"%string);
   (31, "EID"%string); (32, "NIMLOC"%string); (33, "SRV"%string); (34, "ATMA"%string); (35, "NAPTR"%string); (36, "KX"%string);
   (37, "CERT"%string); (38, "A6"%string); (39, "DNAME"%string); (40, "SINK"%string); (41, "OPT"%string); (42, "APL"%string);
   (43, "DS"%string); (44, "SSHFP"%string); (45, "IPSECKEY"%string); (46, "RRSIG"%string); (47, "NSEC"%string); (48, "DNSKEY"%string);
   (49, "DHCID"%string); (50, "NSEC3"%string); (51, "NSEC3PARAM"%string); (52, "TLSA"%string); (55, "HIP"%string); (56, "NINFO"%string);
   (57, "RKEY"%string); (58, "TALINK"%string); (59, "CDS"%string); (60, "CDNSKEY"%string); (61, "OPENPGPKEY"%string); (62, "CSYNC"%string);
   (64, "SVCB"%string); (65, "HTTPS"%string); (99, "SPF"%string); (100, "UINFO"%string); (101, "UID"%string); (102, "GID"%string);
   (103, "UNSPEC"%string); (104, "NID"%string); (105, "L32"%string); (106, "L64"%string); (107, "LP"%string); (108, "EUI48"%string);
   (109, "EUI64"%string); (249, "TKEY"%string); (250, "TSIG"%string); (251, "IXFR"%string); (252, "AXFR"%string); (253, "MAILB"%string);
   (254, "MAILA"%string); (255, "ANY"%string); (256, "URI"%string); (257, "CAA"%string); (32768, "TA"%string); (32769, "DLV"%string)].
Definition iana_classes : list (Z * String.string) :=
  [(1, "IN"%string); (3, "CH"%string); (4, "HS"%string); (254, "NONE"%string); (255, "ANY"%string)].
Definition iana_rcodes : list (Z * String.string) :=
  [(0, "NOERROR"%string); (1, "FORMERR"%string); (2, "SERVFAIL"%string); (3, "NXDOMAIN"%string); (4, "NOTIMP"%string); (5, "REFUSED"%string);
   (6, "YXDOMAIN"%string); (7, "YXRRSET"%string); (8, "NXRRSET"%string); (9, "NOTAUTH"%string); (10, "NOTZONE"%string); (16, "BADVERS"%string)].
Definition iana_opcodes : list (Z * String.string) :=
  [(0, "QUERY"%string); (1, "IQUERY"%string); (2, "STATUS"%string); (4, "NOTIFY"%string); (5, "UPDATE"%string)].
Definition iana_svckeys : list (Z * String.string) :=
  [(0, "mandatory"%string); (1, "alpn"%string); (2, "no-default-alpn"%string); (3, "port"%string); (4, "ipv4hint"%string);
   (5, "ech"%string); (6, "ipv6hint"%string)].

(** [s] is the mnemonic of [n]. *)
Definition mnemonic (t : list (Z * String.string)) (n : Z) (s : bytes) : Prop := exists m, In (n, m) t /\ s = lit m.
