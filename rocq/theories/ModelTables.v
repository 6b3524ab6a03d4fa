(** ModelTables.v: mnemonics of RR types, classes, rcodes, opcodes and SvcParamKeys. *)
From Verif Require Import Base ModelName Libc.

(** wdns.h.in:68-156, the WDNS_TYPE_* definitions in file order. *)
Definition hdr_types : list (bytes * Z) := [
  (lit "A", 1); (lit "NS", 2); (lit "MD", 3); (lit "MF", 4); (lit "CNAME", 5); (lit "SOA", 6);
  (lit "MB", 7); (lit "MG", 8); (lit "MR", 9); (lit "NULL", 10); (lit "WKS", 11); (lit "PTR", 12);
  (lit "HINFO", 13); (lit "MINFO", 14); (lit "MX", 15); (lit "TXT", 16); (lit "RP", 17); (lit "AFSDB", 18);
  (lit "X25", 19); (lit "ISDN", 20); (lit "RT", 21); (lit "NSAP", 22); (lit "NSAP_PTR", 23); (lit "SIG", 24);
  (lit "KEY", 25); (lit "PX", 26); (lit "GPOS", 27); (lit "AAAA", 28); (lit "LOC", 29); (lit "NXT", 30);
  (lit "EID", 31); (lit "NIMLOC", 32); (lit "SRV", 33); (lit "ATMA", 34); (lit "NAPTR", 35); (lit "KX", 36);
  (lit "CERT", 37); (lit "A6", 38); (lit "DNAME", 39); (lit "SINK", 40); (lit "OPT", 41); (lit "APL", 42);
  (lit "DS", 43); (lit "SSHFP", 44); (lit "IPSECKEY", 45); (lit "RRSIG", 46); (lit "NSEC", 47); (lit "DNSKEY", 48);
  (lit "DHCID", 49); (lit "NSEC3", 50); (lit "NSEC3PARAM", 51); (lit "TLSA", 52); (lit "HIP", 55); (lit "NINFO", 56);
  (lit "RKEY", 57); (lit "TALINK", 58); (lit "CDS", 59); (lit "CDNSKEY", 60); (lit "OPENPGPKEY", 61); (lit "CSYNC", 62);
  (lit "SVCB", 64); (lit "HTTPS", 65); (lit "SPF", 99); (lit "UINFO", 100); (lit "UID", 101); (lit "GID", 102);
  (lit "UNSPEC", 103); (lit "NID", 104); (lit "L32", 105); (lit "L64", 106); (lit "LP", 107); (lit "EUI48", 108);
  (lit "EUI64", 109); (lit "TKEY", 249); (lit "TSIG", 250); (lit "IXFR", 251); (lit "AXFR", 252); (lit "MAILB", 253);
  (lit "MAILA", 254); (lit "ANY", 255); (lit "URI", 256); (lit "CAA", 257); (lit "TA", 32768); (lit "DLV", 32769)
].

(** wdns.h.in:62-66, the WDNS_CLASS_* definitions in file order. *)
Definition hdr_classes : list (bytes * Z) := [
  (lit "IN", 1); (lit "CH", 3); (lit "HS", 4); (lit "NONE", 254); (lit "ANY", 255)
].

(** wdns.h.in:49-60, the WDNS_R_* definitions in file order. *)
Definition hdr_rcodes : list (bytes * Z) := [
  (lit "NOERROR", 0); (lit "FORMERR", 1); (lit "SERVFAIL", 2); (lit "NXDOMAIN", 3); (lit "NOTIMP", 4); (lit "REFUSED", 5);
  (lit "YXDOMAIN", 6); (lit "YXRRSET", 7); (lit "NXRRSET", 8); (lit "NOTAUTH", 9); (lit "NOTZONE", 10); (lit "BADVERS", 16)
].

(** gen_rrtype_to_str:51, gen_rrclass_to_str:56, gen_rcode_to_str:49: replace('_', '-'). *)
Definition gen_name (m : bytes) : bytes := map (fun c => if c =? 95 then 45 else c) m.

(** The generated switch statements (gen_rrtype_to_str:42-59 and likewise): first matching case. None: NULL. *)
Fixpoint switch_str (t : list (bytes * Z)) (v : Z) : option bytes :=
  match t with [] => None | (m, n) :: r => if n =? v then Some (gen_name m) else switch_str r v end.

(** wdns_rrtype_to_str, wdns_rrclass_to_str, wdns_rcode_to_str. *)
Definition rrtype_to_str (v : Z) : option bytes := switch_str hdr_types v.
Definition rrclass_to_str (v : Z) : option bytes := switch_str hdr_classes v.
Definition rcode_to_str (v : Z) : option bytes := switch_str hdr_rcodes v.

(** gen_rrtype_to_str:68-76 (likewise the two others): the array of (u16, str), sorted by macro name. *)
Fixpoint name_lt (a b : bytes) : bool :=
  match a, b with
  | [], [] => false | [], _ :: _ => true | _ :: _, [] => false
  | x :: a, y :: b => (x <? y) || ((x =? y) && name_lt a b)
  end.
Fixpoint ins (e : bytes * Z) (l : list (bytes * Z)) : list (bytes * Z) :=
  match l with [] => [e] | f :: r => if name_lt (fst e) (fst f) then e :: l else f :: ins e r end.
Definition sorted_table (t : list (bytes * Z)) : list (bytes * Z) :=
  map (fun e => (gen_name (fst e), snd e)) (fold_right ins [] t).

(** gen_rrtype_to_str:82-87 cmp_u16str and :112-113 the bsearch call. *)
Definition lookup (t : list (bytes * Z)) (s : bytes) : option Z :=
  match bsearch (fun e => strcasecmp s (fst e)) (sorted_table t) with Some e => Some (snd e) | None => None end.

(** gen_rrtype_to_str:89-107 convert_generic_rrtype, gen_rrclass_to_str:91-109 convert_generic_rrclass; p is "TYPE" or "CLASS". *)
Definition convert_generic (p s : bytes) : option Z :=
  if zlen s <=? zlen p then None
  else if negb (prefix_caseeq p s) then None
  else
  let '(v, rest) := strtol (skipn (length p) s) in
  match rest with
  | _ :: _ => None
  | [] => if (v <? 0) || (v >? 65535) then None else Some v
  end.

(** gen_rrtype_to_str:109-122, wdns_str_to_rrtype; gen_rrclass_to_str:111-124, wdns_str_to_rrclass. *)
Definition str_to_generic (t : list (bytes * Z)) (p s : bytes) : Z :=
  match lookup t s with
  | Some v => v
  | None => match convert_generic p s with Some v => v | None => 0 end
  end.
Definition str_to_rrtype (s : bytes) : Z := str_to_generic hdr_types (lit "TYPE") s.
Definition str_to_rrclass (s : bytes) : Z := str_to_generic hdr_classes (lit "CLASS") s.

(** gen_rcode_to_str:87-97, wdns_str_to_rcode: None is wdns_res_failure. *)
Definition str_to_rcode (s : bytes) : option Z := lookup hdr_rcodes s.

(** opcode_to_str.c:18-31 with wdns.h.in:43-47, wdns_opcode_to_str. *)
Definition opcode_to_str (v : Z) : option bytes :=
  match v with
  | 0 => Some (lit "QUERY") | 1 => Some (lit "IQUERY") | 2 => Some (lit "STATUS") | 4 => Some (lit "NOTIFY") | 5 => Some (lit "UPDATE")
  | _ => None
  end.

(** res_to_str.c:18-59, wdns_res_to_str. *)
Definition res_to_str (r : res) : bytes :=
  match r with
  | res_success => lit "success" | res_failure => lit "failure" | res_invalid_compression_pointer => lit "invalid compression pointer"
  | res_invalid_length_octet => lit "invalid length octet" | res_invalid_opcode => lit "invalid opcode"
  | res_invalid_rcode => lit "invalid rcode" | res_len => lit "len" | res_malloc => lit "malloc" | res_name_len => lit "name len"
  | res_name_overflow => lit "name overflow" | res_out_of_bounds => lit "out of bounds" | res_overflow => lit "overflow"
  | res_parse_error => lit "parse error" | res_qdcount => lit "qdcount" | res_unknown_opcode => lit "unknown opcode"
  | res_unknown_rcode => lit "unknown rcode"
  end.

(** wdns-private.h, enum of SvcParamKeys: spr_*. *)
Definition spr_mandatory := 0. Definition spr_alpn := 1. Definition spr_nd_alpn := 2. Definition spr_port := 3.
Definition spr_ipv4hint := 4. Definition spr_ech := 5. Definition spr_ipv6hint := 6. Definition spr_invalid := 65535.

(** svcparamkeys_to_str.c:22-57, _wdns_svcparamkey_to_str with a buffer of 16 characters: the string in it. strncpy and
    snprintf clip to the buffer; the longest text has 15 characters (see ProofTables.svc_fits). *)
Definition svckey_to_str (k : Z) : bytes :=
  if k =? spr_mandatory then lit "mandatory" else if k =? spr_alpn then lit "alpn"
  else if k =? spr_nd_alpn then lit "no-default-alpn" else if k =? spr_port then lit "port"
  else if k =? spr_ech then lit "ech" else if k =? spr_ipv4hint then lit "ipv4hint"
  else if k =? spr_ipv6hint then lit "ipv6hint" else if k =? spr_invalid then lit "invalid key"
  else lit "key" ++ fmt_u k.

(** svcparamkeys_to_str.c:59-98, _wdns_str_to_svcparamkey. *)
Definition str_to_svckey (s : bytes) : Z :=
  if streq s (lit "mandatory") then spr_mandatory else if streq s (lit "alpn") then spr_alpn
  else if streq s (lit "no-default-alpn") then spr_nd_alpn else if streq s (lit "port") then spr_port
  else if streq s (lit "ech") then spr_ech else if streq s (lit "ipv4hint") then spr_ipv4hint
  else if streq s (lit "ipv6hint") then spr_ipv6hint
  else if prefix_eq (lit "key") s && (zlen s >? 3) then
    let '(v, rest) := strtoul (skipn 3 s) in
    match rest with
    | _ :: _ => spr_invalid
    | [] => if v >=? spr_invalid then spr_invalid else v
    end
  else spr_invalid.
