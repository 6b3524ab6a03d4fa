(** ModelDescr.v: the record descriptor table of /repo/wdns/record_descr.{c,h}. *)
From Verif Require Import Base.

(** wdns/record_descr.h:28-52, enum rdf_type. [rdf_end] is represented by the end of the list; [rdf_unknown] by the
    absence of an entry in [record_table]. *)
Inductive rdf : Type :=
| rdf_bytes | rdf_bytes_b64 | rdf_bytes_str | rdf_name | rdf_uname | rdf_int8 | rdf_int16 | rdf_int32
| rdf_ipv4 | rdf_ipv6 | rdf_ipv6prefix | rdf_eui48 | rdf_eui64 | rdf_string | rdf_repstring | rdf_rrtype
| rdf_type_bitmap | rdf_salt | rdf_hash | rdf_svcparams | rdf_edns_opt_rdata.

(** wdns/record_descr.h:23-26 (enum record_class) and wdns.h.in:62 (WDNS_CLASS_IN). *)
Definition class_un : Z := 0.
Definition class_in : Z := 1.

(** wdns/record_descr.h:54-57, struct record_descr. *)
Record descr := { d_class : Z; d_types : list rdf }.

(** wdns/record_descr.c:20-291, record_descr_array, by type number (numbers from wdns.h.in:68-156). *)
Definition record_table : list (Z * descr) := [
  (5,  {| d_class := class_un; d_types := [rdf_name] |});                                            (* CNAME *)
  (13, {| d_class := class_un; d_types := [rdf_string; rdf_string] |});                              (* HINFO *)
  (7,  {| d_class := class_un; d_types := [rdf_name] |});                                            (* MB *)
  (3,  {| d_class := class_un; d_types := [rdf_name] |});                                            (* MD *)
  (4,  {| d_class := class_un; d_types := [rdf_name] |});                                            (* MF *)
  (8,  {| d_class := class_un; d_types := [rdf_name] |});                                            (* MG *)
  (14, {| d_class := class_un; d_types := [rdf_name; rdf_name] |});                                  (* MINFO *)
  (9,  {| d_class := class_un; d_types := [rdf_name] |});                                            (* MR *)
  (15, {| d_class := class_un; d_types := [rdf_int16; rdf_name] |});                                 (* MX *)
  (2,  {| d_class := class_un; d_types := [rdf_name] |});                                            (* NS *)
  (10, {| d_class := class_un; d_types := [rdf_bytes] |});                                           (* NULL *)
  (12, {| d_class := class_un; d_types := [rdf_name] |});                                            (* PTR *)
  (6,  {| d_class := class_un; d_types := [rdf_name; rdf_name; rdf_int32; rdf_int32; rdf_int32;
                                           rdf_int32; rdf_int32] |});                                (* SOA *)
  (16, {| d_class := class_un; d_types := [rdf_repstring] |});                                       (* TXT *)
  (1,  {| d_class := class_in; d_types := [rdf_ipv4] |});                                            (* A *)
  (11, {| d_class := class_in; d_types := [rdf_int32; rdf_int8; rdf_bytes] |});                      (* WKS *)
  (18, {| d_class := class_un; d_types := [rdf_int16; rdf_name] |});                                 (* AFSDB *)
  (20, {| d_class := class_un; d_types := [rdf_string; rdf_string] |});                              (* ISDN *)
  (17, {| d_class := class_un; d_types := [rdf_name; rdf_name] |});                                  (* RP *)
  (21, {| d_class := class_un; d_types := [rdf_int16; rdf_name] |});                                 (* RT *)
  (19, {| d_class := class_un; d_types := [rdf_string] |});                                          (* X25 *)
  (30, {| d_class := class_un; d_types := [rdf_name; rdf_bytes] |});                                 (* NXT *)
  (24, {| d_class := class_un; d_types := [rdf_int16; rdf_int8; rdf_int8; rdf_int32; rdf_int32;
                                           rdf_int32; rdf_int16; rdf_name; rdf_bytes] |});           (* SIG *)
  (39, {| d_class := class_un; d_types := [rdf_uname] |});                                           (* DNAME *)
  (38, {| d_class := class_in; d_types := [rdf_ipv6prefix; rdf_uname] |});                           (* A6 *)
  (28, {| d_class := class_in; d_types := [rdf_ipv6] |});                                            (* AAAA *)
  (36, {| d_class := class_in; d_types := [rdf_int16; rdf_uname] |});                                (* KX *)
  (26, {| d_class := class_in; d_types := [rdf_int16; rdf_name; rdf_name] |});                       (* PX *)
  (35, {| d_class := class_in; d_types := [rdf_int16; rdf_int16; rdf_string; rdf_string; rdf_string;
                                           rdf_name] |});                                            (* NAPTR *)
  (33, {| d_class := class_in; d_types := [rdf_int16; rdf_int16; rdf_int16; rdf_name] |});           (* SRV *)
  (48, {| d_class := class_un; d_types := [rdf_int16; rdf_int8; rdf_int8; rdf_bytes_b64] |});        (* DNSKEY *)
  (46, {| d_class := class_un; d_types := [rdf_rrtype; rdf_int8; rdf_int8; rdf_int32; rdf_int32;
                                           rdf_int32; rdf_int16; rdf_uname; rdf_bytes_b64] |});      (* RRSIG *)
  (47, {| d_class := class_un; d_types := [rdf_uname; rdf_type_bitmap] |});                          (* NSEC *)
  (43, {| d_class := class_un; d_types := [rdf_int16; rdf_int8; rdf_int8; rdf_bytes] |});            (* DS *)
  (50, {| d_class := class_un; d_types := [rdf_int8; rdf_int8; rdf_int16; rdf_salt; rdf_hash;
                                           rdf_type_bitmap] |});                                     (* NSEC3 *)
  (51, {| d_class := class_un; d_types := [rdf_int8; rdf_int8; rdf_int16; rdf_salt] |});             (* NSEC3PARAM *)
  (99, {| d_class := class_un; d_types := [rdf_repstring] |});                                       (* SPF *)
  (52, {| d_class := class_un; d_types := [rdf_int8; rdf_int8; rdf_int8; rdf_bytes] |});             (* TLSA *)
  (60, {| d_class := class_un; d_types := [rdf_int16; rdf_int8; rdf_int8; rdf_bytes_b64] |});        (* CDNSKEY *)
  (59, {| d_class := class_un; d_types := [rdf_int16; rdf_int8; rdf_int8; rdf_bytes] |});            (* CDS *)
  (61, {| d_class := class_un; d_types := [rdf_bytes_b64] |});                                       (* OPENPGPKEY *)
  (62, {| d_class := class_un; d_types := [rdf_int32; rdf_int16; rdf_type_bitmap] |});               (* CSYNC *)
  (108,{| d_class := class_un; d_types := [rdf_eui48] |});                                           (* EUI48 *)
  (109,{| d_class := class_un; d_types := [rdf_eui64] |});                                           (* EUI64 *)
  (256,{| d_class := class_un; d_types := [rdf_int16; rdf_int16; rdf_bytes_str] |});                 (* URI *)
  (64, {| d_class := class_in; d_types := [rdf_int16; rdf_name; rdf_svcparams] |});                  (* SVCB *)
  (65, {| d_class := class_in; d_types := [rdf_int16; rdf_name; rdf_svcparams] |});                  (* HTTPS *)
  (257,{| d_class := class_in; d_types := [rdf_int8; rdf_string; rdf_bytes_str] |});                 (* CAA *)
  (41, {| d_class := class_un; d_types := [rdf_edns_opt_rdata] |})                                   (* OPT *)
].

Fixpoint assocZ {A} (t : list (Z * A)) (k : Z) : option A :=
  match t with [] => None | (i, d) :: r => if k =? i then Some d else assocZ r k end.

(** The look-up written at every use (parse_rdata.c:148-151, rdata_to_ubuf.c:317-321, str_to_rdata_ubuf.c:357-361):
    [None] stands both for rrtype >= record_descr_len (258) and for a zero-filled entry (types[0] == rdf_unknown). *)
Definition lookup_descr (rrtype : Z) : option descr := assocZ record_table rrtype.

(** The field list that applies to (rrtype, rrclass), parse_rdata.c:151-158: [None] when the rdata is opaque. *)
Definition descr_for (rrtype rrclass : Z) : option (list rdf) :=
  match lookup_descr rrtype with
  | None => None
  | Some d => if (d_class d =? class_un) || (d_class d =? rrclass) then Some (d_types d) else None
  end.
