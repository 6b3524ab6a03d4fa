(** ModelParse.v: wdns_parse_message and the functions below it. *)
From Verif Require Import Base ModelName ModelDescr.

(** ** svcparam_key_validate *)

(** wdns/parse_rdata.c:49-52, walking the alpn ids: [val] and [o] are offsets of val and ptr; every iteration advances
    ptr by at least 1, so val_len + 1 iterations suffice. Result: ptr - val. *)
Fixpoint alpn_loop (fuel : nat) (m : bytes) (val val_len o : Z) : outcome Z :=
  match fuel with
  | O => NoFuel
  | S k =>
    if o <? val_len then
      oclen <- rd m (val + o) ;;
      alpn_loop k m val val_len (o + 1 + oclen)
    else Ok o
  end.

(** wdns/parse_rdata.c:23-100. Keys: record_descr.h:65-97 (mandatory 0, alpn 1, no-default-alpn 2, port 3, ipv4hint 4,
    ech 5, ipv6hint 6, invalid 65535). *)
Definition svcparam_key_validate (m : bytes) (key val_len val : Z) : outcome bool :=
  if key =? 0 then Ok (val_len mod 2 =? 0)
  else if key =? 1 then
    if val_len =? 0 then Ok false
    else (o <- alpn_loop (S (Z.to_nat val_len)) m val val_len 0 ;; Ok (o =? val_len))
  else if key =? 2 then Ok (val_len =? 0)
  else if key =? 3 then Ok (val_len =? 2)
  else if key =? 5 then Ok true
  else if key =? 4 then Ok (val_len mod 4 =? 0)
  else if key =? 6 then Ok (val_len mod 16 =? 0)
  else if key =? 65535 then Ok false
  else Ok true.

(** ** _wdns_parse_rdata *)

(** State of the field loop: src (offset), src_bytes, the contents of the ubuf. *)
Definition pstate : Type := (Z * Z * bytes)%type.

(** wdns/parse_rdata.c:124-132, macro copy_bytes. *)
Definition copy_bytes (m : bytes) (st : pstate) (x : Z) : outcome pstate :=
  let '(src, sb, u) := st in
  if sb <? x then Err res_parse_error
  else (l <- rds m src x ;; Ok (src + x, sb - x, u ++ l)).

(** wdns/parse_rdata.c:221-224, rdf_repstring. Each iteration consumes at least one octet. *)
Fixpoint repstring_loop (fuel : nat) (m : bytes) (st : pstate) : outcome pstate :=
  match fuel with
  | O => NoFuel
  | S k =>
    let '(src, sb, u) := st in
    if sb >? 0 then
      oclen <- rd m src ;;
      st <- copy_bytes m st (oclen + 1) ;;
      repstring_loop k m st
    else Ok st
  end.

(** wdns/parse_rdata.c:246-260, rdf_type_bitmap. Each iteration consumes at least three octets. *)
Fixpoint bitmap_loop (fuel : nat) (m : bytes) (st : pstate) : outcome pstate :=
  match fuel with
  | O => NoFuel
  | S k =>
    let '(src, sb, u) := st in
    if sb >=? 2 then
      bitmap_len <- rd m (src + 1) ;;
      if negb ((bitmap_len >=? 1) && (bitmap_len <=? 32)) then Err res_out_of_bounds
      else if bitmap_len <=? sb - 2 then
        st <- copy_bytes m st (2 + bitmap_len) ;;
        bitmap_loop k m st
      else Err res_out_of_bounds
    else Ok st
  end.

(** wdns/parse_rdata.c:272-314, rdf_svcparams. kv_len is a uint16_t, so 4 + val_len wraps; when it wraps to 0 nothing
    is consumed and the loop does not make progress: here the fuel is a parameter of the whole model. *)
Fixpoint svc_loop (fuel : nat) (m : bytes) (st : pstate) : outcome pstate :=
  match fuel with
  | O => NoFuel
  | S k =>
    let '(src, sb, u) := st in
    if sb >? 0 then
      if sb <? 4 then Err res_parse_error
      else
      k0 <- rd m src ;; k1 <- rd m (src + 1) ;;
      let key := be16 k0 k1 in
      v0 <- rd m (src + 2) ;; v1 <- rd m (src + 3) ;;
      let val_len := be16 v0 v1 in
      let kv_len := (2 + 2 + val_len) mod 2^16 in
      if kv_len >? sb then Err res_out_of_bounds
      else
      ok <- svcparam_key_validate m key val_len (src + 4) ;;
      if negb ok then Err res_parse_error
      else
      st <- copy_bytes m st kv_len ;;
      svc_loop k m st
    else Ok st
  end.

(** wdns/parse_rdata.c:164-322, one field of the descriptor. [m]: memory from the start of the message (p is offset 0). *)
Definition parse_field (fuel : nat) (m : bytes) (eop : Z) (t : rdf) (st : pstate) : outcome pstate :=
  let '(src, sb, u) := st in
  match t with
  | rdf_name | rdf_uname =>
      '(domain_name, len) <- unpack_name m eop src ;;
      src' <- skip_name m eop src ;;
      let sb := sb - (src' - src) in
      if sb <? 0 then Err res_out_of_bounds
      else Ok (src', sb, u ++ domain_name)
  | rdf_bytes | rdf_bytes_b64 | rdf_bytes_str | rdf_edns_opt_rdata => copy_bytes m st sb
  | rdf_int8 => copy_bytes m st 1
  | rdf_int16 | rdf_rrtype => copy_bytes m st 2
  | rdf_int32 | rdf_ipv4 => copy_bytes m st 4
  | rdf_ipv6 => copy_bytes m st 16
  | rdf_eui48 => copy_bytes m st 6
  | rdf_eui64 => copy_bytes m st 8
  | rdf_string | rdf_salt | rdf_hash =>
      oclen <- rd m src ;;
      copy_bytes m st (oclen + 1)
  | rdf_repstring => repstring_loop (S (Z.to_nat sb)) m st
  | rdf_ipv6prefix =>
      prefix_len <- rd m src ;;
      if prefix_len >? 128 then Err res_out_of_bounds
      else
      let oclen := (128 - prefix_len) / 8 in
      let oclen := if negb (prefix_len mod 8 =? 0) then oclen + 1 else oclen in
      copy_bytes m st (oclen + 1)
  | rdf_type_bitmap => bitmap_loop (S (Z.to_nat sb)) m st
  | rdf_svcparams => svc_loop fuel m st
  end.

(** wdns/parse_rdata.c:160-324, the loop over the descriptor and its [if (src_bytes == 0) break]. *)
Fixpoint parse_fields (fuel : nat) (m : bytes) (eop : Z) (ts : list rdf) (st : pstate) : outcome pstate :=
  match ts with
  | [] => Ok st
  | t :: ts =>
    let '(src, sb, u) := st in
    if sb =? 0 then Ok st
    else (st <- parse_field fuel m eop t st ;; parse_fields fuel m eop ts st)
  end.

(** The octets of an rdata object built from the ubuf [u] (parse_rdata.c:335-338): rdata->len is a uint16_t, so a longer
    ubuf is cut. Simplification: octets stored in rdata->data behind data[len] are not represented. *)
Definition load_rdata (u : bytes) : bytes := firstn (Z.to_nat (zlen u mod 2^16)) u.

(** wdns/parse_rdata.c:110-345. Result: rr->rdata. *)
Definition parse_rdata (fuel : nat) (m : bytes) (eop rrtype rrclass rdata rdlen : Z) : outcome bytes :=
  match descr_for rrtype rrclass with
  | None =>
      '(_, _, u) <- copy_bytes m (rdata, rdlen, []) rdlen ;;
      Ok (load_rdata u)
  | Some ts =>
      '(_, sb, u) <- parse_fields fuel m eop ts (rdata, rdlen, []) ;;
      if negb (sb =? 0) then Err res_out_of_bounds else Ok (load_rdata u)
  end.

(** ** _wdns_parse_message_rr *)

(** wdns.h.in:214-220, wdns_rr_t; the owner name is the name.len octets at name.data, rdata [None] is NULL. *)
Record rr := { rr_name : bytes; rr_type : Z; rr_class : Z; rr_ttl : Z; rr_rdata : option bytes }.

(** Big-endian loads WDNS_BUF_GET16/32, wdns-private.h:84-97. *)
Definition get16 (m : bytes) (i : Z) : outcome Z :=
  a <- rd m i ;; b <- rd m (i + 1) ;; Ok (be16 a b).
Definition get32 (m : bytes) (i : Z) : outcome Z :=
  a <- rd m i ;; b <- rd m (i + 1) ;; c <- rd m (i + 2) ;; d <- rd m (i + 3) ;; Ok (be32 a b c d).

(** wdns/parse_message_rr.c:28-98. Sections: 0 question, 1 answer, 2 authority, 3 additional (wdns.h.in:33-37).
    Result: the RR and *rrsz. *)
Definition parse_message_rr (fuel : nat) (sec : Z) (m : bytes) (eop data : Z) : outcome (rr * Z) :=
  '(name, _) <- unpack_name m eop data ;;
  src <- skip_name m eop data ;;
  if (src + 4 >? eop) || (negb (sec =? 0) && (src + 10 >? eop)) then Err res_parse_error
  else
  rrtype <- get16 m src ;;
  let src := src + 2 in
  rrclass <- get16 m src ;;
  let src := src + 2 in
  if sec =? 0 then
    Ok ({| rr_name := name; rr_type := rrtype; rr_class := rrclass; rr_ttl := 0; rr_rdata := None |}, src - data)
  else
  rrttl <- get32 m src ;;
  let src := src + 4 in
  rdlen <- get16 m src ;;
  let src := src + 2 in
  if src + rdlen >? eop then Err res_overflow
  else
  rdata <- parse_rdata fuel m eop rrtype rrclass src rdlen ;;
  Ok ({| rr_name := name; rr_type := rrtype; rr_class := rrclass; rr_ttl := rrttl; rr_rdata := Some rdata |},
      src - data + rdlen).

(** ** RRsets *)

(** wdns.h.in:222-229, wdns_rrset_t; n_rdatas is the length of [rs_rdatas] (at most 65535 RRs per section, so the
    uint16_t counters n_rdatas, n_rrs, n_rrsets never wrap in the parser). *)
Record rrset := { rs_name : bytes; rs_type : Z; rs_class : Z; rs_ttl : Z; rs_rdatas : list bytes }.

(** wdns.h.in:231-236, wdns_rrset_array_t. *)
Record rrset_array := { a_rrs : list rr; a_rrsets : list rrset }.

(** wdns/compare_rr_rrset.c:29-53: both names are copied, lower-cased by wdns_downcase_name (downcase_name.c:23-34,
    [dc] on each of the len octets) and compared by memcmp. *)
Definition compare_rr_rrset (r : rr) (s : rrset) : bool :=
  if (zlen (rr_name r) =? zlen (rs_name s)) && (rr_type r =? rs_type s) && (rr_class r =? rs_class s)
  then (if list_eq_dec Z.eq_dec (map dc (rr_name r)) (map dc (rs_name s)) then true else false)
  else false.

(** wdns/insert_rr_rrset_array.c:65-83: the RR joins the RRset. *)
Definition join_rrset (r : rr) (rdata : bytes) (s : rrset) : rrset :=
  {| rs_name := rs_name s; rs_type := rs_type s; rs_class := rs_class s;
     rs_ttl := if rr_ttl r <? rs_ttl s then rr_ttl r else rs_ttl s;
     rs_rdatas := rs_rdatas s ++ [rdata] |}.

(** wdns/insert_rr_rrset_array.c:59-86, the backwards search: a later RRset is tried before an earlier one. [None]: no
    RRset matched. *)
Fixpoint join_last (r : rr) (rdata : bytes) (sets : list rrset) : option (list rrset) :=
  match sets with
  | [] => None
  | s :: sets' =>
    match join_last r rdata sets' with
    | Some sets'' => Some (s :: sets'')
    | None => if compare_rr_rrset r s then Some (join_rrset r rdata s :: sets') else None
    end
  end.

(** wdns/insert_rr_rrset_array.c:28-119. *)
Definition insert_rr (a : rrset_array) (r : rr) (sec : Z) : outcome rrset_array :=
  if sec =? 0 then
    let new_rr := {| rr_name := rr_name r; rr_type := rr_type r; rr_class := rr_class r; rr_ttl := rr_ttl r;
                     rr_rdata := None |} in
    Ok {| a_rrs := a_rrs a ++ [new_rr];
          a_rrsets := a_rrsets a ++ [{| rs_name := rr_name r; rs_type := rr_type r; rs_class := rr_class r;
                                        rs_ttl := rr_ttl r; rs_rdatas := [] |}] |}
  else
    match rr_rdata r with
    | None => UB NullDeref
    | Some rdata =>
      Ok {| a_rrs := a_rrs a ++ [r];
            a_rrsets :=
              match join_last r rdata (a_rrsets a) with
              | Some sets => sets
              | None => a_rrsets a ++ [{| rs_name := rr_name r; rs_type := rr_type r; rs_class := rr_class r;
                                          rs_ttl := rr_ttl r; rs_rdatas := [rdata] |}]
              end |}
    end.

(** ** Messages *)

(** wdns.h.in:238-252, wdns_edns_t and wdns_message_t (sections[0..3] as four fields). *)
Record edns := { e_present : bool; e_version : Z; e_flags : Z; e_size : Z; e_options : option bytes }.
Record message := { m_qd : rrset_array; m_an : rrset_array; m_ns : rrset_array; m_ar : rrset_array;
                    m_edns : edns; m_id : Z; m_flags : Z; m_rcode : Z }.

Definition empty_array : rrset_array := {| a_rrs := []; a_rrsets := [] |}.

(** wdns/parse_message.c:28, memset(m, 0, sizeof( *m)). *)
Definition empty_message : message :=
  {| m_qd := empty_array; m_an := empty_array; m_ns := empty_array; m_ar := empty_array;
     m_edns := {| e_present := false; e_version := 0; e_flags := 0; e_size := 0; e_options := None |};
     m_id := 0; m_flags := 0; m_rcode := 0 |}.

(** m->sections[sec]. *)
Definition get_sec (m : message) (sec : Z) : rrset_array :=
  if sec =? 0 then m_qd m else if sec =? 1 then m_an m else if sec =? 2 then m_ns m else m_ar m.
Definition set_sec (m : message) (sec : Z) (a : rrset_array) : message :=
  {| m_qd := if sec =? 0 then a else m_qd m;
     m_an := if sec =? 1 then a else m_an m;
     m_ns := if sec =? 2 then a else m_ns m;
     m_ar := if sec =? 3 then a else m_ar m;
     m_edns := m_edns m; m_id := m_id m; m_flags := m_flags m; m_rcode := m_rcode m |}.

(** wdns/parse_edns.c:17-32. rrttl is a uint32_t; edns.version is a uint8_t, flags/size/rcode are uint16_t. *)
Definition parse_edns (m : message) (r : rr) : message :=
  {| m_qd := m_qd m; m_an := m_an m; m_ns := m_ns m; m_ar := m_ar m;
     m_edns := {| e_present := true; e_version := Z.land (Z.shiftr (rr_ttl r) 16) 255;
                  e_flags := Z.land (rr_ttl r) 65535; e_size := rr_class r; e_options := rr_rdata r |};
     m_id := m_id m; m_flags := m_flags m;
     m_rcode := Z.lor (m_rcode m) (Z.land (Z.shiftr (rr_ttl r) 16) 65280) |}.

(** wdns/clear.c:48-55: frees and NULLs edns.options, resets present and the four arrays; nothing else. *)
Definition clear_message (m : message) : message :=
  {| m_qd := empty_array; m_an := empty_array; m_ns := empty_array; m_ar := empty_array;
     m_edns := {| e_present := false; e_version := e_version (m_edns m); e_flags := e_flags (m_edns m);
                  e_size := e_size (m_edns m); e_options := None |};
     m_id := m_id m; m_flags := m_flags m; m_rcode := m_rcode m |}.

(** Control flow out of the section loops: go on at offset p, or return from wdns_parse_message. *)
Inductive pflow := Continue (p : Z) (m : message) | Return (r : res) (m : message).

(** wdns/parse_message.c:43-69, the inner loop: [n] RRs of section [sec] remain. *)
Fixpoint parse_section (fuel n : nat) (sec : Z) (pkt : bytes) (len : Z) (p : Z) (m : message) : outcome pflow :=
  match n with
  | O => Ok (Continue p m)
  | S n' =>
    if p =? len then Ok (Return res_success m)
    else
    match parse_message_rr fuel sec pkt len p with
    | Ok (r, rrlen) =>
        if (rr_type r =? 41) && negb (e_present (m_edns m)) then
          parse_section fuel n' sec pkt len (p + rrlen) (parse_edns m r)
        else
          (a <- insert_rr (get_sec m sec) r sec ;;
           parse_section fuel n' sec pkt len (p + rrlen) (set_sec m sec a))
    | Err e => Ok (Return e (clear_message m))
    | UB f => UB f
    | NoFuel => NoFuel
    end
  end.

(** wdns/parse_message.c:42-70, the outer loop over the sections and their counts. *)
Fixpoint parse_sections (fuel : nat) (secs : list (Z * Z)) (pkt : bytes) (len : Z) (p : Z) (m : message)
  : outcome (res * message) :=
  match secs with
  | [] => Ok (res_success, m)
  | (sec, count) :: secs' =>
    fl <- parse_section fuel (Z.to_nat count) sec pkt len p m ;;
    match fl with
    | Continue p m => parse_sections fuel secs' pkt len p m
    | Return r m => Ok (r, m)
    end
  end.

(** wdns/parse_message.c:18-78. [pkt]: memory at pkt; result: the return code and the final state of *m. [fuel] bounds
    only the iterations of the SvcParam loop of each RR ([svc_loop]). *)
Definition parse_message (fuel : nat) (pkt : bytes) (len : Z) : outcome (res * message) :=
  if len <? 12 then Ok (res_len, empty_message)
  else
  id <- get16 pkt 0 ;;
  flags <- get16 pkt 2 ;;
  qd <- get16 pkt 4 ;;
  an <- get16 pkt 6 ;;
  ns <- get16 pkt 8 ;;
  ar <- get16 pkt 10 ;;
  let m := {| m_qd := empty_array; m_an := empty_array; m_ns := empty_array; m_ar := empty_array;
              m_edns := m_edns empty_message; m_id := id; m_flags := flags; m_rcode := Z.land flags 15 |} in
  parse_sections fuel [(0, qd); (1, an); (2, ns); (3, ar)] pkt len 12 m.

(** wdns/parse_header.c:17-32, _wdns_parse_header (not called by the library itself). *)
Definition parse_header (p : bytes) (len : Z) : outcome (Z * Z * Z * Z * Z * Z) :=
  if len <? 12 then Err res_len
  else
  id <- get16 p 0 ;; flags <- get16 p 2 ;; qd <- get16 p 4 ;; an <- get16 p 6 ;; ns <- get16 p 8 ;; ar <- get16 p 10 ;;
  Ok (id, flags, qd, an, ns, ar).
