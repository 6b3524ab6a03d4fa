(** ModelToStr.v: presentation of rdata, EDNS options, RRs, RRsets and messages
    (rdata_to_ubuf.c, edns_options.c, rr_to_ubuf.c, rrset_to_ubuf.c, rrset_array_to_ubuf.c, message_to_str.c).

    A ubuf is the list of its octets. [src] is the memory from the C pointer src on (it may extend past the rdata, so that
    an over-read is visible), [n] the ssize_t src_bytes.
    Simplification: ubuf_add_cstr and ubuf_add_fmt (libmy/ubuf.h:47-53, 73-97) first drop a trailing NUL of the ubuf. No
    ubuf here ever ends in NUL, because nothing but printable characters and '\n' is ever appended (C50, C51), so they
    are plain appends. *)
From Verif Require Import Base ModelName ModelDescr ModelParse Libc ModelFormat ModelTables.

(** ** Character-strings *)

(** rdata_to_ubuf.c:29-40, the text of one octet. *)
Definition escape_octet (c : Z) : outcome bytes :=
  if c =? 34 then Ok [92; 34]
  else if c =? 92 then Ok [92; 92]
  else if (32 <=? c) && (c <=? 126) then Ok [c]
  else octal_like c.

(** rdata_to_ubuf.c:20-45, rdata_to_str_string_unquoted; len is a size_t. *)
Fixpoint string_unquoted (src : bytes) (len : Z) : outcome bytes :=
  if len =? 0 then Ok []
  else match src with
  | [] => UB OobRead
  | c :: r => e <- escape_octet c ;; t <- string_unquoted r (len - 1) ;; Ok (e ++ t)
  end.

(** rdata_to_ubuf.c:47-58, rdata_to_str_string; it consumes len octets. *)
Definition to_str_string (src : bytes) (len : Z) : outcome bytes :=
  t <- string_unquoted src len ;; Ok ([34] ++ t ++ [34] ++ [32]).

(** One octet as two hexadecimal digits: my_bytes_to_hex_str(src, 1, upper, tmp, sizeof(tmp)); append 2 octets of tmp. *)
Definition hex1 (upper : bool) (size : Z) (src : bytes) : outcome bytes :=
  '(t, _) <- bytes_to_hex_str src 1 upper size ;; Ok t.

(** "%s" of fast_inet4_ntop / fast_inet6_ntop into a buffer of the given size. *)
Definition pres4 (src : bytes) (size : Z) : outcome bytes :=
  o <- inet4_ntop src size ;; match o with Some t => Ok t | None => UB Uninit end.
Definition pres6 (src : bytes) (size : Z) : outcome bytes :=
  o <- inet6_ntop src size ;; match o with Some t => Ok t | None => UB Uninit end.

(** [t] is appended, then what [k] appends. *)
Definition emit {A} (t : bytes) (k : outcome (bytes * A)) : outcome (bytes * A) := '(o, f) <- k ;; Ok (t ++ o, f).

(** ** SvcParams; the result is the text appended and the wdns_res, None being success. *)

(** rdata_to_ubuf.c:112-123, 187-191, 211-215: separator after a list element, [rem] octets being left. *)
Definition list_sep (rem : Z) : bytes := if rem >? 0 then [44] else [32].

(** rdata_to_ubuf.c:99-123, mandatory; [rem] = len - (ptr - src). *)
Fixpoint mandatory_loop (fuel : nat) (src : bytes) (rem : Z) : outcome (bytes * option res) :=
  match fuel with
  | O => NoFuel
  | S k =>
    if rem <=? 0 then Ok ([], None)
    else if 2 >? rem then Ok ([], Some res_parse_error)
    else
    v <- take_rd src 2 ;;
    let val := be16 (nth 0 v 0) (nth 1 v 0) in
    emit (svckey_to_str val ++ list_sep (rem - 2)) (mandatory_loop k (adv src 2) (rem - 2))
  end.

(** rdata_to_ubuf.c:170-192 (size 4) and 194-216 (size 16). In the first the result NULL of fast_inet4_ntop would return
    parse_error; it cannot be NULL for the buffer sizes used. *)
Fixpoint hint_loop (fuel : nat) (sz : Z) (src : bytes) (rem : Z) : outcome (bytes * option res) :=
  match fuel with
  | O => NoFuel
  | S k =>
    if rem <=? 0 then Ok ([], None)
    else if sz >? rem then Ok ([], Some res_parse_error)
    else
    o <- (if sz =? 4 then inet4_ntop src 16 else inet6_ntop src 46) ;;
    match o with
    | None => Ok ([], Some res_parse_error)
    | Some t => emit (t ++ list_sep (rem - sz)) (hint_loop k sz (adv src sz) (rem - sz))
    end
  end.

(** rdata_to_ubuf.c:262-277, one octet of an alpn-id. *)
Definition alpn_octet (c : Z) : outcome bytes :=
  if c =? 34 then Ok [92; 34]
  else if c =? 92 then Ok [92; 92; 92; 92]
  else if c =? 44 then Ok [92; 92; 44]
  else if (32 <=? c) && (c <=? 126) then Ok [c]
  else octal_like c.

(** rdata_to_ubuf.c:243-278, the inner loop: [l] octets left. *)
Fixpoint alpn_chars (l : nat) (src : bytes) : outcome bytes :=
  match l with
  | O => Ok []
  | S k => c <- hd_rd src ;; e <- alpn_octet c ;; t <- alpn_chars k (tl src) ;; Ok (e ++ t)
  end.

(** rdata_to_ubuf.c:230-286, the outer loop and the blank behind it. *)
Fixpoint alpn_text (fuel : nat) (src : bytes) (rem : Z) : outcome (bytes * option res) :=
  match fuel with
  | O => NoFuel
  | S k =>
    if rem <=? 0 then Ok ([32], None)
    else
    oclen <- hd_rd src ;;
    let src := tl src in
    let rem := rem - 1 in
    if oclen >? rem then Ok ([], Some res_parse_error)
    else
    t <- alpn_chars (Z.to_nat oclen) src ;;
    let src := adv src oclen in
    let rem := rem - oclen in
    emit (t ++ (if rem >? 0 then [44] else [34])) (alpn_text k src rem)
  end.

(** rdata_to_ubuf.c:88-292, svcparam_to_str; len is a uint16_t. *)
Definition svcparam_to_str (key : Z) (src : bytes) (len : Z) : outcome (bytes * option res) :=
  let fuel := S (length src) in
  if key =? spr_invalid then UB AssertFail
  else if key =? spr_mandatory then mandatory_loop fuel src len
  else if key =? spr_nd_alpn then if negb (len =? 0) then Ok ([], Some res_parse_error) else Ok ([32], None)
  else if key =? spr_port then
    if negb (len =? 2) then Ok ([], Some res_parse_error)
    else
    v <- take_rd src 2 ;;
    t <- u64_text 6 (be16 (nth 0 v 0) (nth 1 v 0)) ;;
    Ok (t ++ [32], None)
  else if key =? spr_ech then t <- bytes_to_base64 src len ;; Ok (t ++ [32], None)
  else if key =? spr_ipv4hint then hint_loop fuel 4 src len
  else if key =? spr_ipv6hint then hint_loop fuel 16 src len
  else if key =? spr_alpn then emit [34] (alpn_text fuel src len)
  else t <- to_str_string src len ;; Ok (t, None).

(** ** EDNS options (edns_options.c) *)

(** edns_options.c:53-79, ede_purpose_array. *)
Definition ede_purpose : list bytes :=
  [ lit "Other Error"; lit "Unsupported DNSKEY Algorithm"; lit "Unsupported DS Digest Type"; lit "Stale Answer";
    lit "Forged Answer"; lit "DNSSEC Indeterminate"; lit "DNSSEC Bogus"; lit "Signature Expired";
    lit "Signature Not Yet Valid"; lit "DNSKEY Missing"; lit "RRSIGs Missing"; lit "No Zone Key Bit Set"; lit "NSEC Missing";
    lit "Cached Error"; lit "Not Ready"; lit "Blocked"; lit "Censored"; lit "Filtered"; lit "Prohibited";
    lit "Stale NXDomain Answer"; lit "Not Authoritative"; lit "Not Supported"; lit "No Reachable Authority";
    lit "Network Error"; lit "Invalid Data" ].

(** edns_options.c:85-102, ip_to_ubuf: None is wdns_res_parse_error. [src]: memory at src. *)
Definition ip_to_ubuf (family : Z) (src : bytes) (n : Z) : outcome (option bytes) :=
  if negb (family =? 1) && negb (family =? 2) then Ok None
  else if (family =? 1) && (n >? 4) then Ok None
  else if (family =? 2) && (n >? 16) then Ok None
  else
  a <- take_rd src n ;;
  addr <- blit (repeat 0 16) 0 a ;;
  t <- (if family =? 1 then pres4 addr 46 else pres6 addr 46) ;;
  Ok (Some t).

(** edns_options.c:107-121, _wdns_ednsoptcode_to_ubuf. *)
Definition ednsoptcode_text (code : Z) : bytes :=
  if code =? 8 then lit "CLIENT-SUBNET:" else if code =? 15 then lit "EDE:" else lit "OPT=" ++ fmt_u code ++ [58].

(** edns_options.c:139-144, print_printable. *)
Fixpoint print_printable (n : nat) (src : bytes) : outcome bytes :=
  match n with
  | O => Ok []
  | S k => c <- hd_rd src ;; t <- print_printable k (tl src) ;; Ok ((if isprint c then c else 46) :: t)
  end.

(** edns_options.c:226-231. *)
Fixpoint hex_blanks (n : nat) (size : Z) (src : bytes) : outcome bytes :=
  match n with
  | O => Ok []
  | S k => h <- hex1 false size src ;; t <- hex_blanks k size (tl src) ;; Ok (h ++ [32] ++ t)
  end.

(** edns_options.c:126-252, _wdns_ednsoptdata_to_ubuf; n is a uint16_t. Some: the wdns_res of a failure. *)
Definition ednsoptdata_text (code : Z) (src : bytes) (n : Z) : outcome (bytes * option res) :=
  if code =? 8 then
    if n <? 2 then Ok ([32], Some res_parse_error) else
    f <- take_rd src 2 ;;
    let family := be16 (nth 0 f 0) (nth 1 f 0) in
    let src := adv src 2 in let n := n - 2 in
    if n <? 1 then Ok ([32], Some res_parse_error) else
    source <- hd_rd src ;;
    let src := adv src 1 in let n := n - 1 in
    if n <? 1 then Ok ([32], Some res_parse_error) else
    scope <- hd_rd src ;;
    let src := adv src 1 in let n := n - 1 in
    o <- ip_to_ubuf family src n ;;
    match o with
    | None => Ok ([32], Some res_parse_error)
    | Some t => Ok ([32] ++ t ++ [47] ++ fmt_u source ++ [47] ++ fmt_u scope, None)
    end
  else if code =? 15 then
    if n <? 2 then Ok ([32], Some res_parse_error) else
    v <- take_rd src 2 ;;
    let info := be16 (nth 0 v 0) (nth 1 v 0) in
    let src := adv src 2 in let n := n - 2 in
    t <- u64_text 6 info ;;
    let purpose := if info <? zlen ede_purpose then lit " (" ++ nth (Z.to_nat info) ede_purpose [] ++ [41] else [] in
    p <- print_printable (Z.to_nat n) src ;;
    Ok ([32] ++ t ++ purpose ++ lit ": (" ++ p ++ [41], None)
  else
    h <- hex_blanks (Z.to_nat n) 3 src ;;
    p <- print_printable (Z.to_nat n) src ;;
    Ok ([32] ++ h ++ [40; 34] ++ p ++ [34; 41], None).

(** ** Rdata fields *)

(** Where a field leaves the loop of _wdns_rdata_to_ubuf: go on with src and src_bytes, goto err, goto err_res. *)
Inductive tflow := TNext (src : bytes) (n : Z) | TErr | TRes (r : res).

Definition after_res (r : option res) (k : outcome (bytes * tflow)) : outcome (bytes * tflow) :=
  match r with None => k | Some r => Ok ([], TRes r) end.

(** rdata_to_ubuf.c:366-374: [len] (size_t) octets in upper case hexadecimal. *)
Fixpoint bytes_text (src : bytes) (len : Z) : outcome bytes :=
  if len =? 0 then Ok []
  else match src with
  | [] => UB OobRead
  | c :: r => h <- hex1 true 3 src ;; t <- bytes_text r (len - 1) ;; Ok (h ++ t)
  end.

(** rdata_to_ubuf.c:425-431. *)
Fixpoint salt_hex (n : nat) (src : bytes) : outcome bytes :=
  match n with
  | O => Ok []
  | S k => h <- hex1 false 3 src ;; t <- salt_hex k (tl src) ;; Ok (h ++ t)
  end.

(** rdata_to_ubuf.c:530-537, 544-551: n octets joined with '-'; [first]: i == 0. *)
Fixpoint eui_text (n : nat) (first : bool) (src : bytes) : outcome bytes :=
  match n with
  | O => Ok []
  | S k => h <- hex1 false 3 src ;; t <- eui_text k false (tl src) ;; Ok ((if first then [] else [45]) ++ h ++ t)
  end.

(** rdata_to_ubuf.c:652-658, 679-685: the mnemonic of a type, else TYPE%hu, and a blank. *)
Definition rrtype_text (v : Z) : bytes :=
  match rrtype_to_str v with Some s => s ++ [32] | None => lit "TYPE" ++ fmt_u v ++ [32] end.

(** rdata_to_ubuf.c:675-688: the eight bits j of octet [a] starting at type lo of window w. *)
Fixpoint bits_text (j : nat) (w a lo : Z) : bytes :=
  match j with
  | O => []
  | S k =>
    (* 8 - j of the C loop, counted down from 7 *)
    (if negb (Z.land a (Z.shiftl 1 (Z.of_nat k)) =? 0) then rrtype_text (Z.lor (Z.shiftl w 8) lo) else []) ++ bits_text k w a (lo + 1)
  end.

(** rdata_to_ubuf.c:673-689. *)
Fixpoint bitmap_text (l : bytes) (w lo : Z) : bytes :=
  match l with [] => [] | a :: r => bits_text 8 w a lo ++ bitmap_text r w (lo + 8) end.

(** rdata_to_ubuf.c:668-691. *)
Fixpoint windows_text (fuel : nat) (src : bytes) (n : Z) : outcome (bytes * tflow) :=
  match fuel with
  | O => NoFuel
  | S k =>
    if n >=? 2 then
      h <- take_rd src 2 ;;
      let w := nth 0 h 0 in let len := nth 1 h 0 in
      let src := adv src 2 in let n := n - 2 in
      if n <? len then Ok ([], TErr)
      else
      bm <- take_rd src len ;;
      emit (bitmap_text bm w 0) (windows_text k (adv src len) (n - len))
    else Ok ([], TNext src n)
  end.

(** rdata_to_ubuf.c:575-626. *)
Fixpoint svcparams_text (fuel : nat) (src : bytes) (n : Z) : outcome (bytes * tflow) :=
  match fuel with
  | O => NoFuel
  | S k =>
    if n >? 0 then
      if n <? 2 then Ok ([], TErr) else
      v <- take_rd src 2 ;;
      let key := be16 (nth 0 v 0) (nth 1 v 0) in
      if key =? spr_invalid then Ok ([], TErr) else
      let head := svckey_to_str key ++ (if negb (key =? spr_nd_alpn) then [61] else []) in
      let src := adv src 2 in let n := n - 2 in
      if n <? 2 then Ok (head, TErr) else
      l <- take_rd src 2 ;;
      let val_len := be16 (nth 0 l 0) (nth 1 l 0) in
      let src := adv src 2 in let n := n - 2 in
      if n <? val_len then Ok (head, TErr) else
      '(t, r) <- svcparam_to_str key src val_len ;;
      emit (head ++ t) (after_res r (svcparams_text k (adv src val_len) (n - val_len)))
    else Ok ([], TNext src n)
  end.

(** rdata_to_ubuf.c:631-639. *)
Fixpoint strings_text (fuel : nat) (src : bytes) (n : Z) : outcome (bytes * tflow) :=
  match fuel with
  | O => NoFuel
  | S k =>
    if n >? 0 then
      oclen <- hd_rd src ;;
      let src := adv src 1 in let n := n - 1 in
      if n <? oclen then Ok ([], TErr)
      else
      t <- to_str_string src oclen ;;
      emit t (strings_text k (adv src oclen) (n - oclen))
    else Ok ([], TNext src n)
  end.

(** rdata_to_ubuf.c:699-729. *)
Fixpoint ednsopts_text (fuel : nat) (src : bytes) (n : Z) : outcome (bytes * tflow) :=
  match fuel with
  | O => NoFuel
  | S k =>
    if n >? 0 then
      if n <? 2 then Ok ([], TErr) else
      v <- take_rd src 2 ;;
      let code := be16 (nth 0 v 0) (nth 1 v 0) in
      let head := ednsoptcode_text code in
      let src := adv src 2 in let n := n - 2 in
      if n <? 2 then Ok (head, TErr) else
      l <- take_rd src 2 ;;
      let len := be16 (nth 0 l 0) (nth 1 l 0) in
      let src := adv src 2 in let n := n - 2 in
      if n <? len then Ok (head, TErr) else
      '(t, r) <- ednsoptdata_text code src len ;;
      emit (head ++ t) (after_res r
        (emit (if n - len >? 0 then [10] else []) (ednsopts_text k (adv src len) (n - len))))
    else Ok ([], TNext src n)
  end.

(** A number of [sz] octets (1, 2, 4) in decimal into a buffer of [size] characters, and a blank. *)
Definition int_text (sz size : Z) (src : bytes) (n : Z) : outcome (bytes * tflow) :=
  if n <? sz then Ok ([], TErr)
  else
  l <- take_rd src sz ;;
  t <- u64_text size (fold_left (fun a b => a * 256 + b) l 0) ;;
  Ok (t ++ [32], TNext (adv src sz) (n - sz)).

(** rdata_to_ubuf.c:353-733, the switch. *)
Definition field_text (t : rdf) (src : bytes) (n : Z) : outcome (bytes * tflow) :=
  match t with
  | rdf_name | rdf_uname =>
    match len_uname src n with
    | Ok len =>
      '(s, _) <- domain_to_str src len ;;
      Ok (s ++ [32], TNext (adv src len) (n - len))
    | Err r => Ok ([], TRes r)
    | UB f => UB f
    | NoFuel => NoFuel
    end
  | rdf_bytes => t <- bytes_text src (n mod 2^64) ;; Ok (t, TNext (adv src n) 0)
  | rdf_bytes_b64 => t <- bytes_to_base64 src n ;; Ok (t, TNext src 0)
  | rdf_bytes_str => t <- to_str_string src (n mod 2^64) ;; Ok (t, TNext (adv src n) 0)
  | rdf_ipv6prefix =>
    if n <? 1 then Ok ([], TErr) else
    p <- hd_rd src ;;
    let src := adv src 1 in
    if p >? 128 then Ok ([], TErr) else
    let oclen := (128 - p) / 8 + (if negb (p mod 8 =? 0) then 1 else 0) in
    if n <? 1 + oclen then Ok ([], TErr) else
    a <- take_rd src oclen ;;
    addr <- blit (repeat 0 16) (16 - oclen) a ;;
    s <- (if oclen >? 0 then s <- pres6 addr 46 ;; Ok (s ++ [32]) else Ok []) ;;
    Ok (fmt_u p ++ [32] ++ s, TNext (adv src oclen) (n - (oclen + 1)))
  | rdf_salt =>
    if n <? 1 then Ok ([], TErr) else
    oclen <- hd_rd src ;;
    let src := adv src 1 in
    if n <? 1 + oclen then Ok ([], TErr) else
    h <- salt_hex (Z.to_nat oclen) src ;;
    Ok ((if oclen =? 0 then [45] else []) ++ h ++ [32], TNext (adv src oclen) (n - (oclen + 1)))
  | rdf_hash =>
    if n <? 1 then Ok ([], TErr) else
    oclen <- hd_rd src ;;
    let src := adv src 1 in
    if n <? 1 + oclen then Ok ([], TErr)
    else if oclen =? 0 then Ok ([48; 32], TNext src (n - 1))
    else
    l <- take_rd src oclen ;;
    t <- base32_encode (2 * oclen + 1) l ;;
    Ok (t ++ [32], TNext (adv src oclen) (n - (oclen + 1)))
  | rdf_int8 => int_text 1 6 src n
  | rdf_int16 => int_text 2 6 src n
  | rdf_int32 => int_text 4 11 src n
  | rdf_ipv4 =>
    if n <? 4 then Ok ([], TErr) else
    t <- pres4 src 16 ;; Ok (t ++ [32], TNext (adv src 4) (n - 4))
  | rdf_ipv6 =>
    if n <? 16 then Ok ([], TErr) else
    t <- pres6 src 46 ;; Ok (t ++ [32], TNext (adv src 16) (n - 16))
  | rdf_eui48 =>
    if n <? 6 then Ok ([], TErr) else
    t <- eui_text 6 true src ;; Ok (t, TNext (adv src 6) (n - 6))
  | rdf_eui64 =>
    if n <? 8 then Ok ([], TErr) else
    t <- eui_text 8 true src ;; Ok (t, TNext (adv src 8) (n - 8))
  | rdf_string =>
    if n <? 1 then Ok ([], TErr) else
    oclen <- hd_rd src ;;
    let src := adv src 1 in let n := n - 1 in
    if n <? oclen then Ok ([], TErr) else
    t <- to_str_string src oclen ;;
    Ok (t, TNext (adv src oclen) (n - oclen))
  | rdf_svcparams => svcparams_text (S (length src)) src n
  | rdf_repstring => strings_text (S (length src)) src n
  | rdf_rrtype =>
    if n <? 2 then Ok ([], TErr) else
    v <- take_rd src 2 ;;
    Ok (rrtype_text (be16 (nth 0 v 0) (nth 1 v 0)), TNext (adv src 2) (n - 2))
  | rdf_type_bitmap => if n <? 2 then Ok ([], TErr) else windows_text (S (length src)) src n
  | rdf_edns_opt_rdata => ednsopts_text (S (length src)) src n
  end.

(** rdata_to_ubuf.c:349-734, the loop over the fields. The text and how the loop was left (TNext: at its end). *)
Fixpoint fields_text (ts : list rdf) (src : bytes) (n : Z) : outcome (bytes * tflow) :=
  match ts with
  | [] => Ok ([], TNext src n)
  | t :: ts =>
    if n =? 0 then Ok ([], TNext src n)
    else
    '(o, f) <- field_text t src n ;;
    match f with TNext src n => emit o (fields_text ts src n) | TErr => Ok (o, TErr) | TRes r => Ok (o, TRes r) end
  end.

(** ubuf_rstrip-like code of rdata_to_ubuf.c:736-738: drop one trailing blank. *)
Definition strip_blank (u : bytes) : bytes :=
  match rev u with c :: r => if c =? 32 then rev r else u | [] => u end.

(** rdata_to_ubuf.c:294-749, _wdns_rdata_to_ubuf: the ubuf afterwards. *)
Definition rdata_to_ubuf (u rdata : bytes) (rdlen rrtype rrclass : Z) : outcome bytes :=
  match lookup_descr rrtype with
  | None =>
    t <- u64_text 6 rdlen ;;
    h <- hex_blanks (Z.to_nat rdlen) 6 rdata ;;
    Ok (u ++ [92; 35; 32] ++ t ++ [32] ++ h)
  | Some d =>
    if negb ((d_class d =? class_un) || (d_class d =? rrclass)) then Ok u
    else
    '(t, f) <- fields_text (d_types d) rdata rdlen ;;
    match f with
    | TNext _ _ => Ok (strip_blank (u ++ t))
    | TErr => Ok (u ++ t ++ lit " ### PARSE ERROR ###")
    | TRes r => Ok (u ++ t ++ lit " ### PARSE ERROR #" ++ fmt_u (res_code r) ++ lit " ###")
    end
  end.

(** rdata_to_str.c:17-32, wdns_rdata_to_str: the string without its NUL. *)
Definition rdata_to_str (rdata : bytes) (rdlen rrtype rrclass : Z) : outcome bytes :=
  rdata_to_ubuf [] rdata rdlen rrtype rrclass.

(** ** RRs, RRsets, messages *)

(** rr_to_ubuf.c:17-58, _wdns_rr_to_ubuf. rr->rdata == NULL (question RRs) is dereferenced unless sec is 0. The arrays
    name.data and rdata->data of the C structures have exactly name.len and rdata->len octets. *)
Definition rr_to_ubuf (u : bytes) (r : rr) (sec : Z) : outcome bytes :=
  '(name, _) <- domain_to_str (rr_name r) (zlen (rr_name r)) ;;
  let u := if sec =? 0 then u ++ [59] else u in
  let u := u ++ name in
  ttl <- (if negb (sec =? 0) then t <- u64_text 11 (rr_ttl r) ;; Ok ([32] ++ t) else Ok []) ;;
  let u := u ++ ttl in
  let u := u ++ [32] ++ match rrclass_to_str (rr_class r) with Some s => s | None => lit "CLASS" ++ fmt_u (rr_class r) end in
  let u := u ++ [32] ++ match rrtype_to_str (rr_type r) with Some s => s | None => lit "TYPE" ++ fmt_u (rr_type r) end in
  u <- (if negb (sec =? 0) then
          match rr_rdata r with
          | None => UB NullDeref
          | Some d => rdata_to_ubuf (u ++ [32]) d (zlen d) (rr_type r) (rr_class r)
          end
        else Ok u) ;;
  Ok (u ++ [10]).

(** rr_to_str.c:17-30, wdns_rr_to_str. *)
Definition rr_to_str (r : rr) (sec : Z) : outcome bytes := rr_to_ubuf [] r sec.

Fixpoint rrs_to_ubuf (u : bytes) (rs : list rr) (sec : Z) : outcome bytes :=
  match rs with [] => Ok u | r :: rs => u <- rr_to_ubuf u r sec ;; rrs_to_ubuf u rs sec end.

(** rrset_to_ubuf.c:17-37, _wdns_rrset_to_ubuf: for the question section one RR is printed, reading rdatas[0] whatever
    n_rdatas is; an empty rdatas is the NULL pointer (never allocated). *)
Definition rrset_to_ubuf (u : bytes) (s : rrset) (sec : Z) : outcome bytes :=
  let mk d := {| rr_name := rs_name s; rr_type := rs_type s; rr_class := rs_class s; rr_ttl := rs_ttl s; rr_rdata := Some d |} in
  if sec =? 0 then
    match rs_rdatas s with [] => UB NullDeref | d :: _ => rrs_to_ubuf u [mk d] sec end
  else rrs_to_ubuf u (map mk (rs_rdatas s)) sec.

(** rrset_to_str.c:17-30. *)
Definition rrset_to_str (s : rrset) (sec : Z) : outcome bytes := rrset_to_ubuf [] s sec.

(** rrset_array_to_ubuf.c:17-22, rrset_array_to_str.c:17-30. *)
Definition rrset_array_to_ubuf (u : bytes) (a : rrset_array) (sec : Z) : outcome bytes := rrs_to_ubuf u (a_rrs a) sec.
Definition rrset_array_to_str (a : rrset_array) (sec : Z) : outcome bytes := rrset_array_to_ubuf [] a sec.

(** wdns.h.in:166-174, WDNS_FLAGS_*: bit k of the flags. *)
Definition flag_bit (flags k : Z) : bool := negb (Z.land (Z.shiftr flags k) 1 =? 0).
Definition flags_opcode (flags : Z) : Z := Z.land (Z.shiftr flags 11) 15.

(** message_to_str.c:75-80, the strtok_r loop over the lines of the options text. *)
Fixpoint opt_lines (fuel : nat) (s : bytes) : outcome bytes :=
  match fuel with
  | O => NoFuel
  | S k => match strtok 10 s with None => Ok [] | Some (t, r) => o <- opt_lines k r ;; Ok (lit "
; " ++ t ++ o) end
  end.

(** message_to_str.c:31-41. *)
Definition opcode_text (m : message) : bytes :=
  match opcode_to_str (flags_opcode (m_flags m)) with Some s => s | None => fmt_u (flags_opcode (m_flags m)) end.
Definition rcode_text (m : message) : bytes :=
  match rcode_to_str (m_rcode m) with Some s => s | None => fmt_u (m_rcode m) end.

Definition on (b : bool) (s : bytes) : bytes := if b then s else [].
(** message_to_str.c:29-59. *)
Definition header_text (m : message) : bytes :=
  let b := flag_bit (m_flags m) in
  lit ";; ->>HEADER<<- opcode: " ++ opcode_text m ++ lit ", rcode: " ++ rcode_text m ++ lit ", id: " ++ fmt_u (m_id m) ++ [10] ++
  lit ";; flags:" ++ on (b 15) (lit " qr") ++ on (b 10) (lit " aa") ++ on (b 9) (lit " tc") ++ on (b 8) (lit " rd") ++
  on (b 7) (lit " ra") ++ on (b 5) (lit " ad") ++ on (b 4) (lit " cd") ++ lit "; " ++
  lit "QUERY: " ++ fmt_u (zlen (a_rrs (m_qd m))) ++ lit ", ANSWER: " ++ fmt_u (zlen (a_rrs (m_an m))) ++
  lit ", AUTHORITY: " ++ fmt_u (zlen (a_rrs (m_ns m))) ++ lit ", ADDITIONAL: " ++ fmt_u (zlen (a_rrs (m_ar m))) ++ [10].

(** message_to_str.c:61-85. *)
Definition edns_text (e : edns) : outcome bytes :=
  if negb (e_present e) then Ok []
  else
  o <- (match e_options e with
        | None => Ok []
        | Some d => t <- rdata_to_ubuf [] d (zlen d) 41 class_un ;; opt_lines (S (length t)) t
        end) ;;
  Ok ([10] ++ lit ";; OPT PSEUDOSECTION:" ++ [10] ++ lit "; EDNS: version: " ++ fmt_u (e_version e) ++ lit ", flags:" ++
      on (negb (Z.land (e_flags e) 32768 =? 0)) (lit " do") ++ lit "; udp: " ++ fmt_u (e_size e) ++ o).

(** message_to_str.c:18-101, wdns_message_to_str. *)
Definition message_to_str (m : message) : outcome bytes :=
  e <- edns_text (m_edns m) ;;
  let u := header_text m ++ e in
  u <- rrset_array_to_ubuf (u ++ [10] ++ lit ";; QUESTION SECTION:" ++ [10]) (m_qd m) 0 ;;
  u <- rrset_array_to_ubuf (u ++ [10] ++ lit ";; ANSWER SECTION:" ++ [10]) (m_an m) 1 ;;
  u <- rrset_array_to_ubuf (u ++ [10] ++ lit ";; AUTHORITY SECTION:" ++ [10]) (m_ns m) 2 ;;
  rrset_array_to_ubuf (u ++ [10] ++ lit ";; ADDITIONAL SECTION:" ++ [10]) (m_ar m) 3.
