(** ModelFromStr.v: str_to_rdata_ubuf.c, wdns_str_to_rdata.

    A C string is the list of its characters without NUL; a pointer into it is the suffix it points to ([] : at the NUL),
    NULL is [None]. Since every error path ends in ubuf_clip(u, u_orig_size) (lines 1136-1138) the octets appended before
    an error are not observable and errors are plain [Err]. *)
From Verif Require Import Base ModelName ModelDescr Libc ModelFormat ModelTables ModelRRset.

(** str += n: must not pass the terminating NUL. *)
Definition skip (s : bytes) (n : Z) : outcome bytes := if zlen s <? n then UB OobRead else Ok (adv s n).

(** strpbrk(str, " \t\r\n"): the token before the delimiter, and the suffix from the delimiter on ([]: NULL). *)
Definition is_blank (c : Z) : bool := (c =? 32) || (c =? 9) || (c =? 13) || (c =? 10).
Definition token (s : bytes) : bytes * bytes := split_at is_blank s.
(** [end] when strpbrk's NULL is kept. *)
Definition end_or_null (r : bytes) : option bytes := match r with [] => None | _ => Some r end.

(** ** Character-strings *)
Definition cons_fst (c : Z) (o : option (bytes * bytes)) : option (bytes * bytes) :=
  match o with Some (l, r) => Some (c :: l, r) | None => None end.

(** str_to_rdata_ubuf.c:32-78: the octets and the string behind, or None (goto err). The strncpy/sscanf("%hu") of three
    digits (lines 47-53) is written as their value. *)
Fixpoint fss (quoted : bool) (s : bytes) : option (bytes * bytes) :=
  match s with
  | [] => if quoted then None else Some ([], [])
  | c :: r =>
    if quoted && (c =? 34) then Some ([], r)
    else if negb quoted && isspace c then Some ([], s)
    else if c =? 92 then
      match r with
      | [] => None
      | d :: r1 =>
        if (d =? 34) || (d =? 92) then cons_fst d (fss quoted r1)
        else if is_digit d then
          match r1 with
          | e :: f :: r2 =>
            if is_digit e && is_digit f then
              let v := (d - 48) * 100 + (e - 48) * 10 + (f - 48) in
              if negb (v mod 256 =? v) then None else cons_fst v (fss quoted r2)
            else None
          | _ => None
          end
        else None
      end
    else if (32 <=? c) && (c <=? 126) then cons_fst c (fss quoted r)
    else None
  end.

(** str_to_rdata_ubuf.c:20-79, rdata_from_str_string: None when 0 is returned. *)
Definition from_str_string (s : bytes) : option (bytes * bytes) :=
  match s with
  | [] => None
  | c :: r =>
    if c =? 34 then fss true r
    else if isspace c then None
    else fss false s
  end.

(** str_to_rdata_ubuf.c:103-132, str_to_ubuf (also 884-907): the length octet and the string. *)
Definition str_to_cs (s : bytes) : outcome (bytes * bytes) :=
  match from_str_string s with
  | None => Err res_parse_error
  | Some (l, r) => if negb (zlen l mod 256 =? zlen l) then Err res_parse_error else Ok (zlen l :: l, r)
  end.

(** ** SvcParams *)
Definition be16_octets (v : Z) : bytes := [v / 256 mod 256; v mod 256].

(** The string at [v] as a C string: up to the first NUL. *)
Definition cstr (v : bytes) : bytes := fst (split_at (fun c => c =? 0) v).

(** str_to_rdata_ubuf.c:185-195; tok from strtok_r, [s] what is left. *)
Fixpoint mandatory_toks (fuel : nat) (s : bytes) : outcome bytes :=
  match fuel with
  | O => NoFuel
  | S k =>
    match strtok 44 s with
    | None => Ok []
    | Some (t, r) =>
      let v := str_to_svckey t in
      if v =? spr_invalid then Err res_parse_error else o <- mandatory_toks k r ;; Ok (be16_octets v ++ o)
    end
  end.

(** str_to_rdata_ubuf.c:251-261. *)
Fixpoint hint_toks (fuel : nat) (v4 : bool) (s : bytes) : outcome bytes :=
  match fuel with
  | O => NoFuel
  | S k =>
    match strtok 44 s with
    | None => Ok []
    | Some (t, r) =>
      match (if v4 then inet_pton4 t else inet_pton6 t) with
      | None => Err res_parse_error
      | Some a => o <- hint_toks k v4 r ;; Ok (a ++ o)
      end
    end
  end.

(** str_to_rdata_ubuf.c:287-326: [v] the value from val[i] on, [cur] the octets appended behind the length octet at
    [offset], [out] what was appended before it (from the first length octet on), [oclen] (uint8_t), [vl]: val_len
    (uint16_t). Result: the octets appended and val_len. *)
Fixpoint alpn_parse (v : bytes) (out cur : bytes) (oclen vl : Z) : outcome (bytes * Z) :=
  match v with
  | [] =>
    if negb (oclen =? 0) then Ok (out ++ [oclen] ++ cur, (vl + oclen + 1) mod 65536)
    else Ok (out ++ [0] ++ cur, vl)
  | c :: r =>
    if c =? 92 then
      match r with
      | [] => Err res_parse_error
      | d :: r' =>
        if negb (d =? 92) && negb (d =? 44) then Err res_parse_error
        else alpn_parse r' out (cur ++ [d]) ((oclen + 1) mod 256) vl
      end
    else if c =? 44 then alpn_parse r (out ++ [oclen] ++ cur) [] 0 ((vl + oclen + 1) mod 65536)
    else alpn_parse r out (cur ++ [c]) ((oclen + 1) mod 256) vl
  end.

(** str_to_rdata_ubuf.c:140-341, str_to_svcparam: the octets appended. [val]: None is NULL; it has len_val octets and a
    NUL behind them. *)
Definition str_to_svcparam (key : Z) (val : option bytes) : outcome bytes :=
  if key =? spr_invalid then UB AssertFail
  else if key =? spr_nd_alpn then
    match val with Some _ => Err res_parse_error | None => Ok (be16_octets key ++ [0; 0]) end
  else
  match val with
  | None => UB NullDeref
  | Some val =>
    let done (r : outcome (bytes * Z)) := '(o, vl) <- r ;; Ok (be16_octets key ++ be16_octets vl ++ o) in
    let lst (r : outcome bytes) := match strtok 44 (cstr val) with
      | None => Err res_parse_error
      | Some _ => done (o <- r ;; Ok (o, zlen o mod 65536)) end in
    if key =? spr_mandatory then lst (mandatory_toks (S (length val)) (cstr val))
    else if key =? spr_port then
      match strtok 32 (cstr val) with
      | None => Err res_parse_error
      | Some (t, _) =>
        let '(v, rest) := strtoul t in
        if negb (match rest with [] => true | _ => false end) || (v >? 65535) then Err res_parse_error
        else done (Ok (be16_octets v, 2))
      end
    else if key =? spr_ech then
      match strtok 32 (cstr val) with
      | None => Err res_parse_error
      | Some (t, _) =>
        if zlen t >? 255 then Err res_parse_error
        else done (o <- base64_str_to_bytes t ;; Ok (o, zlen o mod 65536))
      end
    else if key =? spr_ipv4hint then lst (hint_toks (S (length val)) true (cstr val))
    else if key =? spr_ipv6hint then lst (hint_toks (S (length val)) false (cstr val))
    else if key =? spr_alpn then done (alpn_parse val [] [] 0 0)
    else done (Ok (val, zlen val mod 65536))
  end.

(** str_to_rdata_ubuf.c:945-1036: the loop over the parameters; [s]: from start to eol. *)
Fixpoint svcparams_parse (fuel : nat) (s : bytes) : outcome bytes :=
  match fuel with
  | O => NoFuel
  | S k =>
    match s with
    | [] => Ok []
    | c :: r =>
      if c =? 32 then svcparams_parse k r
      else
      let '(ks, val) := split_at (fun c => (c =? 61) || (c =? 32)) s in
      let key := str_to_svckey ks in
      if key =? spr_invalid then Err res_parse_error
      else
      let bare :=
        if negb (key =? spr_nd_alpn) then Err res_parse_error
        else
        o <- str_to_svcparam key None ;;
        o' <- svcparams_parse k val ;;
        Ok (o ++ o') in
      match val with
      | [] => bare
      | c :: v =>
        if c =? 61 then
          match from_str_string v with
          | None => Err res_parse_error
          | Some (l, e) =>
            o <- str_to_svcparam key (Some l) ;;
            o' <- svcparams_parse k e ;;
            Ok (o ++ o')
          end
        else bare
      end
    end
  end.

(** ** Type bit maps *)

(** str_to_rdata_ubuf.c:1057-1084: the list of types. *)
Fixpoint bitmap_toks (fuel : nat) (s : bytes) : outcome (list Z) :=
  match fuel with
  | O => NoFuel
  | S k =>
    match s with
    | [] => Ok []
    | c :: r =>
      if isspace c then bitmap_toks k r
      else
      let '(t, e) := token s in
      let v := str_to_rrtype t in
      if (v =? 0) && negb (strcasecmp t (lit "TYPE0") =? 0) then Err res_parse_error
      else o <- bitmap_toks k e ;; Ok (v :: o)
    end
  end.

(** qsort with cmp_u16 (str_to_rdata_ubuf.c:343-348, 1085): some sorting algorithm. *)
Fixpoint ins_u16 (v : Z) (l : list Z) : list Z :=
  match l with [] => [v] | w :: r => if v <=? w then v :: l else w :: ins_u16 v r end.
Definition sort_u16 (l : list Z) : list Z := fold_right ins_u16 [] l.

(** str_to_rdata_ubuf.c:1100-1104, 1116-1120: append the window. *)
Definition flush_window (w len : Z) (bm : bytes) : outcome bytes :=
  if len >? 0 then b <- take_rd bm len ;; Ok ([w; len] ++ b) else Ok [].

(** str_to_rdata_ubuf.c:1087-1120. *)
Fixpoint windows_parse (ts : list Z) (last w len : Z) (bm : bytes) : outcome bytes :=
  match ts with
  | [] => flush_window w len bm
  | t :: ts =>
    if t =? last then windows_parse ts last w len bm
    else
    let cur := t / 256 in
    o <- (if negb (cur =? w) then flush_window w len bm else Ok []) ;;
    let bm := if negb (cur =? w) then repeat 0 32 else bm in
    let offset := t mod 256 in
    let byte := offset / 8 in
    let bit := offset mod 8 in
    b <- rd bm byte ;;
    bm <- set_at bm byte (Z.lor b (Z.shiftr 128 bit)) ;;
    o' <- windows_parse ts t cur (1 + byte) bm ;;
    Ok (o ++ o')
  end.
Definition types_to_bitmap (ts : list Z) : outcome bytes := windows_parse (sort_u16 ts) 65536 0 0 (repeat 0 32).

(** ** Fields *)

(** sscanf(str, "%02hhx", &c) into an uninitialised c: 0 conversions is the tested error, EOF is not noticed. *)
Definition scan_octet (s : bytes) : outcome Z :=
  match scan_hh s with ScanVal v _ => Ok v | ScanNone => Err res_parse_error | ScanEof => UB Uninit end.

(** str_to_rdata_ubuf.c:474-486. *)
Fixpoint hex_pairs (fuel : nat) (s : bytes) : outcome bytes :=
  match fuel with
  | O => NoFuel
  | S k =>
    match s with
    | [] => Ok []
    | [_] => Err res_parse_error
    | _ :: _ :: r => c <- scan_octet s ;; o <- hex_pairs k r ;; Ok (c :: o)
    end
  end.

(** str_to_rdata_ubuf.c:613-622: [n] = oclen. *)
Fixpoint salt_pairs (n : nat) (s : bytes) : outcome (bytes * bytes) :=
  match n with
  | O => Ok ([], s)
  | S k => c <- scan_octet s ;; s <- skip s 2 ;; '(o, s) <- salt_pairs k s ;; Ok (c :: o, s)
  end.

(** str_to_rdata_ubuf.c:668-755: an integer of [sz] octets; all characters of the token are digits, sscanf of a uint64_t. *)
Fixpoint be_octets (sz : nat) (v : Z) : bytes :=
  match sz with O => [] | S k => be_octets k (v / 256) ++ [v mod 256] end.
Definition int_field (sz : nat) (s : bytes) : outcome (bytes * option bytes) :=
  let '(t, e) := token s in
  if negb (forallb is_digit t) then Err res_parse_error
  else match scan_u s with
  | ScanNone => Ok ([], Some e)
  | ScanEof => UB Uninit
  | ScanVal v _ =>
    if negb (v mod (256 ^ Z.of_nat sz) =? v) then Err res_parse_error else Ok (be_octets sz v, Some e)
  end.

(** str_to_rdata_ubuf.c:808-862: n groups of two hexadecimal digits joined by '-'; the checks of the for loop ... *)
Fixpoint eui_check (n : nat) (s : bytes) : outcome bool :=
  match n with
  | O => Ok true
  | S k =>
    a <- hd_rd s ;; b <- hd_rd (tl s) ;;
    if negb (isxdigit a) || negb (isxdigit b) then Ok false
    else match k with
    | O => Ok true
    | S _ => c <- hd_rd (tl (tl s)) ;; if negb (c =? 45) then Ok false else eui_check k (adv s 3)
    end
  end.
(** ... and the sscanf with n conversions (None: fewer than n). *)
Fixpoint eui_scan (n : nat) (s : bytes) : option bytes :=
  match n with
  | O => Some []
  | S k =>
    match scan_hh s with
    | ScanVal v r =>
      match k with
      | O => Some [v]
      | S _ => match r with c :: r' => if c =? 45 then match eui_scan k r' with Some l => Some (v :: l) | None => None end
                                       else None | [] => None end
      end
    | _ => None
    end
  end.
Definition eui_field (n : nat) (s : bytes) : outcome (bytes * option bytes) :=
  if negb (zlen s =? 3 * Z.of_nat n - 1) then Err res_parse_error
  else
  ok <- eui_check n s ;;
  if negb ok then Err res_parse_error
  else match eui_scan n s with None => Err res_parse_error | Some l => Ok (l, Some []) end.

(** str_to_rdata_ubuf.c:881-910, repstring. *)
Fixpoint strings_parse (fuel : nat) (s : bytes) : outcome bytes :=
  match fuel with
  | O => NoFuel
  | S k =>
    match s with
    | [] => Ok []
    | c :: r =>
      if isspace c then strings_parse k r
      else '(o, e) <- str_to_cs s ;; o' <- strings_parse k e ;; Ok (o ++ o')
    end
  end.

(** str_to_rdata_ubuf.c:510-595, ipv6prefix (A6). *)
Definition prefix_field (s : bytes) : outcome (bytes * option bytes) :=
  let '(t, e) := token s in
  if negb (forallb is_digit t) then Err res_parse_error
  else match scan_u s with
  | ScanNone => Err res_parse_error
  | ScanEof => UB Uninit
  | ScanVal v _ =>
    let p := v mod 256 in
    if p >? 128 then Err res_parse_error
    else
    let s := skip_space e in
    match s with
    | [] => Err res_parse_error
    | _ =>
      let '(t, e) := token s in
      let oclen := (128 - p) / 8 + (if negb (p mod 8 =? 0) then 1 else 0) in
      match inet_pton6 t with
      | Some a =>
        o <- rds a (16 - oclen) oclen ;;
        match end_or_null e with
        | Some e' =>
          if p =? 0 then match skip_space e' with [] => Ok (p :: o, None) | _ => Err res_parse_error end
          else Ok (p :: o, Some e')
        | None => Ok (p :: o, None)
        end
      | None => if negb (p =? 128) then Err res_parse_error else Ok ([p], Some s)
      end
    end
  end.

(** str_to_rdata_ubuf.c:440-1131, the switch; [s]: str, not at white space nor at the NUL. Result: the octets appended and
    str afterwards. The name token was copied by strndup, so nothing is accessible behind its NUL. *)
Definition parse_text_field (t : rdf) (s : bytes) : outcome (bytes * option bytes) :=
  match t with
  | rdf_name | rdf_uname =>
    let '(t, e) := token s in
    '(d, len) <- str_to_name_case t [] ;;
    l <- take_rd d len ;;
    Ok (l, end_or_null e)
  | rdf_bytes => o <- hex_pairs (S (length s)) s ;; Ok (o, Some [])
  | rdf_bytes_b64 => o <- base64_str_to_bytes s ;; e <- skip s (zlen o) ;; Ok (o, Some e)
  | rdf_bytes_str =>
    if (zlen s >=? 3) && (nth 0 s 0 =? 34) && (last s 0 =? 34) then
      match from_str_string s with None => Err res_parse_error | Some (l, _) => Ok (l, Some []) end
    else Err res_parse_error
  | rdf_ipv6prefix => prefix_field s
  | rdf_salt =>
    let '(t, e) := token s in
    if (nth 0 s 0 =? 45) && (zlen t =? 1) then s <- skip s 1 ;; Ok ([0], Some s)
    else if (zlen t >? 510) || (zlen t mod 2 =? 1) then Err res_parse_error
    else
    '(o, s) <- salt_pairs (Z.to_nat (zlen t / 2)) s ;; Ok (zlen t / 2 :: o, Some s)
  | rdf_hash =>
    let '(t, e) := token s in
    if zlen t =? 1 then s <- skip s 1 ;; Ok ([0], Some s)
    else
    o <- base32_decode (zlen t) t ;;
    match o with
    | None => Err res_parse_error
    | Some l => if negb (zlen l mod 256 =? zlen l) then Err res_parse_error else Ok (zlen l :: l, Some e)
    end
  | rdf_int8 => int_field 1 s
  | rdf_int16 => int_field 2 s
  | rdf_int32 => int_field 4 s
  | rdf_ipv4 =>
    let '(t, e) := token s in
    match inet_pton4 t with None => Err res_parse_error | Some a => Ok (a, Some e) end
  | rdf_ipv6 =>
    let '(t, e) := token s in
    match inet_pton6 t with None => Err res_parse_error | Some a => Ok (a, end_or_null e) end
  | rdf_eui48 => eui_field 6 s
  | rdf_eui64 => eui_field 8 s
  | rdf_string => '(o, e) <- str_to_cs s ;; Ok (o, Some e)
  | rdf_repstring => o <- strings_parse (S (length s)) s ;; Ok (o, Some [])
  | rdf_rrtype =>
    let '(t, e) := token s in
    let v := str_to_rrtype t in
    if v >? 0 then Ok (be16_octets v, end_or_null e) else Err res_parse_error
  | rdf_svcparams => o <- svcparams_parse (S (length s)) s ;; Ok (o, Some s)
  | rdf_type_bitmap =>
    ts <- bitmap_toks (S (length s)) s ;;
    o <- types_to_bitmap ts ;;
    Ok (o, None)
  | rdf_edns_opt_rdata => Err res_failure
  end.

(** str_to_rdata_ubuf.c:427-1133, the loop over the fields. *)
Fixpoint parse_text_fields (ts : list rdf) (s : option bytes) : outcome bytes :=
  match ts with
  | [] => Ok []
  | t :: ts =>
    match s with
    | None => Ok []
    | Some s =>
      match skip_space s with
      | [] => Ok []
      | s => '(o, e) <- parse_text_field t s ;; o' <- parse_text_fields ts e ;; Ok (o ++ o')
      end
    end
  end.

(** str_to_rdata_ubuf.c:395-413: the octets of a generic text. *)
Fixpoint generic_octets (fuel : nat) (s : bytes) : outcome bytes :=
  match fuel with
  | O => NoFuel
  | S k =>
    match s with
    | [] => Ok []
    | c :: r =>
      if isspace c then generic_octets k r
      else match r with
      | [] => Err res_parse_error
      | _ :: r' => v <- scan_octet s ;; o <- generic_octets k r' ;; Ok (v :: o)
      end
    end
  end.

(** str_to_rdata_ubuf.c:366-418. sscanf("%hu") stores the value modulo 2^16; on EOF rdlen stays uninitialised and is
    compared with len unless an error occurs first. *)
Definition str_to_generic_rdata (s : bytes) : outcome bytes :=
  if negb (prefix_eq [92; 35] s) then Err res_parse_error
  else
  let s := skipn 2 s in
  match s with
  | [] => Err res_parse_error
  | c :: _ =>
    if negb (isspace c) then Err res_parse_error
    else
    let s := skip_space s in
    let '(t, e) := split_at isspace s in
    if negb (forallb is_digit t) then Err res_parse_error
    else
    rdlen <- (match scan_u s with ScanNone => Err res_parse_error | ScanEof => Ok None | ScanVal v _ => Ok (Some (v mod 65536)) end) ;;
    o <- generic_octets (S (length e)) e ;;
    match rdlen with
    | None => UB Uninit
    | Some n => if negb (zlen o =? n) then Err res_parse_error else Ok o
    end
  end.

(** str_to_rdata_ubuf.c:352-1139, _wdns_str_to_rdata_ubuf, and rdata_to_str.c:34-46, wdns_str_to_rdata. *)
Definition str_to_rdata (s : bytes) (rrtype rrclass : Z) : outcome bytes :=
  match lookup_descr rrtype with
  | None => str_to_generic_rdata s
  | Some d =>
    if negb ((d_class d =? class_un) || (d_class d =? rrclass)) then Ok []
    else parse_text_fields (d_types d) (Some s)
  end.
