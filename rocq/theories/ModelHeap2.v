(** ModelHeap2.v: the allocations and frees of the functions that convert from and to text, print, and deserialise.

    As in ModelHeap.v the values come from the models of the functions without heap; here every temporary block, every ubuf
    and every exit is followed. The octets a field appends to a ubuf are appended at once, and before an error none. *)
From Verif Require Import Base ModelName ModelDescr ModelParse Libc ModelFormat ModelTables ModelRRset ModelToStr ModelFromStr ModelHeap.

(** [if (e fails) { c; return the code }]. *)
Definition on_err {A} (e : hm A) (c : hm unit) : hm A := fun h =>
  match e h with HErr r h => (c ;;;; herr r) h | x => x end.

(** ** ubufs *)

(** vector.h:95-102, _append (and _add): the data block is reallocated with its new contents. *)
Definition ubuf_append_h (u : ptr) (l : bytes) : hm unit :=
  d <-- load_ubuf u ;;; c <-- load_bytes d ;;; free d ;;;; d <-- alloc (CBytes (c ++ l)) ;;; store u (CUbuf d).
(** vector.h:121-129, _clip and stores into the contents: the block stays. *)
Definition ubuf_set_h (u : ptr) (f : bytes -> bytes) : hm unit :=
  d <-- load_ubuf u ;;; c <-- load_bytes d ;;; store d (CBytes (f c)).
(** ubuf.h:55-63, ubuf_cterm. *)
Definition cterm (c : bytes) : bytes := match rev c with 0 :: _ => c | _ => c ++ [0] end.
Definition ubuf_cterm_h (u : ptr) : hm unit :=
  d <-- load_ubuf u ;;; c <-- load_bytes d ;;;
  match rev c with 0 :: _ => ret tt | _ => ubuf_append_h u [0] end.
(** vector.h:49-59, _detach: the block and its size go to the caller, the vector gets a new one. *)
Definition ubuf_detach_h (u : ptr) : hm (ptr * Z) :=
  d <-- load_ubuf u ;;; c <-- load_bytes d ;;; d' <-- alloc (CBytes []) ;;; store u (CUbuf d') ;;;; ret (d, zlen c).

(** ** Text to names and rdata *)

(** wdns/str_to_name.c:27-138. Result: name->len and name->data; [s]: the characters, [after]: memory behind the NUL. *)
Definition str_to_name_h (downcase : bool) (s after : bytes) : hm (Z * ptr) :=
  if (zlen s =? 0) || ((zlen s =? 1) && (nth 0 s 0 =? 46)) then p <-- alloc (CBytes [-1]) ;;; store p (CBytes [0]) ;;;; ret (1, p)
  else
  p <-- alloc (CBytes (repeat (-1) 255)) ;;;
  x <-- on_err (lift (str_to_name_gen downcase s after)) (free p) ;;;
  store p (CBytes (fst x)) ;;;;
  ret (snd x, p).

(** strndup(str, n) or strdup(str) and free. *)
Definition dup_h (t : bytes) : hm ptr := alloc (CBytes t).

(** str_to_rdata_ubuf.c:441-471. *)
Definition name_field_h (u : ptr) (s : bytes) : hm (option bytes) :=
  let '(t, e) := token s in
  sp <-- dup_h t ;;;
  np <-- alloc (CName 0 0) ;;;
  t' <-- load_bytes sp ;;;
  x <-- on_err (str_to_name_h false t' []) (free sp ;;;; free np) ;;;
  store np (CName (fst x) (snd x)) ;;;;
  nm <-- load_name np ;;;
  d <-- load_bytes (snd nm) ;;;
  l <-- lift (take_rd d (fst nm)) ;;;
  ubuf_append_h u l ;;;;
  free sp ;;;;
  nm <-- load_name np ;;;
  (if negb (snd nm =? 0) then free (snd nm) else ret tt) ;;;;
  free np ;;;;
  ret (end_or_null e).

(** str_to_rdata_ubuf.c:84-98, base64_str_to_ubuf; result: buf_len. *)
Definition base64_h (u : ptr) (s : bytes) : hm Z :=
  b <-- alloc (CBytes (repeat (-1) (length s + 1))) ;;;
  o <-- lift (base64_str_to_bytes s) ;;;
  store b (CBytes o) ;;;;
  l <-- load_bytes b ;;;
  ubuf_append_h u l ;;;;
  free b ;;;;
  ret (zlen o).

(** A temporary copy of [t], a computation on it, and its free before the result is looked at (lines 560-567, 767-770,
    789-795, 918-924, 976-978). *)
Definition with_dup_h {A} (t : bytes) (f : bytes -> A) : hm A :=
  p <-- dup_h t ;;; t' <-- load_bytes p ;;; free p ;;;; ret (f t').

(** str_to_rdata_ubuf.c:510-595. *)
Definition prefix_field_h (u : ptr) (s : bytes) : hm (option bytes) :=
  let '(t, e) := token s in
  if negb (forallb is_digit t) then herr res_parse_error
  else match scan_u s with
  | ScanNone => herr res_parse_error
  | ScanEof => hfail (PureFault Uninit)
  | ScanVal v _ =>
    let p := v mod 256 in
    if p >? 128 then herr res_parse_error
    else
    ubuf_append_h u [p] ;;;;
    let s := skip_space e in
    match s with
    | [] => herr res_parse_error
    | _ =>
      let '(t, e) := token s in
      let oclen := (128 - p) / 8 + (if negb (p mod 8 =? 0) then 1 else 0) in
      r <-- with_dup_h t inet_pton6 ;;;
      match r with
      | Some a =>
        o <-- lift (rds a (16 - oclen) oclen) ;;;
        ubuf_append_h u o ;;;;
        match end_or_null e with
        | Some e' =>
          if p =? 0 then match skip_space e' with [] => ret None | _ => herr res_parse_error end
          else ret (Some e')
        | None => ret None
        end
      | None => if negb (p =? 128) then herr res_parse_error else ret (Some s)
      end
    end
  end.

(** str_to_rdata_ubuf.c:629-666. *)
Definition hash_field_h (u : ptr) (s : bytes) : hm (option bytes) :=
  let '(t, e) := token s in
  if zlen t =? 1 then s <-- lift (skip s 1) ;;; ubuf_append_h u [0] ;;;; ret (Some s)
  else
  b <-- alloc (CBytes (repeat (-1) (length t))) ;;;
  o <-- lift (base32_decode (zlen t) t) ;;;
  match o with
  | None => free b ;;;; herr res_parse_error
  | Some l =>
    if negb (zlen l mod 256 =? zlen l) then free b ;;;; herr res_parse_error
    else
    store b (CBytes l) ;;;;
    ubuf_append_h u [zlen l] ;;;;
    l <-- load_bytes b ;;;
    ubuf_append_h u l ;;;;
    free b ;;;;
    ret (Some e)
  end.

(** str_to_rdata_ubuf.c:140-341: only the ech case (lines 220-235) allocates. *)
Definition str_to_svcparam_h (u : ptr) (key : Z) (val : option bytes) : hm unit :=
  match val with
  | Some v =>
    if key =? spr_ech then
      match strtok 32 (cstr v) with
      | None => herr res_parse_error
      | Some (t, _) =>
        if zlen t >? 255 then herr res_parse_error
        else
        ubuf_append_h u (be16_octets key ++ [0; 0]) ;;;;
        n <-- base64_h u t ;;;
        ubuf_set_h u (fun c => firstn (length c - Z.to_nat n - 2) c ++ be16_octets (n mod 65536) ++ skipn (length c - Z.to_nat n) c)
      end
    else o <-- lift (str_to_svcparam key val) ;;; ubuf_append_h u o
  | None => o <-- lift (str_to_svcparam key val) ;;; ubuf_append_h u o
  end.

(** str_to_rdata_ubuf.c:945-1036. The value is first appended to the ubuf, copied to dup and clipped (lines 1017-1026). *)
Fixpoint svcparams_h (fuel : nat) (u : ptr) (s : bytes) : hm unit :=
  match fuel with
  | O => fun _ => HNoFuel
  | S k =>
    match s with
    | [] => ret tt
    | c :: r =>
      if c =? 32 then svcparams_h k u r
      else
      let '(ks, val) := split_at (fun c => (c =? 61) || (c =? 32)) s in
      key <-- with_dup_h ks str_to_svckey ;;;
      if key =? spr_invalid then herr res_parse_error
      else
      let bare :=
        if negb (key =? spr_nd_alpn) then herr res_parse_error
        else str_to_svcparam_h u key None ;;;; svcparams_h k u val in
      match val with
      | [] => bare
      | c :: v =>
        if c =? 61 then
          match from_str_string v with
          | None => herr res_parse_error
          | Some (l, e) =>
            p <-- alloc (CBytes l) ;;;
            l' <-- load_bytes p ;;;
            on_err (str_to_svcparam_h u key (Some l')) (free p) ;;;;
            free p ;;;;
            svcparams_h k u e
          end
        else bare
      end
    end
  end.

(** str_to_rdata_ubuf.c:1057-1082; [w]: rrtypes. On the error exit the vector is destroyed. *)
Fixpoint bitmap_h (fuel : nat) (w : ptr) (s : bytes) : hm unit :=
  match fuel with
  | O => fun _ => HNoFuel
  | S k =>
    match s with
    | [] => ret tt
    | c :: r =>
      if isspace c then bitmap_h k w r
      else
      let '(t, e) := token s in
      p <-- dup_h t ;;;
      t' <-- load_bytes p ;;;
      let v := str_to_rrtype t' in
      if (v =? 0) && negb (strcasecmp t' (lit "TYPE0") =? 0) then
        free p ;;;; ubuf_destroy_h w ;;;; herr res_parse_error
      else
      free p ;;;; ubuf_append_h w [v] ;;;; bitmap_h k w e
    end
  end.
(** str_to_rdata_ubuf.c:1041-1126. The u16buf is a vector of numbers. *)
Definition bitmap_field_h (u : ptr) (s : bytes) : hm (option bytes) :=
  w <-- ubuf_new_h ;;;
  bitmap_h (S (length s)) w s ;;;;
  d <-- load_ubuf w ;;;
  ts <-- load_bytes d ;;;
  o <-- lift (types_to_bitmap ts) ;;;
  ubuf_append_h u o ;;;;
  ubuf_destroy_h w ;;;;
  ret None.

(** str_to_rdata_ubuf.c:440-1131, the switch; the fields without allocations are those of ModelFromStr.v. Result: str. *)
Definition text_field_h (u : ptr) (t : rdf) (s : bytes) : hm (option bytes) :=
  match t with
  | rdf_name | rdf_uname => name_field_h u s
  | rdf_bytes_b64 => n <-- base64_h u s ;;; e <-- lift (skip s n) ;;; ret (Some e)
  | rdf_ipv6prefix => prefix_field_h u s
  | rdf_hash => hash_field_h u s
  | rdf_ipv4 =>
    let '(t, e) := token s in
    r <-- with_dup_h t inet_pton4 ;;;
    match r with None => herr res_parse_error | Some a => ubuf_append_h u a ;;;; ret (Some e) end
  | rdf_ipv6 =>
    let '(t, e) := token s in
    r <-- with_dup_h t inet_pton6 ;;;
    match r with None => herr res_parse_error | Some a => ubuf_append_h u a ;;;; ret (end_or_null e) end
  | rdf_rrtype =>
    let '(t, e) := token s in
    v <-- with_dup_h t str_to_rrtype ;;;
    if v >? 0 then ubuf_append_h u (be16_octets v) ;;;; ret (end_or_null e) else herr res_parse_error
  | rdf_svcparams => svcparams_h (S (length s)) u s ;;;; ret (Some s)
  | rdf_type_bitmap => bitmap_field_h u s
  | _ => x <-- lift (parse_text_field t s) ;;; ubuf_append_h u (fst x) ;;;; ret (snd x)
  end.

(** str_to_rdata_ubuf.c:427-1133. *)
Fixpoint text_fields_h (u : ptr) (ts : list rdf) (s : option bytes) : hm unit :=
  match ts with
  | [] => ret tt
  | t :: ts =>
    match s with
    | None => ret tt
    | Some s =>
      match skip_space s with
      | [] => ret tt
      | s => e <-- text_field_h u t s ;;; text_fields_h u ts e
      end
    end
  end.

(** str_to_rdata_ubuf.c:350-1139, _wdns_str_to_rdata_ubuf: the label err clips the ubuf (line 1137). *)
Definition str_to_rdata_ubuf_h (u : ptr) (s : bytes) (rrtype rrclass : Z) : hm unit :=
  d <-- load_ubuf u ;;; c <-- load_bytes d ;;;
  let n := length c in
  on_err
    (match lookup_descr rrtype with
     | None => o <-- lift (str_to_generic_rdata s) ;;; ubuf_append_h u o
     | Some d =>
       if negb ((d_class d =? class_un) || (d_class d =? rrclass)) then ret tt
       else text_fields_h u (d_types d) (Some s)
     end)
    (ubuf_set_h u (firstn n)).

(** wdns/rdata_to_str.c:34-46, wdns_str_to_rdata. Result: *rdata and *rdlen. *)
Definition str_to_rdata_h (s : bytes) (rrtype rrclass : Z) : hm (ptr * Z) :=
  u <-- ubuf_new_h ;;;
  on_err (str_to_rdata_ubuf_h u s rrtype rrclass) (ubuf_destroy_h u) ;;;;
  x <-- ubuf_detach_h u ;;;
  ubuf_destroy_h u ;;;;
  ret x.

(** ** Objects to text *)

(** rdata_to_ubuf.c:64-81, bytes_to_ubuf_base64. *)
Definition to_base64_h (u : ptr) (src : bytes) (n : Z) : hm unit :=
  b <-- alloc (CBytes (repeat (-1) (Z.to_nat (2 * (n mod 65536) + 1)))) ;;;
  t <-- lift (bytes_to_base64 src n) ;;;
  store b (CBytes t) ;;;;
  l <-- load_bytes b ;;;
  ubuf_append_h u l ;;;;
  free b.

(** rdata_to_ubuf.c:88-292: only the ech case (lines 156-164) allocates. *)
Definition svcparam_to_str_h (u : ptr) (key : Z) (src : bytes) (n : Z) : hm (option res) :=
  if key =? spr_ech then to_base64_h u src n ;;;; ubuf_append_h u [32] ;;;; ret None
  else x <-- lift (svcparam_to_str key src n) ;;; ubuf_append_h u (fst x) ;;;; ret (snd x).

(** rdata_to_ubuf.c:575-626. *)
Fixpoint svcparams_text_h (fuel : nat) (u : ptr) (src : bytes) (n : Z) : hm tflow :=
  match fuel with
  | O => fun _ => HNoFuel
  | S k =>
    if n >? 0 then
      if n <? 2 then ret TErr else
      v <-- lift (take_rd src 2) ;;;
      let key := be16 (nth 0 v 0) (nth 1 v 0) in
      if key =? spr_invalid then ret TErr else
      ubuf_append_h u (svckey_to_str key ++ (if negb (key =? spr_nd_alpn) then [61] else [])) ;;;;
      let src := adv src 2 in let n := n - 2 in
      if n <? 2 then ret TErr else
      l <-- lift (take_rd src 2) ;;;
      let val_len := be16 (nth 0 l 0) (nth 1 l 0) in
      let src := adv src 2 in let n := n - 2 in
      if n <? val_len then ret TErr else
      r <-- svcparam_to_str_h u key src val_len ;;;
      match r with None => svcparams_text_h k u (adv src val_len) (n - val_len) | Some r => ret (TRes r) end
    else ret (TNext src n)
  end.

(** rdata_to_ubuf.c:353-733. *)
Definition field_text_h (u : ptr) (t : rdf) (src : bytes) (n : Z) : hm tflow :=
  match t with
  | rdf_bytes_b64 => to_base64_h u src n ;;;; ret (TNext src 0)
  | rdf_svcparams => svcparams_text_h (S (length src)) u src n
  | _ => x <-- lift (field_text t src n) ;;; ubuf_append_h u (fst x) ;;;; ret (snd x)
  end.

(** rdata_to_ubuf.c:349-734. *)
Fixpoint fields_text_h (u : ptr) (ts : list rdf) (src : bytes) (n : Z) : hm tflow :=
  match ts with
  | [] => ret (TNext src n)
  | t :: ts =>
    if n =? 0 then ret (TNext src n)
    else
    f <-- field_text_h u t src n ;;;
    match f with TNext src n => fields_text_h u ts src n | _ => ret f end
  end.

(** rdata_to_ubuf.c:294-749. *)
Definition rdata_to_ubuf_h (u : ptr) (rdata : bytes) (rdlen rrtype rrclass : Z) : hm unit :=
  match lookup_descr rrtype with
  | None =>
    t <-- lift (u64_text 6 rdlen) ;;;
    h <-- lift (hex_blanks (Z.to_nat rdlen) 6 rdata) ;;;
    ubuf_append_h u ([92; 35; 32] ++ t ++ [32] ++ h)
  | Some d =>
    if negb ((d_class d =? class_un) || (d_class d =? rrclass)) then ret tt
    else
    f <-- fields_text_h u (d_types d) rdata rdlen ;;;
    match f with
    | TNext _ _ => ubuf_set_h u strip_blank
    | TErr => ubuf_append_h u (lit " ### PARSE ERROR ###")
    | TRes r => ubuf_append_h u (lit " ### PARSE ERROR #" ++ fmt_u (res_code r) ++ lit " ###")
    end
  end.

(** The common shape of the functions that return a string (rdata_to_str.c:21-31, rr_to_str.c:20-30, rrset_to_str.c:20-30,
    rrset_array_to_str.c:20-30): a new ubuf, its contents, NUL, detach, destroy. *)
Definition to_str_h (f : ptr -> hm unit) : hm ptr :=
  u <-- ubuf_new_h ;;; f u ;;;; ubuf_cterm_h u ;;;; x <-- ubuf_detach_h u ;;; ubuf_destroy_h u ;;;; ret (fst x).

Definition rdata_to_str_h (rdata : bytes) (rdlen rrtype rrclass : Z) : hm ptr :=
  to_str_h (fun u => rdata_to_ubuf_h u rdata rdlen rrtype rrclass).

(** wdns/rr_to_ubuf.c:17-58. *)
Definition rr_to_ubuf_h (u : ptr) (x : hrr) (sec : Z) : hm unit :=
  nm <-- load_bytes (hr_name x) ;;;
  name <-- lift (domain_to_str nm (hr_len x)) ;;;
  (if sec =? 0 then ubuf_append_h u [59] else ret tt) ;;;;
  ubuf_append_h u (fst name) ;;;;
  (if negb (sec =? 0) then t <-- lift (u64_text 11 (hr_ttl x)) ;;; ubuf_append_h u ([32] ++ t) else ret tt) ;;;;
  ubuf_append_h u ([32] ++ match rrclass_to_str (hr_class x) with Some s => s | None => lit "CLASS" ++ fmt_u (hr_class x) end) ;;;;
  ubuf_append_h u ([32] ++ match rrtype_to_str (hr_type x) with Some s => s | None => lit "TYPE" ++ fmt_u (hr_type x) end) ;;;;
  (if negb (sec =? 0) then
     ubuf_append_h u [32] ;;;; d <-- load_rdata_h (hr_rdata x) ;;; rdata_to_ubuf_h u d (zlen d) (hr_type x) (hr_class x)
   else ret tt) ;;;;
  ubuf_append_h u [10].
Definition rr_to_str_h (x : hrr) (sec : Z) : hm ptr := to_str_h (fun u => rr_to_ubuf_h u x sec).

(** wdns/rrset_to_ubuf.c:17-37. *)
Definition rrset_to_ubuf_h (u : ptr) (x : hset) (sec : Z) : hm unit :=
  hfor (Z.to_nat (if sec =? 0 then 1 else hs_n x)) 0 (fun i =>
    ps <-- load_ptrs (hs_rdatas x) ;;; q <-- elem ps i ;;;
    rr_to_ubuf_h u (mkHrr (hs_len x) (hs_name x) (hs_type x) (hs_class x) (hs_ttl x) q) sec).
Definition rrset_to_str_h (x : hset) (sec : Z) : hm ptr := to_str_h (fun u => rrset_to_ubuf_h u x sec).

(** wdns/rrset_array_to_ubuf.c:17-22. *)
Definition array_to_ubuf_h (u : ptr) (x : harr) (sec : Z) : hm unit :=
  hfor (Z.to_nat (ha_nrrs x)) 0 (fun i => l <-- load_rrs (ha_rrs x) ;;; r <-- elem l i ;;; rr_to_ubuf_h u r sec).
Definition array_to_str_h (x : harr) (sec : Z) : hm ptr := to_str_h (fun u => array_to_ubuf_h u x sec).

(** The scalar members of a message, as the header text needs them (message_to_str.c:29-59): sections only by n_rrs. *)
Definition head_h (x : hmsg) : bytes :=
  let b := flag_bit (hm_flags x) in
  lit ";; ->>HEADER<<- opcode: " ++ match opcode_to_str (flags_opcode (hm_flags x)) with Some s => s | None => fmt_u (flags_opcode (hm_flags x)) end ++
  lit ", rcode: " ++ match rcode_to_str (hm_rcode x) with Some s => s | None => fmt_u (hm_rcode x) end ++ lit ", id: " ++ fmt_u (hm_id x) ++ [10] ++
  lit ";; flags:" ++ on (b 15) (lit " qr") ++ on (b 10) (lit " aa") ++ on (b 9) (lit " tc") ++ on (b 8) (lit " rd") ++
  on (b 7) (lit " ra") ++ on (b 5) (lit " ad") ++ on (b 4) (lit " cd") ++ lit "; " ++
  lit "QUERY: " ++ fmt_u (ha_nrrs (hm_qd x)) ++ lit ", ANSWER: " ++ fmt_u (ha_nrrs (hm_an x)) ++
  lit ", AUTHORITY: " ++ fmt_u (ha_nrrs (hm_ns x)) ++ lit ", ADDITIONAL: " ++ fmt_u (ha_nrrs (hm_ar x)) ++ [10].

(** wdns/message_to_str.c:61-86: the options are printed to a second ubuf, cut into lines in place, and destroyed. *)
Definition edns_to_ubuf_h (u : ptr) (x : hmsg) : hm unit :=
  if negb (hm_present x) then ret tt
  else
  ubuf_append_h u ([10] ++ lit ";; OPT PSEUDOSECTION:" ++ [10] ++ lit "; EDNS: version: " ++ fmt_u (hm_version x) ++ lit ", flags:" ++
      on (negb (Z.land (hm_eflags x) 32768 =? 0)) (lit " do") ++ lit "; udp: " ++ fmt_u (hm_size x)) ;;;;
  if hm_options x =? 0 then ret tt
  else
  w <-- ubuf_new_h ;;;
  d <-- load_rdata_h (hm_options x) ;;;
  rdata_to_ubuf_h w d (zlen d) 41 class_un ;;;;
  ubuf_cterm_h w ;;;;
  b <-- load_ubuf w ;;;
  t <-- load_bytes b ;;;
  o <-- lift (opt_lines (S (length (cstr t))) (cstr t)) ;;;
  ubuf_append_h u o ;;;;
  ubuf_destroy_h w.

(** wdns/message_to_str.c:18-101. *)
Definition message_to_ubuf_h (u : ptr) (x : hmsg) : hm unit :=
  ubuf_append_h u (head_h x) ;;;;
  edns_to_ubuf_h u x ;;;;
  ubuf_append_h u ([10] ++ lit ";; QUESTION SECTION:" ++ [10]) ;;;; array_to_ubuf_h u (hm_qd x) 0 ;;;;
  ubuf_append_h u ([10] ++ lit ";; ANSWER SECTION:" ++ [10]) ;;;; array_to_ubuf_h u (hm_an x) 1 ;;;;
  ubuf_append_h u ([10] ++ lit ";; AUTHORITY SECTION:" ++ [10]) ;;;; array_to_ubuf_h u (hm_ns x) 2 ;;;;
  ubuf_append_h u ([10] ++ lit ";; ADDITIONAL SECTION:" ++ [10]) ;;;; array_to_ubuf_h u (hm_ar x) 3.
Definition message_to_str_h (x : hmsg) : hm ptr := to_str_h (fun u => message_to_ubuf_h u x).

(** wdns/print_message.c, print_rr.c, print_rrset.c, print_rrset_array.c (lines 17-27 of each): the string up to its NUL is
    written with fputs and freed. Result: what is written to the stream. *)
Definition print_h (f : hm ptr) : hm bytes :=
  p <-- f ;;; t <-- load_bytes p ;;; free p ;;;; ret (cstr t).

(** ** Operations on an RRset *)

(** wdns/deserialize_rrset.c:29-37, the macro copy_bytes: on overflow wdns_clear_rrset(rrset) and return. *)
Definition dcopy_h (x : hset) (buf : bytes) (br sz len : Z) : hm (bytes * bytes * Z) :=
  r <-- lift (dcopy buf br sz len) ;;;
  match r with
  | None => clear_rrset_h x ;;;; herr res_overflow
  | Some y => ret y
  end.

(** wdns/deserialize_rrset.c:64-71. *)
Fixpoint deser_rdatas_h (n : nat) (i : Z) (big : bool) (x : hset) (buf : bytes) (br sz : Z) : hm unit :=
  match n with
  | O => ret tt
  | S n =>
    y <-- dcopy_h x buf br sz 2 ;;;
    let '(l, buf, br) := y in
    let rdlen := load16 big l in
    q <-- alloc (CRdata (repeat (-1) (Z.to_nat rdlen))) ;;;
    ps <-- load_ptrs (hs_rdatas x) ;;; ps <-- upd ps i q ;;; store (hs_rdatas x) (CPtrs ps) ;;;;
    y <-- dcopy_h x buf br sz rdlen ;;;
    let '(d, buf, br) := y in
    store q (CRdata d) ;;;;
    deser_rdatas_h n (i + 1) big x buf br sz
  end.

(** wdns/deserialize_rrset.c:25-74. An error is the overflow exit; the structure is then cleared (its pointers NULL and
    n_rdatas 0), see clear_rrset_h. *)
Definition deserialize_h (big : bool) (buf : bytes) (sz : Z) : hm hset :=
  y <-- dcopy_h (mkHset 0 0 0 0 0 0 0) buf 0 sz 1 ;;;
  let '(l, buf, br) := y in
  let nlen := hd 0 l in
  np <-- alloc (CBytes (repeat (-1) (Z.to_nat nlen))) ;;;
  y <-- dcopy_h (mkHset nlen np 0 0 0 0 0) buf br sz nlen ;;;
  let '(name, buf, br) := y in
  store np (CBytes name) ;;;;
  y <-- dcopy_h (mkHset nlen np 0 0 0 0 0) buf br sz 2 ;;;
  let '(l, buf, br) := y in
  let t := load16 big l in
  y <-- dcopy_h (mkHset nlen np t 0 0 0 0) buf br sz 2 ;;;
  let '(l, buf, br) := y in
  let c := load16 big l in
  y <-- dcopy_h (mkHset nlen np t c 0 0 0) buf br sz 4 ;;;
  let '(l, buf, br) := y in
  let ttl := load32 big l in
  y <-- dcopy_h (mkHset nlen np t c ttl 0 0) buf br sz 2 ;;;
  let '(l, buf, br) := y in
  let n := load16 big l in
  q <-- alloc (CPtrs (repeat 0 (Z.to_nat n))) ;;;
  let x := mkHset nlen np t c ttl n q in
  deser_rdatas_h (Z.to_nat n) 0 big x buf br sz ;;;;
  ret x.

(** wdns/serialize_rrset.c:72-82; [cap]: octets at buf. *)
Fixpoint ser_rdatas_h (n : nat) (i : Z) (big : bool) (cap : Z) (x : hset) (out : bytes) : hm bytes :=
  match n with
  | O => ret out
  | S n =>
    ps <-- load_ptrs (hs_rdatas x) ;;; q <-- elem ps i ;;; d <-- load_rdata_h q ;;;
    out <-- lift (push cap out (store16 big (zlen d))) ;;;
    out <-- lift (push cap out d) ;;;
    ser_rdatas_h n (i + 1) big cap x out
  end.
(** wdns/serialize_rrset.c:47-83. *)
Definition serialize_h (big : bool) (cap : Z) (x : hset) : hm bytes :=
  nm <-- load_bytes (hs_name x) ;;;
  out <-- lift (push cap [] [hs_len x]) ;;;
  out <-- lift (push cap out nm) ;;;
  out <-- lift (push cap out (store16 big (hs_type x))) ;;;
  out <-- lift (push cap out (store16 big (hs_class x))) ;;;
  out <-- lift (push cap out (store32 big (hs_ttl x))) ;;;
  out <-- lift (push cap out (store16 big (hs_n x))) ;;;
  ser_rdatas_h (Z.to_nat (hs_n x)) 0 big cap x out.

(** wdns/downcase_rrset.c:23-30. *)
Fixpoint down_rdatas_h (n : nat) (i : Z) (x : hset) : hm res :=
  match n with
  | O => ret res_success
  | S n =>
    ps <-- load_ptrs (hs_rdatas x) ;;; q <-- elem ps i ;;;
    if q =? 0 then down_rdatas_h n (i + 1) x
    else
    d <-- load_rdata_h q ;;;
    y <-- lift (downcase_rdata d (zlen d) (hs_type x) (hs_class x)) ;;;
    store q (CRdata (snd y)) ;;;;
    match fst y with res_success => down_rdatas_h n (i + 1) x | r => ret r end
  end.
(** wdns/downcase_rrset.c:17-33. *)
Definition downcase_h (x : hset) : hm res :=
  nm <-- load_bytes (hs_name x) ;;;
  nm' <-- lift (downcase_name nm (hs_len x)) ;;;
  store (hs_name x) (CBytes nm') ;;;;
  down_rdatas_h (Z.to_nat (hs_n x)) 0 x.

(** qsort of the pointers, rdata_cmp reading the blocks: insertion sort, as in ModelRRset.v. *)
Fixpoint insert_ptr_h (p : ptr) (l : list ptr) : hm (list ptr) :=
  match l with
  | [] => ret [p]
  | q :: l' =>
    a <-- load_rdata_h p ;;; b <-- load_rdata_h q ;;;
    if rdata_cmp a b <=? 0 then ret (p :: l) else (r <-- insert_ptr_h p l' ;;; ret (q :: r))
  end.
Fixpoint qsort_h (l : list ptr) : hm (list ptr) :=
  match l with [] => ret [] | p :: l => (r <-- qsort_h l ;;; insert_ptr_h p r) end.
(** wdns/sort_rrset.c:38-47. *)
Definition sort_h (x : hset) : hm unit :=
  if hs_n x >? 1 then ps <-- load_ptrs (hs_rdatas x) ;;; ps <-- qsort_h ps ;;; store (hs_rdatas x) (CPtrs ps)
  else ret tt.
