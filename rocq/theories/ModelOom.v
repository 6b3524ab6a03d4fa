(** ModelOom.v: wdns_str_to_name and wdns_str_to_rdata when memory runs out: any malloc, calloc, realloc or strdup may fail.

    The values are those of ModelFromStr.v; this file adds where memory is asked for. A failed my_malloc, my_calloc or
    my_realloc (my_alloc.h) ends the process by assert; a failed malloc, calloc or strdup gives NULL, which the code does not
    look for. [fails n]: the n-th request of the process fails. An append to a ubuf asks for memory when the vector is full;
    here every field that appends asks once, before it is read: as [fails] is any function, this covers whatever requests the
    vectors really make. Not modelled here: which blocks are live (ModelHeap2.v has that). *)
From Verif Require Import Base Libc ModelName ModelDescr ModelFormat ModelTables ModelFromStr.

(** How a call ends: [OAbort] the failed assert, [ONull] an access through NULL. The number counts the requests so far. *)
Inductive oout (A : Type) := OVal (a : A) (n : Z) | OErr (r : res) (n : Z) | OAbort | ONull | OUB (f : fault) | ONoFuel.
Arguments OVal {A} a n.
Arguments OErr {A} r n.
Arguments OAbort {A}.
Arguments ONull {A}.
Arguments OUB {A} f.
Arguments ONoFuel {A}.
Definition om (A : Type) := Z -> oout A.
Definition oret {A} (a : A) : om A := fun n => OVal a n.
Definition obind {A B} (e : om A) (k : A -> om B) : om B := fun n =>
  match e n with OVal a n => k a n | OErr r n => OErr r n | OAbort => OAbort | ONull => ONull | OUB f => OUB f | ONoFuel => ONoFuel end.
Definition oerr {A} (r : res) : om A := fun n => OErr r n.
Definition olift {A} (o : outcome A) : om A := fun n =>
  match o with Ok a => OVal a n | Err r => OErr r n | UB f => OUB f | NoFuel => ONoFuel end.
Notation "x <~ e ;;; k" := (obind e (fun x => k)) (at level 61, e at next level, right associativity).
Notation "e ~;; k" := (obind e (fun _ => k)) (at level 61, right associativity).

Section Oom.
Variable fails : Z -> bool.

(** my_alloc.h: my_malloc, my_calloc, my_realloc. *)
Definition must : om unit := fun n => if fails n then OAbort else OVal tt (n + 1).
(** malloc, calloc, strdup, strndup: whether the result is a block. *)
Definition raw : om bool := fun n => OVal (negb (fails n)) (n + 1).
(** An access through the result. *)
Definition use (p : bool) : om unit := if p then oret tt else fun _ => ONull.

(** str_to_name.c:27-138: one my_malloc. *)
Definition str_to_name_o (downcase : bool) (s after : bytes) : om (bytes * Z) :=
  must ~;; olift (str_to_name_gen downcase s after).

(** str_to_rdata_ubuf.c:441-471: strndup or strdup, calloc, then strlen(s) and name->len = 1 (str_to_name.c:36-37). *)
Definition name_field_o (s : bytes) : om (bytes * option bytes) :=
  let '(t, e) := token s in
  sp <~ raw ;;; np <~ raw ;;; use sp ~;; use np ~;;
  x <~ str_to_name_o false t [] ;;;
  must ~;;
  l <~ olift (take_rd (fst x) (snd x)) ;;;
  oret (l, end_or_null e).

(** str_to_rdata_ubuf.c:84-98: base64_decode_block stores to the block first of all (b64_decode.c:33). *)
Definition base64_o (s : bytes) : om bytes :=
  b <~ raw ;;; use b ~;; o <~ olift (base64_str_to_bytes s) ;;; must ~;; oret o.

(** A copy by strdup which is read at once. *)
Definition with_dup_o {A} (t : bytes) (f : bytes -> A) : om A := p <~ raw ;;; use p ~;; oret (f t).

(** str_to_rdata_ubuf.c:510-595; inet_pton reads the copy. *)
Definition prefix_field_o (s : bytes) : om (bytes * option bytes) :=
  let '(t, e) := token s in
  if negb (forallb is_digit t) then oerr res_parse_error
  else match scan_u s with
  | ScanNone => oerr res_parse_error
  | ScanEof => olift (UB Uninit)
  | ScanVal v _ =>
    let p := v mod 256 in
    if p >? 128 then oerr res_parse_error
    else
    must ~;;
    let s := skip_space e in
    match s with
    | [] => oerr res_parse_error
    | _ =>
      let '(t, e) := token s in
      let oclen := (128 - p) / 8 + (if negb (p mod 8 =? 0) then 1 else 0) in
      r <~ with_dup_o t inet_pton6 ;;;
      match r with
      | Some a =>
        must ~;;
        o <~ olift (rds a (16 - oclen) oclen) ;;;
        match end_or_null e with
        | Some e' =>
          if p =? 0 then match skip_space e' with [] => oret (p :: o, None) | _ => oerr res_parse_error end
          else oret (p :: o, Some e')
        | None => oret (p :: o, None)
        end
      | None => if negb (p =? 128) then oerr res_parse_error else oret ([p], Some s)
      end
    end
  end.

(** b32_decode.c:131-204: whether base32_decode stores an octet. [si]: number of digits in s[]. *)
Fixpoint b32_stores (data : bytes) (si : Z) : bool :=
  match data with
  | [] => false
  | c :: r =>
    if c =? 61 then (si >=? 2) || b32_stores r 0
    else if base32_map c =? 255 then false
    else
    let si := si + 1 in
    if (si =? 8) || (match r with [] => true | _ => false end) then (si >=? 2) || b32_stores r 0 else b32_stores r si
  end.
(** str_to_rdata_ubuf.c:629-666: base32_decode stores through the result of malloc; free(NULL) does nothing. *)
Definition hash_field_o (s : bytes) : om (bytes * option bytes) :=
  let '(t, e) := token s in
  if zlen t =? 1 then must ~;; s <~ olift (skip s 1) ;;; oret ([0], Some s)
  else
  b <~ raw ;;;
  use (b || negb (b32_stores t 0)) ~;;
  o <~ olift (base32_decode (zlen t) t) ;;;
  match o with
  | None => oerr res_parse_error
  | Some l =>
    if negb (zlen l mod 256 =? zlen l) then oerr res_parse_error
    else must ~;; oret (zlen l :: l, Some e)
  end.

(** str_to_rdata_ubuf.c:140-341 with a value: the ech case copies by base64_o; the appends of the others are one. *)
Definition str_to_svcparam_o (key : Z) (v : bytes) : om bytes :=
  must ~;;
  if key =? spr_ech then
    match strtok 32 (cstr v) with
    | None => oerr res_parse_error
    | Some (t, _) =>
      if zlen t >? 255 then oerr res_parse_error
      else o <~ base64_o t ;;; oret (be16_octets key ++ be16_octets (zlen o mod 65536) ++ o)
    end
  else olift (str_to_svcparam key (Some v)).
(** The same with val = NULL, len_val = 0: strtok_r(NULL) takes its place from endp, which is NULL (glibc reads it); alpn and
    the default case read len_val octets, that is none. *)
Definition str_to_svcparam_null_o (key : Z) : om bytes :=
  must ~;;
  if key =? spr_nd_alpn then olift (str_to_svcparam key None)
  else if (key =? spr_mandatory) || (key =? spr_port) || (key =? spr_ech) || (key =? spr_ipv4hint) || (key =? spr_ipv6hint) then fun _ => ONull
  else olift (str_to_svcparam key (Some [])).

(** str_to_rdata_ubuf.c:945-1036: strndup of the key, calloc of the value (lines 1023-1028), ubuf_clip: memcpy to NULL is taken to do
    nothing when its size is 0. *)
Fixpoint svcparams_o (fuel : nat) (s : bytes) : om bytes :=
  match fuel with
  | O => fun _ => ONoFuel
  | S k =>
    match s with
    | [] => oret []
    | c :: r =>
      if c =? 32 then svcparams_o k r
      else
      let '(ks, val) := split_at (fun c => (c =? 61) || (c =? 32)) s in
      key <~ with_dup_o ks str_to_svckey ;;;
      if key =? spr_invalid then oerr res_parse_error
      else
      let bare :=
        if negb (key =? spr_nd_alpn) then oerr res_parse_error
        else
        must ~;;
        o <~ olift (str_to_svcparam key None) ;;;
        o' <~ svcparams_o k val ;;;
        oret (o ++ o') in
      match val with
      | [] => bare
      | c :: v =>
        if c =? 61 then
          must ~;;
          match from_str_string v with
          | None => oerr res_parse_error
          | Some (l, e) =>
            dup <~ raw ;;;
            o <~ (if dup then (must ~;; str_to_svcparam_o key l)
                  else match l with [] => must ~;; str_to_svcparam_null_o key | _ => fun _ => ONull end) ;;;
            o' <~ svcparams_o k e ;;;
            oret (o ++ o')
          end
        else bare
      end
    end
  end.

(** str_to_rdata_ubuf.c:1057-1082: strdup, wdns_str_to_rrtype(s_rrtype), u16buf_add. *)
Fixpoint bitmap_o (fuel : nat) (s : bytes) : om (list Z) :=
  match fuel with
  | O => fun _ => ONoFuel
  | S k =>
    match s with
    | [] => oret []
    | c :: r =>
      if isspace c then bitmap_o k r
      else
      let '(t, e) := token s in
      v <~ with_dup_o t str_to_rrtype ;;;
      if (v =? 0) && negb (strcasecmp t (lit "TYPE0") =? 0) then oerr res_parse_error
      else must ~;; o <~ bitmap_o k e ;;; oret (v :: o)
    end
  end.

(** str_to_rdata_ubuf.c:440-1131, the switch. *)
Definition text_field_o (t : rdf) (s : bytes) : om (bytes * option bytes) :=
  match t with
  | rdf_name | rdf_uname => name_field_o s
  | rdf_bytes_b64 => o <~ base64_o s ;;; e <~ olift (skip s (zlen o)) ;;; oret (o, Some e)
  | rdf_ipv6prefix => prefix_field_o s
  | rdf_hash => hash_field_o s
  | rdf_ipv4 =>
    let '(t, e) := token s in
    r <~ with_dup_o t inet_pton4 ;;;
    match r with None => oerr res_parse_error | Some a => must ~;; oret (a, Some e) end
  | rdf_ipv6 =>
    let '(t, e) := token s in
    r <~ with_dup_o t inet_pton6 ;;;
    match r with None => oerr res_parse_error | Some a => must ~;; oret (a, end_or_null e) end
  | rdf_rrtype =>
    let '(t, e) := token s in
    v <~ with_dup_o t str_to_rrtype ;;;
    if v >? 0 then must ~;; oret (be16_octets v, end_or_null e) else oerr res_parse_error
  | rdf_svcparams => o <~ svcparams_o (S (length s)) s ;;; oret (o, Some s)
  | rdf_type_bitmap =>
    must ~;;
    ts <~ bitmap_o (S (length s)) s ;;;
    o <~ olift (types_to_bitmap ts) ;;;
    must ~;; oret (o, None)
  | _ => must ~;; olift (parse_text_field t s)
  end.

(** str_to_rdata_ubuf.c:427-1133, the loop over the fields. *)
Fixpoint text_fields_o (ts : list rdf) (s : option bytes) : om bytes :=
  match ts with
  | [] => oret []
  | t :: ts =>
    match s with
    | None => oret []
    | Some s =>
      match skip_space s with
      | [] => oret []
      | s => x <~ text_field_o t s ;;; o' <~ text_fields_o ts (snd x) ;;; oret (fst x ++ o')
      end
    end
  end.

(** str_to_rdata_ubuf.c:1136-1138: the label err; ubuf_clip may give memory back by my_realloc (vector.h:114-118). *)
Definition clip_on_err {A} (e : om A) : om A := fun n =>
  match e n with OErr r n => if fails n then OAbort else OErr r (n + 1) | x => x end.

(** str_to_rdata_ubuf.c:352-1139 and rdata_to_str.c:34-46, wdns_str_to_rdata: ubuf_new, the fields, ubuf_detach. *)
Definition str_to_rdata_o (s : bytes) (rrtype rrclass : Z) : om bytes :=
  must ~;; must ~;;
  o <~ clip_on_err (match lookup_descr rrtype with
        | None => must ~;; olift (str_to_generic_rdata s)
        | Some d =>
          if negb ((d_class d =? class_un) || (d_class d =? rrclass)) then oret []
          else text_fields_o (d_types d) (Some s)
        end) ;;;
  must ~;; oret o.
End Oom.
